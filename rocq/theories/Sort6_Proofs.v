(** Proofs about sorting: algorithms that meet the standard, and the sorting
    functions on arrays. *)
From Coq Require Import List ZArith Bool Lia Permutation Sorted.
From Verif Require Import Prelude PreludeFacts Strides_Model Strides_Spec Strides_Proofs Container_Model Container_Spec Container_Proofs
  Access_Model Semantic_Spec Manip_Model Reduce13_Proofs Accum_Spec Sort_Model Sort_Spec Sort_Proofs Sort2_Proofs Sort3_Proofs Sort4_Proofs Sort5_Proofs.
Import ListNotations.
Open Scope Z_scope.

(** ** Insertion sort meets the requirements *)
Fixpoint insert {A} (lt : A -> A -> bool) (x : A) (l : list A) : list A :=
  match l with [] => [x] | y :: t => if lt y x then y :: insert lt x t else x :: l end.
Fixpoint isort {A} (lt : A -> A -> bool) (l : list A) : list A :=
  match l with [] => [] | x :: t => insert lt x (isort lt t) end.
Definition simple_algos : algos :=
  mk_algos (fun A lt l => isort lt l) (fun A lt l => isort lt l) (fun A lt l _ => isort lt l).

Section Insertion.
Context {A : Type} (lt : A -> A -> bool).
Lemma insert_perm x : forall l, Permutation (x :: l) (insert lt x l).
Proof.
  induction l as [|y l IH]; [reflexivity|]. cbn [insert]. destruct (lt y x); [|reflexivity].
  rewrite perm_swap. constructor. exact IH.
Qed.
Lemma isort_perm : forall l, Permutation l (isort lt l).
Proof. induction l as [|x l IH]; [constructor|]. cbn [isort]. rewrite <- insert_perm. constructor. exact IH. Qed.
Lemma insert_sorted x : forall l, strict_weak_order lt (x :: l) -> sorted lt l -> sorted lt (insert lt x l).
Proof.
  induction l as [|y l IH]; intros Hs S; [constructor; constructor|]. inversion S as [|? ? S' Hy]; subst. cbn [insert]. destruct (lt y x) eqn:E.
  - constructor.
    + apply IH; [|exact S']. apply (swo_incl lt (x :: y :: l)); [exact Hs|]. intros z [Hz|Hz]; cbn; auto.
    + apply Forall_forall. intros z Hz. apply (Permutation_in _ (Permutation_sym (insert_perm x l))) in Hz. destruct Hz as [<-|Hz].
      * apply (asym lt (x :: y :: l)); cbn; auto.
      * rewrite Forall_forall in Hy. apply Hy. exact Hz.
  - constructor; [exact S|]. constructor; [exact E|]. apply Forall_forall. intros z Hz. rewrite Forall_forall in Hy.
    apply (nlt_trans lt (x :: y :: l) x y z); cbn; auto.
Qed.
Lemma isort_sorted : forall l, strict_weak_order lt l -> sorted lt (isort lt l).
Proof.
  induction l as [|x l IH]; intros Hs; [constructor|]. cbn [isort]. apply insert_sorted.
  - apply (swo_incl lt (x :: l)); [exact Hs|]. intros z [Hz|Hz]; [left; exact Hz|right].
    apply (Permutation_in _ (Permutation_sym (isort_perm l))). exact Hz.
  - apply IH. apply (swo_incl lt (x :: l)); [exact Hs|]. intros z Hz. right. exact Hz.
Qed.
Lemma insert_filter z x : forall l, strict_weak_order lt (z :: x :: l) -> filter (equiv lt z) (insert lt x l) = filter (equiv lt z) (x :: l).
Proof.
  induction l as [|y l IH]; intros Hs; [reflexivity|]. cbn [insert]. destruct (lt y x) eqn:E; [|reflexivity].
  cbn [filter] in *. rewrite IH by (apply (swo_incl lt (z :: x :: y :: l)); [exact Hs|]; intros w [Hw|[Hw|Hw]]; cbn; auto).
  destruct (equiv lt z x) eqn:Ex; [|reflexivity]. destruct (equiv lt z y) eqn:Ey; [|reflexivity]. exfalso.
  unfold equiv in Ex, Ey. apply andb_true_iff in Ex, Ey. rewrite !negb_true_iff in Ex, Ey. destruct Hs as (_ & _ & H3).
  destruct (H3 x z y) as [_ X]; cbn; auto; try tauto. congruence.
Qed.
Lemma isort_filter z : forall l, strict_weak_order lt (z :: l) -> filter (equiv lt z) (isort lt l) = filter (equiv lt z) l.
Proof.
  induction l as [|x l IH]; intros Hs; [reflexivity|]. cbn [isort]. rewrite insert_filter.
  - cbn [filter]. rewrite IH; [reflexivity|]. apply (swo_incl lt (z :: x :: l)); [exact Hs|]. intros w [Hw|Hw]; cbn; auto.
  - apply (swo_incl lt (z :: x :: l)); [exact Hs|]. intros w [Hw|[Hw|Hw]]; cbn; auto.
    right. right. apply (Permutation_in _ (Permutation_sym (isort_perm l))). exact Hw.
Qed.
Lemma sorted_parted k : forall l, sorted lt l -> parted lt k l.
Proof.
  intros l S. revert k. unfold sorted in S. induction S as [|x l S IH Hx]; intros [|k] u v Hu Hv; cbn [firstn skipn] in *; try destruct Hu.
  - subst u. rewrite Forall_forall in Hx. apply Hx. rewrite <- (firstn_skipn k l). apply in_app_iff. right. exact Hv.
  - apply (IH k); assumption.
Qed.
End Insertion.

Lemma simple_algos_ok : std_ok simple_algos.
Proof.
  split; [|split]; cbn.
  - intros A lt l Hs. split; [apply isort_perm|apply isort_sorted; exact Hs].
  - intros A lt l Hs. split; [apply isort_perm|]. split; [apply isort_sorted; exact Hs|]. intros x Hx. apply isort_filter.
    apply (swo_incl lt l); [exact Hs|]. intros z [Hz|Hz]; [subst; exact Hx|exact Hz].
  - intros A lt l k Hs _. split; [apply isort_perm|]. split; apply sorted_parted, isort_sorted; exact Hs.
Qed.

(** ** Arrays *)
Lemma elem_in_data {V} (c : cont V) ev y : consistent c -> is_order (ct_layout c) ->
  (forall jx, in_bounds (ct_shape c) jx -> elt c jx = Ok (ev jx)) -> elem_of (ct_shape c) ev y -> In y (ct_data c).
Proof. intros Hc Hl He (jx & B & <-). apply (nth_error_In _ _ (data_at c ev Hc Hl He jx B)). Qed.

Section Results.
Context {V : Type} (SL DL : layout) (fresh : list V -> Z -> list V) (fresh_i : list Z -> Z -> list Z) (n0 : nat) (v0 : V) (a : algos) (lt : V -> V -> bool).
Hypothesis Hfresh : resizes fresh.
Hypothesis Hfreshi : resizes fresh_i.
Hypothesis HDL : is_order DL.
Hypothesis Ha : std_ok a.
Context (c : cont V) (ev : list Z -> V) (axis : Z).
Hypothesis Hc : consistent c.
Hypothesis Hdoc : documented c.
Hypothesis Hl : is_order (ct_layout c).
Hypothesis Hlay : SL = ct_layout c \/ (SL = dynamic /\ DL = ct_layout c /\ n0 = 0%nat).
Hypothesis He : forall jx, in_bounds (ct_shape c) jx -> elt c jx = Ok (ev jx).
Hypothesis Hdim : (1 <= length (ct_shape c))%nat.
Hypothesis Hsmall : Z.of_nat (length (ct_shape c)) < 2 ^ 63.
Hypothesis Haxis : valid_axis (length (ct_shape c)) axis.
Hypothesis Hlt : strict_weak_order lt (ct_data c).
Let ax := the_axis (length (ct_shape c)) axis.
Let n := nth ax (ct_shape c) 0.

Lemma elems_swo l : (forall y, In y l -> elem_of (ct_shape c) ev y) -> strict_weak_order lt l.
Proof. intros H. apply (swo_incl lt (ct_data c)); [exact Hlt|]. intros y Hy. apply (elem_in_data c ev); auto. Qed.

Lemma lane_swo ix : in_bounds (ct_shape c) ix -> strict_weak_order lt (lane ev ax n ix).
Proof. intros B. apply elems_swo. intros y Hy. exact (lane_elem (ct_shape c) ev ax n ix y B eq_refl Hy). Qed.

Lemma sort_lemma : exists r ev', sort SL DL fresh n0 v0 a lt c axis = Ok r /\ ct_layout r = ct_layout c /\ array r (ct_shape c) ev' /\
  forall ix, in_bounds (ct_shape c) ix -> Permutation (lane ev ax n ix) (lane ev' ax n ix) /\ sorted lt (lane ev' ax n ix).
Proof.
  destruct (map_axis_ok SL DL fresh n0 v0 Hfresh HDL c ev axis Hc Hdoc Hl Hlay He Hdim Hsmall Haxis (fun l => Ok (std_sort a V lt l))) as (r & ev' & E & G & L & A & M).
  - intros x _ Hx. eexists. split; [reflexivity|]. destruct Ha as (H1 & _). destruct (H1 V lt x (elems_swo x Hx)) as [P _]. symmetry. apply Permutation_length. exact P.
  - exists r, ev'. split; [exact E|]. split; [exact L|]. split; [exact A|]. intros ix B. specialize (M ix B). fold ax n in M. injection M as M. rewrite <- M.
    destruct Ha as (H1 & _). apply H1. apply lane_swo. exact B.
Qed.

Lemma partition_lemma kth : Forall (fun k => 0 <= k < n) kth ->
  exists r ev', partition SL DL fresh n0 v0 a lt c kth axis = Ok r /\ ct_layout r = ct_layout c /\ array r (ct_shape c) ev' /\
  forall ix, in_bounds (ct_shape c) ix -> Permutation (lane ev ax n ix) (lane ev' ax n ix) /\
    forall k, In k kth -> in_place lt (Z.to_nat k) (lane ev' ax n ix).
Proof.
  intros Hk. assert (Hp : forall x, length x = Z.to_nat n -> (forall y, In y x -> elem_of (ct_shape c) ev y) ->
    exists r, partition_range a lt kth x = Ok r /\ Permutation x r /\ forall k, In k kth -> in_place lt (Z.to_nat k) r).
  { intros x Lx Hx. apply partition_range_ok; [exact Ha|apply elems_swo; exact Hx|]. rewrite Forall_forall in *. intros k Hin. specialize (Hk k Hin). lia. }
  destruct (map_axis_ok SL DL fresh n0 v0 Hfresh HDL c ev axis Hc Hdoc Hl Hlay He Hdim Hsmall Haxis (partition_range a lt kth)) as (r & ev' & E & G & L & A & M).
  - intros x Lx Hx. destruct (Hp x Lx Hx) as (r & E & P & _). exists r. split; [exact E|]. symmetry. apply Permutation_length. exact P.
  - exists r, ev'. split; [exact E|]. split; [exact L|]. split; [exact A|]. intros ix B. specialize (M ix B). fold ax n in M.
    destruct (Hp (lane ev ax n ix)) as (r' & E' & P & H); [apply lane_length|intros y; apply lane_elem; [exact B|reflexivity]|].
    rewrite M in E'. injection E' as <-. split; assumption.
Qed.

(** In one dimension the only lane is the buffer. *)
Lemma one_dim : length (ct_shape c) = 1%nat -> ct_shape c = [n] /\ ax = 0%nat /\ 0 <= n /\ length (ct_data c) = Z.to_nat n /\
  forall (r : cont Z) idx, good r -> ct_shape r = [n] -> length idx = Z.to_nat n -> length (ct_data r) = Z.to_nat n ->
  exists ev', array (with_data r idx) (ct_shape c) ev' /\ forall ix, in_bounds (ct_shape c) ix -> lane ev ax n ix = ct_data c /\ lane ev' ax n ix = idx.
Proof.
  intros E1. assert (exists k, ct_shape c = [k]) as [k Ek]. { destruct (ct_shape c) as [|k [|]]; cbn in E1; try discriminate. eauto. }
  pose proof Hc as (Hs & _ & _ & Hlen & _).
  assert (Hax0 : ax = 0%nat). { unfold ax. destruct (norm_axis_eq (length (ct_shape c)) axis); [lia|exact Hsmall|exact Haxis|lia]. }
  assert (En : n = k) by (unfold n; rewrite Hax0, Ek; reflexivity).
  assert (Hk : Z.of_nat (length (ct_data c)) = k /\ 0 <= k).
  { rewrite Hlen. revert Hs. rewrite Ek, prod_cons. change (prod []) with 1. intros Hs. inversion Hs; subst. lia. }
  rewrite En. split; [exact Ek|]. split; [exact Hax0|]. split; [lia|]. split; [lia|]. intros r idx (Cr & Dr & Or) Sr Li Lr.
  assert (Hrank : forall l x, rank l [k] [x] = x).
  { intros l x. unfold rank. destruct l; cbn [row_pos col_pos]; change (prod []) with 1; lia. }
  exists (fun ix => nth (Z.to_nat (nth 0 ix 0)) idx 0). split.
  - split; [apply good_with_data; [split; [exact Cr|split; [exact Dr|exact Or]]|lia]|]. split; [cbn; congruence|]. intros jx B. rewrite Ek in B. unfold elt, with_data. cbn.
    rewrite (offset_rank r Cr Or) by (rewrite Sr; exact B). rewrite Sr. inversion B as [|? x ? t Hx Ht]; subst. inversion Ht; subst.
    rewrite Hrank. cbn [nth]. apply rdz_ok; [lia|]. apply nth_error_nth'. lia.
  - intros ix B. rewrite Ek in B. inversion B as [|? x ? t Hx Ht]; subst ix. inversion Ht; subst t. rewrite Hax0. split.
    + apply nth_error_ext. intros i. destruct (Nat.lt_ge_cases i (Z.to_nat k)) as [Hi|Hi].
      * rewrite lane_nth by exact Hi. cbn [upd]. assert (B' : in_bounds (ct_shape c) [Z.of_nat i]) by (rewrite Ek; constructor; [lia|constructor]).
        pose proof (data_at c ev Hc Hl He _ B') as X. rewrite Ek in X. rewrite Hrank, Nat2Z.id in X. rewrite X. reflexivity.
      * transitivity (@None V); [|symmetry]; apply nth_error_None; [rewrite lane_length|]; lia.
    + apply nth_error_ext. intros i. destruct (Nat.lt_ge_cases i (Z.to_nat k)) as [Hi|Hi].
      * rewrite lane_nth by exact Hi. cbn [upd nth]. rewrite Nat2Z.id. symmetry. apply nth_error_nth'. lia.
      * transitivity (@None Z); [|symmetry]; apply nth_error_None; [rewrite lane_length|]; lia.
Qed.

Lemma argsort_lemma stable : exists r ev', argsort SL DL fresh fresh_i n0 v0 a lt stable c axis = Ok r /\ array r (ct_shape c) ev' /\
  forall ix, in_bounds (ct_shape c) ix -> sorts lt (lane ev ax n ix) (lane ev' ax n ix) /\ (stable = true -> keeps_order lt (lane ev ax n ix) (lane ev' ax n ix)).
Proof.
  unfold argsort. destruct (Nat.eqb_spec (length (ct_shape c)) 1) as [E1|E1].
  - destruct (one_dim E1) as (Ek & Hax0 & Hn & Lc & H1).
    unfold flatten_argsort. replace (Z.of_nat (length (ct_data c))) with n by lia.
    destruct (fresh_result (V := Z) SL DL fresh_i n0 0 (ct_layout c) Hfreshi Hl Hlay [n]) as (r & Er & G & Sr & Lr); [rewrite <- Ek; apply Hc|discriminate|].
    rewrite Er. cbn [bind]. pose proof G as ((_ & _ & _ & Lenr & _) & _). rewrite Sr, prod_cons in Lenr. change (prod []) with 1 in Lenr.
    destruct (argsort_iter_ok a lt stable (ct_data c) (ct_data r) Ha) as (idx & Ei & Li & S1 & S2); [lia| |].
    { apply (swo_incl lt (ct_data c)); [exact Hlt|]. intros y Hy. rewrite <- (firstn_skipn (length (ct_data r)) (ct_data c)). apply in_app_iff. left. exact Hy. }
    change 0 with (Z.of_nat 0) at 1. rewrite (on_range_ok _ (ct_data r) idx 0 (length (ct_data r))); [|lia|cbn [skipn]; rewrite firstn_all; exact Ei].
    cbn [bind firstn app Nat.add]. rewrite skipn_all, app_nil_r.
    replace (firstn (length (ct_data r)) (ct_data c)) with (ct_data c) in S1, S2 by (symmetry; apply firstn_all2; lia).
    destruct (H1 r idx G Sr) as (ev' & A & M); [lia|lia|]. exists (with_data r idx), ev'. split; [reflexivity|]. split; [exact A|].
    intros ix B. destruct (M ix B) as [ -> -> ]. split; assumption.
  - destruct (arg_map_axis_ok SL DL fresh fresh_i n0 v0 Hfresh Hfreshi HDL c ev axis Hc Hdoc Hl Hlay He ltac:(lia) Hsmall Haxis (argsort_iter a lt stable)
      (fun vals idx => sorts lt vals idx /\ (stable = true -> keeps_order lt vals idx))) as (r & ev' & E & _ & A & M).
    + fold ax n. intros src r Lr Ls Hin. destruct (argsort_iter_ok a lt stable src r Ha) as (idx & Ei & Li & S1 & S2); [lia|rewrite Lr; apply elems_swo; exact Hin|].
      rewrite Lr in Li, S1, S2. exists idx. split; [exact Ei|]. split; [exact Li|]. split; assumption.
    + exists r, ev'. split; [exact E|]. split; [exact A|]. exact M.
Qed.

Lemma argpartition_lemma kth : Forall (fun k => 0 <= k < n) kth ->
  exists r ev', argpartition SL DL fresh fresh_i n0 v0 a lt c kth axis = Ok r /\ array r (ct_shape c) ev' /\
  forall ix, in_bounds (ct_shape c) ix -> exists ws, picks (lane ev ax n ix) (lane ev' ax n ix) ws /\ forall k, In k kth -> in_place lt (Z.to_nat k) ws.
Proof.
  intros Hk. unfold argpartition.
  assert (Li : length (iota (Z.to_nat n)) = Z.to_nat n) by (unfold iota; rewrite map_length, seq_length; reflexivity).
  assert (Hk' : Forall (fun k => 0 <= k < Z.of_nat (length (iota (Z.to_nat n)))) kth).
  { rewrite Li. rewrite Forall_forall in *. intros k Hin'. specialize (Hk k Hin'). lia. }
  destruct (Nat.eqb_spec (length (ct_shape c)) 1) as [E1|E1].
  - destruct (one_dim E1) as (Ek & Hax0 & Hn & Lc & H1).
    assert (Esz : compute_size (ct_shape c) = n) by (rewrite compute_size_prod, Ek, prod_cons; change (prod []) with 1; lia). rewrite Esz.
    destruct (from_shape_ok SL DL fresh_i n0 Hfreshi HDL (ct_layout c) [n] Hl ltac:(tauto)) as (r & Er & G & Sr & Lr); [rewrite <- Ek; apply Hc|].
    rewrite Er. cbn [bind]. pose proof G as ((_ & _ & _ & Lenr & _) & _). rewrite Sr, prod_cons in Lenr. change (prod []) with 1 in Lenr.
    assert (Hread : forall i, In i (iota (Z.to_nat n)) -> read_flat c i = rdz (ct_data c) i).
    { intros i Hi. apply in_iota in Hi. assert (B : in_bounds (ct_shape c) [i]) by (rewrite Ek; constructor; [lia|constructor]).
      pose proof (offset_rank c Hc Hl [i] B) as X. rewrite Ek in X. pose proof Hc as (_ & Ls & _). rewrite Ek in Ls. unfold read_flat.
      destruct (ct_strides c) as [|st [|]]; cbn in Ls; try discriminate. cbn [last]. rewrite element_offset_same in X by reflexivity.
      f_equal. cbn [dot] in X. replace (rank (ct_layout c) [n] [i]) with i in X by (unfold rank; destruct (ct_layout c); cbn [row_pos col_pos]; change (prod []) with 1; lia). lia. }
    assert (Hall : forallb (fun i => is_ok (read_flat c i)) (iota (Z.to_nat n)) = true).
    { apply forallb_forall. intros i Hi. rewrite Hread by exact Hi. apply in_iota in Hi.
      destruct (nth_error (ct_data c) (Z.to_nat i)) eqn:E; [|apply nth_error_None in E; lia]. erewrite rdz_ok; [reflexivity|lia|exact E]. }
    unfold flat_argpartition. rewrite Esz, Hall.
    assert (Hcm : forall i j, In i (iota (Z.to_nat n)) -> In j (iota (Z.to_nat n)) -> cmp_flat lt c i j = cmp_at lt (ct_data c) i j).
    { intros i j Hi Hj. unfold cmp_flat, cmp_at. rewrite !Hread by assumption. reflexivity. }
    assert (Hf : firstn (Z.to_nat n) (ct_data c) = ct_data c) by (apply firstn_all2; lia).
    pose proof (cmp_swo lt (ct_data c) (Z.to_nat n) ltac:(lia) ltac:(rewrite Hf; exact Hlt) (cmp_flat lt c) Hcm) as Hcmp.
    destruct (partition_range_ok a (cmp_flat lt c) Ha kth (iota (Z.to_nat n)) Hcmp Hk') as (idx & Ei & P & H).
    unfold partition_range in Ei. rewrite Li, Z2Nat.id in Ei by lia. rewrite Ei. cbn [bind].
    pose proof (Permutation_length P) as Lp. rewrite Li in Lp.
    destruct (H1 r idx G Sr) as (ev' & A & M); [lia|lia|]. exists (with_data r idx), ev'. split; [reflexivity|]. split; [exact A|].
    intros ix B. destruct (M ix B) as [ -> -> ].
    destruct (picks_of (ct_data c) (Z.to_nat n) ltac:(lia) idx P) as (ws & Pk). exists ws. pose proof Pk as Pk'. rewrite Hf in Pk'. split; [exact Pk'|]. intros k Hk1.
    apply (picks_in_place lt (ct_data c) (Z.to_nat n) ltac:(lia) (cmp_flat lt c) Hcm idx ws _ Pk). apply H. exact Hk1.
  - destruct (arg_map_axis_ok SL DL fresh fresh_i n0 v0 Hfresh Hfreshi HDL c ev axis Hc Hdoc Hl Hlay He ltac:(lia) Hsmall Haxis (argpartition_iter a lt kth)
      (fun vals idx => exists ws, picks vals idx ws /\ forall k, In k kth -> in_place lt (Z.to_nat k) ws)) as (r & ev' & E & _ & A & M).
    + fold ax n. intros src r Lr Ls Hin. unfold argpartition_iter. rewrite (proj2 (Nat.leb_le _ _)) by lia. rewrite Lr.
      pose proof (elems_swo _ Hin) as Hsw. pose proof (cmp_swo lt src (Z.to_nat n) Ls Hsw (cmp_at lt src) (fun _ _ _ _ => eq_refl)) as Hcmp.
      destruct (partition_range_ok a (cmp_at lt src) Ha kth (iota (Z.to_nat n)) Hcmp Hk') as (idx & Ei & P & H).
      unfold partition_range in Ei. rewrite Li in Ei. exists idx. split; [exact Ei|]. split; [rewrite <- (Permutation_length P); exact Li|].
      destruct (picks_of src (Z.to_nat n) Ls idx P) as (ws & Pk). exists ws. split; [exact Pk|]. intros k Hk1.
      apply (picks_in_place lt src (Z.to_nat n) Ls (cmp_at lt src) (fun _ _ _ _ => eq_refl) idx ws _ Pk). apply H. exact Hk1.
    + exists r, ev'. split; [exact E|]. split; [exact A|exact M].
Qed.
End Results.
