(** Proofs about sorting: an axis that is not the leading one. *)
From Coq Require Import List ZArith Bool Lia Permutation.
From Verif Require Import Prelude PreludeFacts Strides_Model Strides_Spec Strides_Proofs Access_Model Container_Model Container_Spec Container_Proofs
  Stepper_Proofs Semantic_Spec Builder_Proofs SView_Model SView_Spec Manip_Model Manip_Spec Manip_Proofs Manip2_Proofs Manip5_Proofs
  Reduce_Spec Reduce3_Proofs Reduce13_Proofs
  Accum_Spec Accum2_Proofs Accum3_Proofs Sort_Model Sort_Spec Sort_Proofs Sort2_Proofs.
Import ListNotations.
Open Scope Z_scope.

(** ** Permutations *)
Section Perm.
Context (n : nat) (p : list nat).
Hypothesis Hp : is_perm n p.
Lemma inv_length : length (inv p) = n.
Proof. destruct Hp as (L & _). unfold inv. rewrite map_length, seq_length. exact L. Qed.
Lemma inv_perm : is_perm n (inv p).
Proof.
  pose proof Hp as (L & D & F). split; [exact inv_length|]. split.
  - apply (NoDup_nth _ 0%nat). rewrite inv_length. intros i j Hi Hj. rewrite !(inv_nth n) by assumption. intros E.
    destruct (pos_in i p (perm_in n p i Hp Hi)) as [_ E1]. destruct (pos_in j p (perm_in n p j Hp Hj)) as [_ E2]. congruence.
  - apply Forall_forall. intros x Hx. unfold inv in Hx. apply in_map_iff in Hx. destruct Hx as (k & <- & Hk). apply in_seq in Hk.
    rewrite <- L. apply pos_in. apply (perm_in n); [exact Hp|lia].
Qed.
Lemma inv_l l : length l = n -> permute (inv p) (permute p l) = l.
Proof.
  intros Hl. apply permute_inv; [|rewrite inv_length; congruence]. intros i Hi. rewrite Hl in Hi. rewrite (inv_nth n) by assumption.
  destruct (pos_in i p (perm_in n p i Hp Hi)). split; assumption.
Qed.
Lemma inv_r l : length l = n -> permute p (permute (inv p) l) = l.
Proof.
  intros Hl. pose proof Hp as (L & D & F). apply permute_inv; [|congruence]. intros i Hi. rewrite Hl in Hi.
  assert (nth i p 0 < n)%nat by (rewrite Forall_forall in F; apply F; apply nth_In; lia).
  rewrite (inv_nth n) by assumption. rewrite inv_length. split; [|assumption]. apply pos_nth; [assumption|lia].
Qed.
Lemma permute_upd l a k : length l = n -> (a < n)%nat -> permute p (upd l (nth a p 0%nat) k) = upd (permute p l) a k.
Proof.
  intros Hl Ha. pose proof Hp as (L & D & F). apply list_eq_nth; [rewrite upd_length, !permute_length; reflexivity|].
  intros i Hi. rewrite permute_length in Hi. rewrite permute_nth by exact Hi.
  assert (nth i p 0 < n)%nat by (rewrite Forall_forall in F; apply F; apply nth_In; lia).
  destruct (Nat.eq_dec i a) as [ -> |Hn].
  - rewrite !nth_upd_same; [reflexivity|rewrite permute_length; lia|lia].
  - rewrite nth_upd_other. 2:{ intros E. apply Hn. apply (proj1 (NoDup_nth p 0%nat) D); [lia|lia|congruence]. }
    rewrite nth_upd_other by congruence. rewrite permute_nth by exact Hi. reflexivity.
Qed.
End Perm.

(** get_permutations *)
Definition lead_perm (n ax : nat) (l : layout) : list nat :=
  let rest := firstn ax (seq 0 n) ++ skipn (S ax) (seq 0 n) in
  match l with row_major => rest ++ [ax] | _ => ax :: rest end.

Lemma rest_perm n ax : (ax < n)%nat -> Permutation (ax :: firstn ax (seq 0 n) ++ skipn (S ax) (seq 0 n)) (seq 0 n).
Proof.
  intros H. etransitivity; [apply Permutation_middle|]. rewrite <- (firstn_skipn ax (seq 0 n)) at 3.
  rewrite (skipn_cons_nth (seq 0 n) ax ax); [reflexivity|].
  rewrite (nth_error_nth' _ 0%nat) by (rewrite seq_length; exact H). rewrite seq_nth by exact H. reflexivity.
Qed.
Lemma lead_perm_ok n ax l : (ax < n)%nat -> is_perm n (lead_perm n ax l).
Proof.
  intros H. apply is_perm_Permutation. unfold lead_perm. destruct l; try (apply rest_perm; exact H).
  etransitivity; [apply Permutation_app_comm|]. apply rest_perm. exact H.
Qed.
Lemma lead_perm_nth n ax l : is_order l -> (ax < n)%nat -> nth (lead l n) (lead_perm n ax l) 0%nat = ax.
Proof.
  intros [ -> | -> ] H; unfold lead_perm, lead; [|reflexivity].
  rewrite app_nth2; rewrite app_length, firstn_length, skipn_length, seq_length.
  - replace (n - 1 - _)%nat with 0%nat by lia. reflexivity.
  - lia.
Qed.
Lemma find_pos_nat x l : find_pos (Z.of_nat x) (map Z.of_nat l) = pos x l.
Proof.
  induction l as [|y l IH]; [reflexivity|]. cbn [map find_pos pos]. rewrite IH.
  destruct (Nat.eqb_spec y x) as [ -> |Hn]; [rewrite Z.eqb_refl; reflexivity|]. rewrite (proj2 (Z.eqb_neq _ _)) by lia. reflexivity.
Qed.
Lemma get_permutations_eq n ax l : is_order l -> (ax < n)%nat ->
  get_permutations n (Z.of_nat ax) l = Ok (map Z.of_nat (lead_perm n ax l), map Z.of_nat (inv (lead_perm n ax l))).
Proof.
  intros Hl H. unfold get_permutations. rewrite (proj2 (Z.leb_gt _ _)) by lia. cbv zeta. rewrite Nat2Z.id.
  assert (E : (if layout_eqb l row_major then (firstn ax (iota n) ++ skipn (S ax) (iota n)) ++ [Z.of_nat ax]
               else Z.of_nat ax :: firstn ax (iota n) ++ skipn (S ax) (iota n)) = map Z.of_nat (lead_perm n ax l)).
  { unfold iota, lead_perm. destruct Hl as [ -> | -> ]; cbn [layout_eqb]; rewrite ?map_app; cbn [map]; rewrite ?map_app, !firstn_map, !skipn_map; reflexivity. }
  rewrite E. f_equal. f_equal. unfold inv. rewrite map_map. destruct (lead_perm_ok n ax l H) as (L & _). rewrite L.
  apply map_ext. intros k. rewrite find_pos_nat. reflexivity.
Qed.

(** ** Copying *)
Lemma scatter {K V} (body : K -> list V -> res (list V)) (off : K -> nat) (val : K -> V) : forall keys d0,
  (forall k d, In k keys -> length d = length d0 -> body k d = Ok (upd d (off k) (val k))) ->
  (forall k, In k keys -> (off k < length d0)%nat) -> NoDup (map off keys) ->
  exists d, for_each body keys d0 = Ok d /\ length d = length d0 /\
    (forall k, In k keys -> nth_error d (off k) = Some (val k)) /\
    (forall i, ~ In i (map off keys) -> nth_error d i = nth_error d0 i).
Proof.
  induction keys as [|k keys IH]; intros d0 Hb Ho Hn.
  - exists d0. cbn. repeat split; intros; tauto.
  - cbn [map] in Hn. inversion Hn as [|? ? Hk Hn']; subst. cbn [for_each]. rewrite Hb by (cbn; auto). cbn [bind].
    destruct (IH (upd d0 (off k) (val k))) as (d & E & L & H1 & H2).
    + intros k' d Hk' Hd. rewrite upd_length in Hd. apply Hb; [right; exact Hk'|exact Hd].
    + intros k' Hk'. rewrite upd_length. apply Ho. right. exact Hk'.
    + exact Hn'.
    + exists d. split; [exact E|]. split; [rewrite L; apply upd_length|]. split.
      * intros k' [ <- |Hk']; [|apply H1; exact Hk']. rewrite H2 by exact Hk. apply nth_error_upd_same. apply Ho. left. reflexivity.
      * intros i Hi. cbn [map In] in Hi. rewrite H2 by tauto. apply nth_error_upd_other. intros E'. apply Hi. left. congruence.
Qed.

Lemma nodup_map_inj {A B} (f : A -> B) : forall l, (forall i j, In i l -> In j l -> f i = f j -> i = j) -> NoDup l -> NoDup (map f l).
Proof.
  induction l as [|x l IH]; intros Hi Hn; [constructor|]. inversion Hn as [|? ? Hx Hn']; subst. cbn [map]. constructor.
  - intros H. apply in_map_iff in H. destruct H as (y & E & Hy). apply Hx. rewrite <- (Hi y x); cbn; auto.
  - apply IH; [|exact Hn']. intros i j H1 H2. apply Hi; right; assumption.
Qed.

Lemma indices_row : forall sh, indices sh = row_indices sh.
Proof. reflexivity. Qed.

Section View.
Context {V : Type} (SL DL : layout) (fresh : list V -> Z -> list V) (n0 : nat) (v0 : V) (l : layout).
Hypothesis Hfresh : resizes fresh.
Hypothesis Hl : is_order l.
Hypothesis Hlay : SL = l \/ (SL = dynamic /\ DL = l /\ n0 = 0%nat).

Lemma default_documented : documented (@c_default V SL n0 v0).
Proof.
  intros _ H. exfalso. apply H. unfold c_default. cbn. apply Forall_forall. intros x Hx. apply repeat_spec in Hx. exact Hx.
Qed.

Lemma fresh_result sh : is_shape sh -> sh <> [] -> exists r, c_resize SL DL fresh (c_default SL n0 v0) sh false = Ok r /\
  good r /\ ct_shape r = sh /\ ct_layout r = l.
Proof.
  intros Hs Hne. destruct (default_consistent (V := V) SL n0 v0) as [D1 D2].
  destruct (resize_ok (V := V) SL DL fresh Hfresh (c_default SL n0 v0) sh false D1 D2 Hs) as (r & E & C & L & S & _).
  exists r. split; [exact E|]. destruct (resize_doc (V := V) SL DL fresh _ _ sh false D2 (fun _ => default_documented) E) as [Dd _].
  assert (El : ct_layout r = l).
  { destruct Hlay as [HSL|(HSL & HDL & Hn)].
    - rewrite <- HSL. apply L. rewrite HSL. destruct Hl as [X|X]; rewrite X; discriminate.
    - unfold c_resize, c_default in E. rewrite Hn in E. cbn [repeat ct_shape ct_layout] in E.
      destruct (negb (Slice_Model.zlist_eqb sh [])) eqn:Ez.
      2:{ apply negb_false_iff, zlist_eqb_eq in Ez. congruence. }
      cbn [orb] in E. rewrite HSL in E. cbn [layout_eqb andb] in E.
      destruct (compute_strides _ _ _ _ _) as [[[st [bs|]] ds]| |]; cbn [bind] in E; try discriminate E. injection E as <-. cbn. exact HDL. }
  split; [|split; [exact S|exact El]]. split; [exact C|]. split; [exact Dd|]. rewrite El. exact Hl.
Qed.

Lemma c_of_view_ok (c : cont V) ev v p : array c (ct_shape c) ev -> is_perm (length (ct_shape c)) p -> ct_shape c <> [] ->
  rearranges (of_cont c) v (permute p (ct_shape c)) (permute p) ->
  exists r ev', c_of_view SL DL fresh n0 v0 v (ct_data c) = Ok r /\ good r /\ ct_layout r = l /\
    array r (permute p (ct_shape c)) ev' /\ forall jx, in_bounds (ct_shape c) jx -> ev' (permute p jx) = ev jx.
Proof.
  intros (Hc & _ & He) Hp Hne (Hw & Hr & Hsur). pose proof Hp as (Lp & Dp & Fp).
  assert (Hs : is_shape (permute p (ct_shape c))) by (apply is_shape_permute; [apply Hc|exact Fp]).
  assert (Hne' : permute p (ct_shape c) <> []).
  { intros E. apply (f_equal (@length Z)) in E. rewrite permute_length, Lp in E. destruct (ct_shape c); [congruence|discriminate]. }
  unfold c_of_view. rewrite Hw. destruct (fresh_result _ Hs Hne') as (r & E & G & S & Lr). rewrite E. cbn [bind].
  assert (Ho : is_order (ct_layout r)) by (rewrite Lr; exact Hl).
  assert (Hlen : Z.of_nat (length (ct_data r)) = prod (permute p (ct_shape c))) by (destruct G as ((_ & _ & _ & L & _) & _); rewrite S in L; exact L).
  set (sh' := permute p (ct_shape c)) in *.
  destruct (scatter (fun ix d => let* x := read_cell (ct_data c) (w_element v ix) in wrz d (element_offset (ct_strides r) ix) x)
     (fun ix => Z.to_nat (rank (ct_layout r) sh' ix)) (fun ix => ev (permute (inv p) ix)) (indices sh') (ct_data r)) as (d & Ed & Ld & H1 & _).
  - intros ix d Hin Hd. rewrite indices_row in Hin. apply row_indices_in in Hin. destruct (Hsur ix Hin) as (jx & Bj & ->).
    destruct (Hr jx Bj) as (_ & _ & Re & _). rewrite Re. cbn [x_elem of_cont x_direct x_offset x_strides read_cell].
    specialize (He jx Bj). unfold elt in He. rewrite Z.add_0_l, He. cbn [bind].
    rewrite (inv_l _ _ Hp) by (apply in_bounds_length; exact Bj).
    rewrite (offset_rank r (proj1 G) Ho) by (rewrite S; exact Hin). rewrite S. pose proof (rank_bound (ct_layout r) _ _ Hin).
    apply wrz_ok. lia.
  - intros ix Hin. rewrite indices_row in Hin. apply row_indices_in in Hin. pose proof (rank_bound (ct_layout r) _ _ Hin). lia.
  - rewrite indices_row. apply nodup_map_inj; [|apply row_indices_nodup]. intros i j Hi Hj Ej. apply row_indices_in in Hi, Hj.
    apply (rank_inj (ct_layout r) sh' i j Hi Hj). pose proof (rank_bound (ct_layout r) _ _ Hi). pose proof (rank_bound (ct_layout r) _ _ Hj). lia.
  - rewrite Ed. cbn [bind]. exists (with_data r d), (fun ix => ev (permute (inv p) ix)). split; [reflexivity|].
    split; [apply good_with_data; assumption|]. split; [exact Lr|]. split.
    + split; [apply good_with_data; assumption|]. split; [exact S|]. intros jx B. unfold elt, with_data. cbn.
      rewrite (offset_rank r (proj1 G) Ho) by (rewrite S; exact B). rewrite S. pose proof (rank_bound (ct_layout r) _ _ B).
      apply rdz_ok; [lia|]. apply H1. rewrite indices_row. apply row_indices_in. exact B.
    + intros jx B. rewrite (inv_l _ _ Hp) by (apply in_bounds_length; exact B). reflexivity.
Qed.
Hypothesis HDL : is_order DL.

Lemma transposed_ok (c : cont V) ev p : array c (ct_shape c) ev -> is_perm (length (ct_shape c)) p -> ct_shape c <> [] ->
  exists r ev', transposed SL DL fresh n0 v0 c (map Z.of_nat p) = Ok r /\ good r /\ ct_layout r = l /\
    array r (permute p (ct_shape c)) ev' /\ forall jx, in_bounds (ct_shape c) jx -> ev' (permute p jx) = ev jx.
Proof.
  intros Ha Hp Hne. pose proof Ha as (Hc & _ & _). pose proof Hc as (Hs & Hst & _).
  destruct (transpose_none_lemma DL (of_cont c) p HDL) as (v & Ev & Hr & _).
  - split; [exact Hs|]. intros _. exact Hst.
  - reflexivity.
  - exact Hp.
  - unfold transposed. rewrite Ev. cbn [bind]. apply (c_of_view_ok c ev v p Ha Hp Hne Hr).
Qed.
End View.

(** ** map_axis *)
Lemma elem_of_permute {V} sh p (ev ev' : list Z -> V) x : is_perm (length sh) p -> (forall jx, in_bounds sh jx -> ev' (permute p jx) = ev jx) ->
  elem_of (permute p sh) ev' x -> elem_of sh ev x.
Proof.
  intros Hp H (ix & B & <-). destruct (permute_surj _ p sh ix Hp eq_refl B) as (jx & Bj & ->). exists jx. split; [exact Bj|]. symmetry. apply H. exact Bj.
Qed.

Lemma norm_axis_eq dim axis : (0 < dim)%nat -> Z.of_nat dim < 2 ^ 63 -> valid_axis dim axis ->
  norm_axis dim axis = Z.of_nat (the_axis dim axis) /\ (the_axis dim axis < dim)%nat.
Proof.
  intros Hd Hs Hv. unfold valid_axis in Hv. unfold norm_axis, the_axis. pose proof (Z.mod_pos_bound axis (Z.of_nat dim) ltac:(lia)) as Hm. split; [|lia].
  rewrite Z2Nat.id by lia. destruct (Z.ltb_spec axis 0).
  - rewrite <- (Z_mod_plus_full axis 1), Z.mul_1_l, Z.mod_small by lia. rewrite to_size_t_id by lia. lia.
  - rewrite Z.mod_small by lia. apply to_size_t_id. lia.
Qed.

Lemma leading_axis_eq {V} (c : cont V) : is_order (ct_layout c) -> (0 < length (ct_shape c))%nat -> Z.of_nat (length (ct_shape c)) < 2 ^ 63 ->
  leading_axis c = Ok (Z.of_nat (lead (ct_layout c) (length (ct_shape c)))).
Proof.
  intros Ho Hn Hs. unfold leading_axis, lead. destruct Ho as [E|E]; rewrite E; [|reflexivity].
  f_equal. rewrite to_size_t_id by lia. lia.
Qed.

Section MapAxis.
Context {V : Type} (SL DL : layout) (fresh : list V -> Z -> list V) (n0 : nat) (v0 : V).
Hypothesis Hfresh : resizes fresh.
Hypothesis HDL : is_order DL.
Context (c : cont V) (ev : list Z -> V) (axis : Z).
Hypothesis Hc : consistent c.
Hypothesis Hdoc : documented c.
Hypothesis Hl : is_order (ct_layout c).
Hypothesis Hlay : SL = ct_layout c \/ (SL = dynamic /\ DL = ct_layout c /\ n0 = 0%nat).
Hypothesis He : forall jx, in_bounds (ct_shape c) jx -> elt c jx = Ok (ev jx).
Hypothesis Hdim : (1 <= length (ct_shape c))%nat.
Hypothesis Hsmall : Z.of_nat (length (ct_shape c)) < 2 ^ 63.
Hypothesis Haxis : valid_axis (length (ct_shape c)) axis.
Let l := ct_layout c.
Let sh := ct_shape c.
Let dim := length sh.
Let ax := the_axis dim axis.
Let n := nth ax sh 0.

(** Every lane along the axis goes through f. *)
Lemma map_axis_ok (f : list V -> res (list V)) :
  (forall x, length x = Z.to_nat n -> (forall y, In y x -> elem_of sh ev y) -> exists r, f x = Ok r /\ length r = length x) ->
  exists r ev', map_axis SL DL fresh n0 v0 f c axis = Ok r /\ good r /\ ct_layout r = l /\ array r sh ev' /\
    forall ix, in_bounds sh ix -> f (lane ev ax n ix) = Ok (lane ev' ax n ix).
Proof.
  intros Hf. destruct (norm_axis_eq dim axis) as [Eax Hax]; [unfold dim, sh; lia|exact Hsmall|exact Haxis|].
  unfold map_axis. fold sh dim. destruct (Nat.eqb_spec dim 1) as [E1|E1].
  - (* one dimension *)
    assert (exists k, sh = [k]) as [k Ek]. { destruct sh as [|k [|]] eqn:E; unfold dim in E1; cbn in E1; try discriminate. eauto. }
    assert (Hax0 : ax = 0%nat) by (unfold ax in *; lia).
    assert (En : n = k) by (unfold n; rewrite Hax0, Ek; reflexivity).
    pose proof Hc as (Hs & _ & _ & Hlen & _). fold sh in Hs, Hlen.
    assert (Hk : Z.of_nat (length (ct_data c)) = k /\ 0 <= k).
    { rewrite Hlen. revert Hs. rewrite Ek, prod_cons. change (prod []) with 1. intros Hs. inversion Hs; subst. lia. }
    assert (Hrank : forall x, rank l sh [x] = x).
    { intros x. rewrite Ek. unfold rank. destruct l; cbn [row_pos col_pos]; change (prod []) with 1; lia. }
    assert (Hin : forall x, 0 <= x < k -> in_bounds sh [x]) by (intros x Hx; rewrite Ek; constructor; [lia|constructor]).
    assert (Hd : forall y, In y (ct_data c) -> elem_of sh ev y).
    { intros y Hy. apply (In_nth _ _ (ev [])) in Hy. destruct Hy as (i & Hi & <-). exists [Z.of_nat i]. assert (B : in_bounds sh [Z.of_nat i]) by (apply Hin; lia).
      split; [exact B|]. pose proof (data_at c ev Hc Hl He _ B) as X. fold l sh in X. rewrite Hrank, Nat2Z.id in X. symmetry. apply nth_error_nth. exact X. }
    destruct (Hf (ct_data c)) as (r & Er & Lr); [lia|exact Hd|].
    change 0 with (Z.of_nat 0) at 1. rewrite (on_range_ok f (ct_data c) r 0 (length (ct_data c))); [|lia|cbn [skipn]; rewrite firstn_all; exact Er].
    cbn [bind firstn app Nat.add]. rewrite skipn_all, app_nil_r.
    exists (with_data c r), (fun ix => nth (Z.to_nat (rank l sh ix)) r (ev [])). split; [reflexivity|].
    assert (Hg : good (with_data c r)) by (apply good_with_data; [split; [exact Hc|split; [exact Hdoc|exact Hl]]|lia]).
    split; [exact Hg|]. split; [reflexivity|]. split.
    + split; [exact (proj1 Hg)|]. split; [reflexivity|]. intros jx B. unfold elt, with_data. cbn. rewrite (offset_rank c Hc Hl) by exact B.
      fold l sh. pose proof (rank_bound l _ _ B). apply rdz_ok; [lia|]. apply nth_error_nth'. lia.
    + intros ix B. rewrite Ek in B. inversion B as [|? x ? t Hx Ht]; subst. inversion Ht; subst.
      assert (L1 : lane ev ax n [x] = ct_data c).
      { apply nth_error_ext. intros i. destruct (Nat.lt_ge_cases i (Z.to_nat n)) as [Hi|Hi].
        - rewrite lane_nth by exact Hi. rewrite Hax0. cbn [upd]. assert (B' : in_bounds sh [Z.of_nat i]) by (apply Hin; lia).
          pose proof (data_at c ev Hc Hl He _ B') as X. fold l sh in X. rewrite Hrank, Nat2Z.id in X. rewrite X. reflexivity.
        - transitivity (@None V); [|symmetry]; apply nth_error_None; [rewrite lane_length|]; lia. }
      rewrite L1, Er. f_equal. apply nth_error_ext. intros i. destruct (Nat.lt_ge_cases i (Z.to_nat n)) as [Hi|Hi].
      * rewrite lane_nth by exact Hi. rewrite Hax0. cbn [upd]. rewrite Hrank, Nat2Z.id. apply nth_error_nth'. lia.
      * transitivity (@None V); [|symmetry]; apply nth_error_None; [|rewrite lane_length]; lia.
  - assert (Hdim2 : (2 <= length (ct_shape c))%nat) by (unfold dim, sh in E1; lia).
    rewrite Eax, (leading_axis_eq c Hl) by (fold sh; fold dim; try exact Hsmall; unfold dim, sh; lia). cbn [bind]. fold l sh dim ax.
    destruct (Z.eqb_spec (Z.of_nat ax) (Z.of_nat (lead l dim))) as [Ea|Ea].
    + apply Nat2Z.inj in Ea. destruct (call_over_lead c ev Hc Hdoc Hl He Hdim2 f) as (d & ev' & E & Ld & A & M).
      { fold l sh dim. rewrite <- Ea. fold n. intros x Hx Hi. destruct (Hf x Hx Hi) as (r & Er & Lr). exists r. split; [exact Er|lia]. }
      exists (with_data c d), ev'. split; [exact E|]. split; [apply good_with_data; [split; [exact Hc|split; [exact Hdoc|exact Hl]]|exact Ld]|].
      split; [reflexivity|]. split; [exact A|]. fold l sh dim in M. rewrite <- Ea in M. exact M.
    + fold dim in Hax. fold ax in Hax. rewrite get_permutations_eq by assumption. cbn [bind].
      set (p := lead_perm dim ax l). pose proof (lead_perm_ok dim ax l Hax) as Hp. fold p in Hp.
      pose proof (lead_perm_nth dim ax l Hl Hax) as Hpn. fold p in Hpn.
      assert (Hne : sh <> []) by (intros E; unfold sh in E; rewrite E in Hdim2; cbn in Hdim2; lia).
      destruct (transposed_ok SL DL fresh n0 v0 l Hfresh Hl Hlay HDL c ev p) as (c1 & ev1 & Et & G1 & L1 & A1 & M1); [split; [exact Hc|split; [reflexivity|exact He]]|exact Hp|exact Hne|].
      fold sh in A1, M1. rewrite Et. cbn [bind]. clear Et.
      pose proof A1 as (Hc1 & Hs1 & He1). destruct G1 as (_ & Hd1 & _).
      assert (Ho1 : is_order (ct_layout c1)) by (rewrite L1; exact Hl).
      assert (Ldim : length (permute p sh) = dim) by (rewrite permute_length; apply Hp).
      assert (Hld : (lead l dim < dim)%nat) by (unfold lead; destruct l; lia).
      assert (Hn1 : nth (lead l dim) (permute p sh) 0 = n).
      { rewrite permute_nth by (destruct Hp as (Lp & _); lia). rewrite Hpn. reflexivity. }
      destruct (call_over_lead c1 ev1 Hc1 Hd1 Ho1) with (f := f) as (d & ev2 & E & Ld & A2 & M2).
      { rewrite Hs1. exact He1. }
      { rewrite Hs1, Ldim. unfold dim, sh. exact Hdim2. }
      { rewrite L1, Hs1, Ldim, Hn1. intros x Hx Hi. destruct (Hf x Hx) as (r & Er & Lr).
        - intros y Hy. apply (elem_of_permute sh p ev ev1); [exact Hp|exact M1|]. apply Hi. exact Hy.
        - exists r. split; [exact Er|lia]. }
      rewrite E. cbn [bind]. rewrite L1, Hs1, Ldim, Hn1 in M2. rewrite Hs1 in A2.
      pose proof (inv_perm dim p Hp) as Hip.
      destruct (transposed_ok SL DL fresh n0 v0 l Hfresh Hl Hlay HDL (with_data c1 d) ev2 (inv p)) as (c3 & ev3 & Et & G3 & L3 & A3 & M3).
      { cbn [with_data ct_shape]. rewrite Hs1. exact A2. }
      { cbn [with_data ct_shape]. rewrite Hs1, Ldim. exact Hip. }
      { cbn [with_data ct_shape]. rewrite Hs1. intros X. rewrite X in Ldim. cbn in Ldim. lia. }
      cbn [with_data ct_shape] in A3, M3. rewrite Hs1 in A3, M3. rewrite (inv_l dim p Hp) in A3 by reflexivity.
      exists c3, ev3. split; [exact Et|]. split; [exact G3|]. split; [exact L3|]. split; [exact A3|].
      intros ix B. pose proof (in_bounds_length _ _ B) as Lix. fold dim in Lix.
      assert (Bp : forall k, (k < Z.to_nat n)%nat -> in_bounds sh (upd ix ax (Z.of_nat k))) by (intros k Hk; apply in_bounds_upd; [exact B|fold n; lia]).
      assert (B1 : in_bounds (permute p sh) (permute p ix)) by (apply in_bounds_permute; [destruct Hp as (_ & _ & F); exact F|exact B]).
      assert (Ep : forall k, permute p (upd ix ax k) = upd (permute p ix) (lead l dim) k).
      { intros k. rewrite <- Hpn at 1. apply (permute_upd dim p Hp); [exact Lix|exact Hld]. }
      specialize (M2 _ B1).
      replace (lane ev1 (lead l dim) n (permute p ix)) with (lane ev ax n ix) in M2.
      2:{ unfold lane. apply map_ext_in. intros k Hk. apply in_seq in Hk. rewrite <- Ep. rewrite M1 by (apply Bp; lia). reflexivity. }
      replace (lane ev2 (lead l dim) n (permute p ix)) with (lane ev3 ax n ix) in M2; [exact M2|].
      unfold lane. apply map_ext_in. intros k Hk. apply in_seq in Hk. rewrite <- Ep.
      rewrite <- M3 by (apply in_bounds_permute; [destruct Hp as (_ & _ & F); exact F|apply Bp; lia]).
      rewrite (inv_l dim p Hp) by (rewrite upd_length; exact Lix). reflexivity.
Qed.
End MapAxis.
