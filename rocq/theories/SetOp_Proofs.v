(** Proofs about set membership and insertion points. *)
From Coq Require Import List ZArith Bool Lia Permutation Sorted.
From Verif Require Import Prelude PreludeFacts Strides_Model Strides_Spec Strides_Proofs Container_Model Container_Spec Container_Proofs
  Access_Model Semantic_Spec Reduce5_Proofs Reduce13_Proofs Accum_Spec Accum3_Proofs
  Sort_Model Sort_Spec Sort2_Proofs Sort4_Proofs Sort5_Proofs SetOp_Model SetOp_Spec.
Import ListNotations.
Open Scope Z_scope.

Lemma isin_lemma {V} (eqb : V -> V -> bool) l t : isin eqb l t = true <-> exists y, In y l /\ eqb y t = true.
Proof.
  unfold isin. rewrite negb_true_iff, Nat.eqb_neq. induction l as [|x l IH]; cbn [std_find length]; [split; [congruence|intros (y & [] & _)]|].
  destruct (eqb x t) eqn:E; [split; [intros _; exists x; split; [left; reflexivity|exact E]|discriminate]|].
  split.
  - intros H. destruct (proj1 IH) as (y & Hy & Ey); [congruence|]. exists y. split; [right; exact Hy|exact Ey].
  - intros (y & [<-|Hy] & Ey); [congruence|]. intros X. injection X as X. revert X. apply IH. eauto.
Qed.

Lemma prefix_before {V} (p : V -> bool) l : (prefix_length p l <= length l)%nat /\ forall y, In y (firstn (prefix_length p l) l) -> p y = true.
Proof.
  induction l as [|x l [IH1 IH2]]; cbn [prefix_length]; [split; [cbn; lia|intros y []]|]. destruct (p x) eqn:E; [|split; [cbn; lia|intros y []]].
  split; [cbn; lia|]. cbn [firstn]. intros y [<-|Hy]; auto.
Qed.
Lemma prefix_after {V} (p : V -> bool) l : StronglySorted (fun x y => p x = false -> p y = false) l -> forall y, In y (skipn (prefix_length p l) l) -> p y = false.
Proof.
  induction 1 as [|x l Hl IH Hx]; cbn [prefix_length]; [intros y []|]. destruct (p x) eqn:E; [exact IH|]. cbn [skipn]. intros y [<-|Hy]; [exact E|].
  rewrite Forall_forall in Hx. apply Hx; [exact Hy|reflexivity].
Qed.
Lemma partition_point_ok {V} (p : V -> bool) l : StronglySorted (fun x y => p x = false -> p y = false) l ->
  exists k, partition_point p l = Ok k /\ (k <= length l)%nat /\ (forall y, In y (firstn k l) -> p y = true) /\ forall y, In y (skipn k l) -> p y = false.
Proof.
  intros S. pose proof (prefix_before p l) as [A B]. pose proof (prefix_after p l S) as C. unfold partition_point.
  assert (existsb p (skipn (prefix_length p l) l) = false) as ->.
  { destruct (existsb p (skipn (prefix_length p l) l)) eqn:E; [|reflexivity]. apply existsb_exists in E. destruct E as (y & Hy & E). rewrite C in E by exact Hy. discriminate. }
  exists (prefix_length p l). split; [reflexivity|]. split; [exact A|]. split; assumption.
Qed.
Lemma sorted_mono {V} (lt : V -> V -> bool) (R : V -> V -> Prop) l : sorted lt l -> (forall x y, In x l -> In y l -> lt y x = false -> R x y) -> StronglySorted R l.
Proof.
  induction 1 as [|x l Hl IH Hx]; intros H; constructor; [apply IH; intros; apply H; try right; assumption|].
  rewrite Forall_forall in *. intros y Hy. apply H; [left; reflexivity|right; exact Hy|apply Hx; exact Hy].
Qed.

Section Bounds.
Context {V : Type} (lt : V -> V -> bool) (l : list V) (x : V).
Hypothesis Hs : strict_weak_order lt (x :: l).
Hypothesis Hl : sorted lt l.
Lemma mem j y : nth_error l j = Some y -> In y (x :: l).
Proof. intros H. right. apply (nth_error_In _ _ H). Qed.
Lemma in_first j k y : nth_error l j = Some y -> (j < k)%nat -> In y (firstn k l).
Proof. intros H Hj. apply (nth_error_In _ j). rewrite nth_error_firstn by exact Hj. exact H. Qed.
Lemma in_skip j k y : nth_error l j = Some y -> (k <= j)%nat -> In y (skipn k l).
Proof. intros H Hj. apply (nth_error_In _ (j - k)). rewrite nth_error_skipn. replace (k + (j - k))%nat with j by lia. exact H. Qed.
Lemma first_in k y : In y (firstn k l) -> In y (x :: l).
Proof. intros H. right. rewrite <- (firstn_skipn k l). apply in_app_iff. left. exact H. Qed.
Lemma skip_in k y : In y (skipn k l) -> In y (x :: l).
Proof. intros H. right. rewrite <- (firstn_skipn k l). apply in_app_iff. right. exact H. Qed.
Lemma x_in : In x (x :: l).
Proof. left. reflexivity. Qed.

Lemma lower_bound_ok : exists k, std_lower_bound lt l x = Ok k /\ first_suitable lt l x (Z.of_nat k).
Proof.
  destruct (partition_point_ok (fun y => lt y x) l) as (k & E & Hk & A & B).
  { apply (sorted_mono lt _ l Hl). intros u w Hu Hw H1 H2. apply (nlt_trans lt (x :: l) x u w); auto using x_in; right; assumption. }
  exists k. split; [exact E|]. split; [split; [lia|rewrite Nat2Z.id; split]|].
  - intros y Hy. apply (asym lt (x :: l)); auto using x_in. apply (first_in k). exact Hy.
  - exact B.
  - intros j (Hj & J1 & J2). destruct (Z.le_gt_cases (Z.of_nat k) j) as [|C]; [assumption|exfalso].
    destruct (nth_error l (Z.to_nat j)) as [y|] eqn:Ey; [|apply nth_error_None in Ey; lia].
    pose proof (J2 y (in_skip _ _ _ Ey (le_n _))). rewrite A in H by (apply (in_first _ _ _ Ey); lia). discriminate.
Qed.
Lemma upper_bound_ok : exists k, std_upper_bound lt l x = Ok k /\ last_suitable lt l x (Z.of_nat k).
Proof.
  destruct (partition_point_ok (fun y => negb (lt x y)) l) as (k & E & Hk & A & B).
  { apply (sorted_mono lt _ l Hl). intros u w Hu Hw H1 H2. apply negb_false_iff in H2. apply negb_false_iff.
    apply (lt_nlt lt (x :: l) x u w); auto using x_in; right; assumption. }
  exists k. split; [exact E|]. split; [split; [lia|rewrite Nat2Z.id; split]|].
  - intros y Hy. apply negb_true_iff. apply A. exact Hy.
  - intros y Hy. apply (asym lt (x :: l)); auto using x_in; [apply (skip_in k); exact Hy|]. apply negb_false_iff. apply B. exact Hy.
  - intros j (Hj & J1 & J2). destruct (Z.le_gt_cases j (Z.of_nat k)) as [|C]; [assumption|exfalso].
    destruct (nth_error l k) as [y|] eqn:Ey; [|apply nth_error_None in Ey; lia].
    assert (H : lt x y = false) by (apply J1, (in_first _ _ _ Ey); lia). pose proof (B y (in_skip _ _ _ Ey (le_n _))) as H2. cbv beta in H2. rewrite H in H2. discriminate.
Qed.
End Bounds.

(** ** Access with one argument *)
Lemma last_nth {A} (d : A) l : last l d = nth (length l - 1) l d.
Proof. induction l as [|x [|y l] IH]; [reflexivity|reflexivity|]. change (last (x :: y :: l) d) with (last (y :: l) d). rewrite IH. cbn [length]. replace (S (S (length l)) - 1)%nat with (S (S (length l) - 1)) by lia. reflexivity. Qed.
Lemma last_stride {V} (c : cont V) : consistent c -> documented c -> ct_layout c = row_major -> one_argument (ct_shape c) ->
  forall i, 0 <= i < prod (ct_shape c) -> i * (match ct_strides c with [] => 0 | _ => last (ct_strides c) 0 end) = i.
Proof.
  intros Hc Hd Hl Hf i Hi. destruct (Z.eq_dec i 0) as [ -> |Hne]; [reflexivity|]. destruct Hf as [Hf|Hf]; [|lia].
  assert (Hnz : ~ Forall (fun d => d = 0) (ct_shape c) /\ (0 < length (ct_shape c))%nat).
  { destruct (ct_shape c) as [|d t]; [change (prod []) with 1 in Hi; lia|]. split; [|cbn; lia]. intros X. inversion X; subst. rewrite prod_cons in Hi. lia. }
  destruct Hnz as [Hnz Hlen]. destruct Hd as [Ls Hs]; [left; exact Hl|exact Hnz|]. rewrite Hl in Hs.
  assert (E : match ct_strides c with [] => 0 | _ => last (ct_strides c) 0 end = last (ct_strides c) 0) by (destruct (ct_strides c); reflexivity).
  rewrite E, last_nth, Ls, Hs by lia. rewrite last_nth in Hf. unfold row_stride.
  rewrite (proj2 (Z.eqb_neq _ _)) by exact Hf. rewrite skipn_all2 by lia. change (prod []) with 1. lia.
Qed.

Lemma searchsorted_lemma {V} (fresh : list Z -> Z -> list Z) n1 (lt : V -> V -> bool) vals (v : cont V) (ev : list Z -> V) right :
  resizes fresh -> consistent v -> documented v -> ct_layout v = row_major -> one_argument (ct_shape v) ->
  (forall jx, in_bounds (ct_shape v) jx -> elt v jx = Ok (ev jx)) ->
  sorted lt vals -> strict_weak_order lt (ct_data v ++ vals) ->
  exists out, searchsorted row_major fresh n1 lt vals v right = Ok out /\ consistent out /\ ct_shape out = ct_shape v /\
    forall ix, in_bounds (ct_shape v) ix -> exists k, elt out ix = Ok k /\
      if right then first_suitable lt vals (ev ix) k else last_suitable lt vals (ev ix) k.
Proof.
  intros Hf Hc Hd Hl Hfl He Hs Hw. pose proof Hc as (Hsh & _ & _ & Hlen & _).
  destruct (from_shape_ok row_major row_major fresh n1 Hf (or_introl eq_refl) row_major (ct_shape v) (or_introl eq_refl) (or_introl eq_refl) Hsh) as (out & Eo & G & So & Lo).
  unfold searchsorted. unfold from_shape in Eo. rewrite Eo. cbn [bind]. destruct G as (Gc & Gd & Go).
  pose proof Gc as (_ & _ & _ & Glen & _). rewrite So in Glen.
  pose proof (last_stride v Hc Hd Hl Hfl) as Lv. pose proof (last_stride out Gc Gd Lo) as Lout. rewrite So in Lout. specialize (Lout Hfl).
  set (step := match ct_strides out with [] => 0 | _ => last (ct_strides out) 0 end) in *.
  rewrite compute_size_prod. pose proof (prod_nonneg _ Hsh) as Hp. set (m := Z.to_nat (prod (ct_shape v))).
  assert (Hr : forall i, 0 <= i < prod (ct_shape v) -> read_flat v i = rdz (ct_data v) i).
  { intros i Hi. unfold read_flat. pose proof (Lv i Hi) as L. destruct (ct_strides v) as [|s0 st]; [f_equal; lia|]. rewrite L. reflexivity. }
  destruct (for_up_inv (fun k d => length d = length (ct_data out) /\ forall q x, (q < k)%nat -> nth_error (ct_data v) q = Some x ->
      exists w, nth_error d q = Some w /\ if right then first_suitable lt vals x w else last_suitable lt vals x w)
    (fun i d => let* x := read_flat v (Z.of_nat i) in
      let* k := if right then std_lower_bound lt vals x else std_upper_bound lt vals x in
      wrz d (Z.of_nat i * step) (Z.of_nat k)) 0 m (ct_data out)) as (d & E & Ld & HQ).
  - split; [reflexivity|]. intros; lia.
  - intros k d Hk (Ld & HQ). assert (Hi : 0 <= Z.of_nat k < prod (ct_shape v)) by (unfold m in Hk; lia). rewrite Hr by exact Hi.
    destruct (nth_error (ct_data v) k) as [x|] eqn:Ex; [|apply nth_error_None in Ex; lia].
    rewrite (rdz_ok (ct_data v) (Z.of_nat k) x); [|lia|rewrite Nat2Z.id; exact Ex]. cbn [bind].
    assert (Hw' : strict_weak_order lt (x :: vals)).
    { apply (swo_incl lt _ _ Hw). intros y [<-|Hy]; apply in_app_iff; [left; apply (nth_error_In _ _ Ex)|right; exact Hy]. }
    assert (exists w, (if right then std_lower_bound lt vals x else std_upper_bound lt vals x) = Ok w /\
      if right then first_suitable lt vals x (Z.of_nat w) else last_suitable lt vals x (Z.of_nat w)) as (w & Ew & Sw).
    { destruct right; [apply lower_bound_ok|apply upper_bound_ok]; assumption. }
    rewrite Ew. cbn [bind]. rewrite Lout by exact Hi. rewrite wrz_ok by lia. eexists. split; [reflexivity|]. split; [rewrite upd_length; exact Ld|].
    rewrite Nat2Z.id. intros q y Hq Ey. destruct (Nat.eq_dec q k) as [ -> |Hne].
    + assert (y = x) as -> by congruence. exists (Z.of_nat w). split; [apply nth_error_upd_same; lia|exact Sw].
    + destruct (HQ q y ltac:(lia) Ey) as (u & Eu & Su). exists u. split; [|exact Su]. rewrite nth_error_upd_other by congruence. exact Eu.
  - rewrite E. cbn [bind]. exists (with_data out d). split; [reflexivity|].
    split; [apply (good_with_data out d); [split; [exact Gc|split; assumption]|exact Ld]|]. split; [exact So|].
    intros ix B. pose proof (rank_bound row_major _ _ B) as Rb.
    assert (Hlo : is_order (ct_layout v)) by (left; exact Hl).
    pose proof (data_at v ev Hc Hlo He ix B) as Dv. rewrite Hl in Dv.
    destruct (HQ (Z.to_nat (rank row_major (ct_shape v) ix)) (ev ix)) as (w & Ew & Sw); [unfold m; lia|exact Dv|].
    exists w. split; [|exact Sw]. unfold elt, with_data. cbn. rewrite (offset_rank out Gc Go) by (rewrite So; exact B). rewrite So, Lo.
    apply rdz_ok; [lia|exact Ew].
Qed.
