(** The theorems about xt::repeat. *)
From Coq Require Import List ZArith Lia Bool.
From Verif Require Import Prelude PreludeFacts Strides_Model Strides_Spec Strides_Proofs Access_Model
  Stepper_Model Stepper_Spec Stepper_Proofs Stepper2_Proofs Stepper3_Proofs Stepper4_Proofs StepGen_Proofs
  Repeat_Model Repeat_Spec Repeat_Proofs Repeat2_Proofs.
Import ListNotations.
Open Scope Z_scope.

Lemma at_axis_upd : forall l k v, (k < length l)%nat -> at_axis l k v = upd l k v.
Proof.
  unfold at_axis. induction l as [|x l IH]; intros [|k] v H; cbn in H; try lia; [reflexivity|].
  cbn [upd firstn skipn app]. f_equal. apply IH. lia.
Qed.

Lemma make_ok esh r axis : repeatable esh r axis -> make_xrepeat false esh r axis = Ok (upd esh axis (total r)).
Proof.
  intros (H1 & H2 & H3). unfold make_xrepeat. rewrite (rd_ok _ _ _ H2). cbn [bind]. rewrite Z.eqb_refl. cbn [negb rp_shape].
  rewrite fold_total. apply wr_ok. apply nth_error_Some. congruence.
Qed.

Lemma axis_in esh r axis : repeatable esh r axis -> (axis < length esh)%nat.
Proof. intros (_ & H & _). apply nth_error_Some. congruence. Qed.

Lemma shape_lemma esh r axis : repeatable esh r axis ->
  make_xrepeat false esh r axis = Ok (at_axis esh axis (total r)).
Proof. intros H. rewrite at_axis_upd by (eapply axis_in; eauto). apply make_ok. exact H. Qed.

Lemma mismatch_lemma moved esh r axis d : nth_error esh axis = Some d -> Z.of_nat (length r) <> d ->
  make_xrepeat moved esh r axis = Throw invalid_argument.
Proof.
  intros H1 H2. unfold make_xrepeat. rewrite (rd_ok _ _ _ H1). cbn [bind].
  apply Z.eqb_neq in H2. rewrite H2. reflexivity.
Qed.

Lemma total_repeat n k : total (repeat n k) = n * Z.of_nat k.
Proof. induction k as [|k IH]; [cbn; lia|]. cbn [repeat total fold_right]. fold (total (repeat n k)). rewrite IH. lia. Qed.

Lemma firstn_repeat {A} (x : A) j k : (j <= k)%nat -> firstn j (repeat x k) = repeat x j.
Proof. revert k. induction j as [|j IH]; intros [|k] H; try lia; try reflexivity. cbn. f_equal. apply IH. lia. Qed.

Lemma scalar_lemma esh axis d n : is_shape esh -> nth_error esh axis = Some d -> 0 <= n ->
  exists r, repeat_n esh n axis = Ok r /\ repeatable esh r axis /\ total r = n * d /\
    forall i, 0 <= i < n * d -> source r i (Z.to_nat (i / n)).
Proof.
  intros Hs Hd Hn. unfold repeat_n. rewrite (rd_ok _ _ _ Hd). cbn [bind].
  assert (0 <= d). { unfold is_shape in Hs. rewrite Forall_forall in Hs. apply Hs. eapply nth_error_In; eauto. }
  eexists. split; [reflexivity|]. split; [|split].
  - split; [exact Hs|]. rewrite repeat_length, Z2Nat.id by assumption. split; [exact Hd|].
    apply Forall_forall. intros x Hx. apply repeat_spec in Hx. lia.
  - rewrite total_repeat. lia.
  - intros i Hi. assert (0 < n) by nia. pose proof (Z.div_mod i n ltac:(lia)) as D. pose proof (Z.mod_pos_bound i n ltac:(lia)) as M.
    assert (0 <= i / n < d) by (split; [apply Z.div_pos; lia|apply Z.div_lt_upper_bound; lia]).
    split; [rewrite repeat_length; lia|].
    rewrite !firstn_repeat by lia. rewrite !total_repeat. rewrite Nat2Z.inj_succ, Z2Nat.id by lia. nia.
Qed.

Section One.
Context {V : Type} (e : sexp V) (esh r : list Z) (axis : nat).
Hypothesis HR : repeatable esh r axis.
Hypothesis Hok : operands_ok esh e.
Notation sh := (upd esh axis (total r)).

Lemma e_ulaws l : l = row_major \/ l = column_major -> ulaws (x_ops esh e) l esh (x_at esh e) (x_endst esh l e).
Proof. intros Hl. apply ulaws_of_laws. apply x_laws; assumption. Qed.

Lemma sub_ok ix j : in_bounds sh ix -> source r (nth axis ix 0) j -> in_bounds esh (upd ix axis (Z.of_nat j)).
Proof. intros Hb [Hj _]. destruct HR as (_ & H2 & _). eapply sub_in_bounds; eauto. Qed.

Lemma element_ok ix j : in_bounds sh ix -> source r (nth axis ix 0) j -> (0 < nth axis ix 0 \/ 0 < nth 0 r 0) ->
  exists st, rp_element (x_ops esh e) sh r axis (x_begin e) ix = Ok st /\
    rp_deref e st = x_value (upd ix axis (Z.of_nat j)) e.
Proof.
  intros Hb Hs Hc. pose proof HR as (H1 & H2 & H3).
  destruct (rep_element _ row_major esh r axis _ _ (e_ulaws row_major (or_introl eq_refl)) H2 H3 (x_begin e) ix j) as (st & E & Ha); auto.
  - eapply in_bounds_shape_pos; eauto.
  - apply x_begin_at. exact Hok.
  - exists st. split; [exact E|]. unfold rp_deref. eapply x_deref_ok; eauto. eapply sub_ok; eauto.
Qed.
End One.

Lemma element_lemma {V} (e : sexp V) esh r axis extra ix j :
  repeatable esh r axis -> operands_ok esh e -> storage_ok e ->
  in_bounds (at_axis esh axis (total r)) ix -> source r (nth axis ix 0) j ->
  (0 < nth axis ix 0 \/ 0 < nth 0 r 0) ->
  exists v, x_value (at_axis ix axis (Z.of_nat j)) e = Ok v /\
    repeat_at e esh r axis (extra ++ ix) = Ok v /\ repeat_element e esh r axis ix = Ok v.
Proof.
  intros HR Hok Hst Hb Hs Hc. pose proof (axis_in _ _ _ HR) as Ha. rewrite at_axis_upd in Hb by exact Ha.
  pose proof (in_bounds_length _ _ Hb) as HL. rewrite upd_length in HL. rewrite at_axis_upd by lia.
  destruct (element_ok e esh r axis HR Hok ix j Hb Hs Hc) as (st & E & Ed).
  destruct (x_value_ok esh e Hok Hst (upd ix axis (Z.of_nat j))) as (v & Ev).
  { eapply sub_ok; eauto. }
  exists v. split; [exact Ev|]. unfold repeat_at, repeat_element, rp_call. rewrite make_ok by exact HR. cbn [bind].
  rewrite app_length, upd_length, HL, Nat.add_sub, skipn_app, skipn_all, Nat.sub_diag. cbn [skipn app].
  rewrite E. cbn [bind]. rewrite Ed, Ev. auto.
Qed.

Lemma map_zero (s : list Z) : map (fun _ => 0) s = repeat 0 (length s).
Proof. induction s; cbn; [reflexivity|]. f_equal. assumption. Qed.

Lemma iteration_lemma {V} (l : layout) (e : sexp V) esh r axis :
  l = row_major \/ l = column_major ->
  repeatable esh r axis -> operands_ok esh e -> storage_ok e ->
  0 < nth 0 r 0 -> 0 < nth (length r - 1) r 0 ->
  let sh := at_axis esh axis (total r) in
  let ops := rp_ops (x_ops esh e) sh r axis in
  exists b en,
    rp_it_begin sh l (x_begin e) = Ok b /\ rp_it_end (x_ops esh e) sh r l (x_begin e) = Ok en /\
    (forall k, Z.of_nat k < prod sh ->
       exists it, it_inc_k ops sh l k b = Ok it /\ it_equal it en = false /\
         forall ix j, in_bounds sh ix -> order_pos l sh ix = Z.of_nat k -> source r (nth axis ix 0) j ->
           exists v, x_value (at_axis ix axis (Z.of_nat j)) e = Ok v /\ rp_it_deref e it = Ok v) /\
    (exists it, it_inc_k ops sh l (Z.to_nat (prod sh)) b = Ok it /\ it_equal it en = true).
Proof.
  intros Hl HR Hok Hst Hf Hlast sh ops. pose proof (axis_in _ _ _ HR) as Hax. pose proof HR as (H1 & H2 & H3).
  assert (Esh : sh = upd esh axis (total r)) by (apply at_axis_upd; exact Hax).
  assert (Hsh : is_shape sh).
  { unfold sh, at_axis, is_shape in *. apply Forall_app. split; [apply Forall_firstn'; exact H1|].
    constructor; [apply total_nonneg; exact H3|apply Forall_skipn'; exact H1]. }
  pose proof (e_ulaws e esh Hok l Hl) as UL.
  assert (HE : exists st, rp_to_end (x_ops esh e) sh r l (rp_begin sh (x_begin e)) = Ok st).
  { unfold rp_to_end. cbn [rp_begin rp_sub].
    destruct (u_end _ _ _ _ _ UL (x_begin e)) as (s & Es & _); [exists (repeat 0 (length esh)); apply x_begin_at; exact Hok|].
    rewrite Es. cbn [bind].
    set (kk := match l with row_major => 0%nat | _ => (length sh - 1)%nat end).
    assert (Hkk : (kk < length sh)%nat).
    { assert (length sh = length esh) by (rewrite Esh; apply upd_length). unfold kk. rewrite H. destruct Hl as [ -> | -> ]; lia. }
    rewrite (rd_nth 0) by (rewrite map_length; exact Hkk). cbn [bind].
    rewrite (wr_ok _ _ _) by (rewrite map_length; exact Hkk). cbn [bind]. eauto. }
  destruct HE as (ste & HE).
  exists (rp_begin sh (x_begin e), repeat 0 (length sh), 0), (ste, endx l sh, prod sh).
  split; [reflexivity|]. split.
  { unfold rp_it_end. rewrite HE. cbn [bind]. apply make_end; assumption. }
  assert (NN : 0 <= prod sh).
  { clear -Hsh. induction Hsh; [rewrite prod_nil; lia|]. rewrite prod_cons. nia. }
  assert (STEP : 0 < prod sh -> forall k, Z.of_nat k <= prod sh ->
    laws ops l sh (rp_at2 esh r axis (x_at esh e)) (rp_end2 esh r (x_endst esh l e)) /\
    exists it, it_inc_k ops sh l k (rp_begin sh (x_begin e), repeat 0 (length sh), 0) = Ok it /\
      gvalid l sh (rp_at2 esh r axis (x_at esh e)) (rp_end2 esh r (x_endst esh l e)) (Z.of_nat k) it).
  { intros Hp k Hk. pose proof (prod_nonneg_pos sh Hsh Hp) as Hpos.
    pose proof (rep_laws (x_ops esh e) l esh r axis _ _ UL H2 H3 Hf Hlast) as L.
    rewrite <- Esh in L. specialize (L Hpos Hl). split; [exact L|].
    assert (HB : rp_at2 esh r axis (x_at esh e) (repeat 0 (length sh)) (rp_begin sh (x_begin e))).
    { left. rewrite Esh in *. eapply begin_at; eauto. apply x_begin_at. exact Hok. }
    pose proof (g_begin l sh _ (rp_end2 esh r (x_endst esh l e)) Hl Hpos _ HB) as GB.
    destruct (g_inc_k ops l sh _ _ Hl L Hpos k 0 _ GB) as (it & E & Hv); [lia|]. exists it. auto. }
  split.
  - intros k Hk. destruct (STEP ltac:(lia) k ltac:(lia)) as (L & it & E & Hv). exists it. split; [exact E|]. split.
    + destruct it as [[st' ix'] lin]. destruct Hv as [-> _]. unfold it_equal. cbn. apply Z.eqb_neq. lia.
    + intros ix j Hb Hp Hs. pose proof (g_at l sh _ _ Hl _ it ix Hv Hb Hp) as Ha.
      pose proof (in_bounds_length _ _ Hb) as HLx. rewrite Esh in HLx. rewrite upd_length in HLx. rewrite at_axis_upd by lia.
      rewrite Esh in Hb.
      assert (Hsb : in_bounds esh (upd ix axis (Z.of_nat j))) by (eapply sub_ok; eauto).
      destruct (x_value_ok esh e Hok Hst _ Hsb) as (v & Ev). exists v. split; [exact Ev|].
      destruct it as [[st' ix'] lin]. cbn [fst] in Ha. unfold rp_it_deref, rp_deref. rewrite <- Ev.
      eapply x_deref_ok; eauto. eapply rep_at_sub; eauto.
  - destruct (Z.eq_dec (prod sh) 0) as [E0|E0].
    + rewrite E0. eexists. split; [reflexivity|]. reflexivity.
    + destruct (STEP ltac:(lia) (Z.to_nat (prod sh)) ltac:(lia)) as (_ & it & E & Hv). exists it. split; [exact E|].
      destruct it as [[st' ix'] lin]. destruct Hv as [-> _]. unfold it_equal. cbn. apply Z.eqb_eq. lia.
Qed.

Lemma assign_lemma {V} (l : layout) (e : sexp V) esh r axis ix j :
  l = row_major \/ l = column_major ->
  repeatable esh r axis -> operands_ok esh e -> storage_ok e ->
  0 < nth 0 r 0 -> 0 < nth (length r - 1) r 0 ->
  let sh := at_axis esh axis (total r) in
  in_bounds sh ix -> source r (nth axis ix 0) j ->
  exists v, x_value (at_axis ix axis (Z.of_nat j)) e = Ok v /\
    repeat_walk e esh r axis sh l (Z.to_nat (order_pos l sh ix)) = Ok v.
Proof.
  intros Hl HR Hok Hst Hf Hlast sh Hb Hs. pose proof (axis_in _ _ _ HR) as Hax. pose proof HR as (H1 & H2 & H3).
  assert (Esh : sh = upd esh axis (total r)) by (apply at_axis_upd; exact Hax).
  pose proof (e_ulaws e esh Hok l Hl) as UL.
  pose proof (in_bounds_shape_pos _ _ Hb) as Hpos.
  pose proof (rep_laws (x_ops esh e) l esh r axis _ _ UL H2 H3 Hf Hlast) as L.
  rewrite <- Esh in L. specialize (L Hpos Hl).
  assert (HB : rp_at2 esh r axis (x_at esh e) (repeat 0 (length sh)) (rp_begin sh (x_begin e))).
  { left. rewrite Esh in *. eapply begin_at; eauto. apply x_begin_at. exact Hok. }
  destruct (g_walk_at _ l sh _ _ Hl L Hpos _ ix HB Hb) as (st & E & Ha).
  unfold repeat_walk. rewrite make_ok by exact HR. cbn [bind]. rewrite <- Esh.
  pose proof (in_bounds_length _ _ Hb) as HLx. rewrite Esh, upd_length in HLx. rewrite at_axis_upd by lia.
  rewrite map_zero.
  assert (Eo : x_ops sh e = x_ops esh e).
  { assert (Hlen : length sh = length esh) by (rewrite Esh; apply upd_length).
    clear -Hlen. induction e as [v|c b|s f|f args IH] using sexp_ind'; cbn [x_ops].
    - reflexivity.
    - unfold k_offset. rewrite Hlen. reflexivity.
    - rewrite Hlen. reflexivity.
    - f_equal. induction IH as [|a args Ha _ IH2]; [reflexivity|]. cbn [map]. rewrite Ha, IH2. reflexivity. }
  rewrite Eo, E. cbn [bind].
  rewrite Esh in Hb.
  assert (Hsb : in_bounds esh (upd ix axis (Z.of_nat j))) by (eapply sub_ok; eauto).
  destruct (x_value_ok esh e Hok Hst _ Hsb) as (v & Ev). exists v. split; [exact Ev|].
  unfold rp_deref. rewrite <- Ev. eapply x_deref_ok; eauto. eapply rep_at_sub; eauto.
Qed.

Lemma moves_1d_lemma {V} (l : layout) (e : sexp V) n r :
  l = row_major \/ l = column_major ->
  repeatable [n] r 0 -> operands_ok [n] e -> storage_ok e -> reversible l e ->
  0 < nth 0 r 0 -> 0 < nth (length r - 1) r 0 ->
  let ops := rp_ops (x_ops [n] e) [total r] r 0 in
  exists b en,
    rp_it_begin [total r] l (x_begin e) = Ok b /\ rp_it_end (x_ops [n] e) [total r] r l (x_begin e) = Ok en /\
    forall (from_end : bool) (ms : list move),
    let start := if from_end then total r else 0 in
    stays (total r) start ms ->
    exists it, do_moves ops [total r] l ms (if from_end then en else b) = Ok it /\ snd it = final start ms /\
      forall j, source r (final start ms) j ->
        exists v, x_value [Z.of_nat j] e = Ok v /\ rp_it_deref e it = Ok v.
Proof.
  intros Hl HR Hok Hst Hrev Hf Hlast ops. pose proof HR as (H1 & H2 & H3).
  assert (Hrl : (0 < length r)%nat) by (destruct r; [cbn in Hf; lia|cbn; lia]).
  assert (Ht : 0 < total r).
  { destruct r as [|x r']; [cbn in Hrl; lia|]. cbn [nth] in Hf. cbn [total fold_right]. fold (total r').
    inversion H3; subst. pose proof (total_nonneg r' ltac:(assumption)). lia. }
  assert (Hpos : Forall (fun d => 0 < d) [total r]) by (repeat constructor; exact Ht).
  assert (Hsh : is_shape [total r]) by (repeat constructor; lia).
  pose proof (e_ulaws e [n] Hok l Hl) as UL.
  pose proof (rep_laws (x_ops [n] e) l [n] r 0 _ _ UL H2 H3 Hf Hlast Hpos Hl) as L. cbn [upd] in L.
  set (A := rp_at2 [n] r 0 (x_at [n] e)) in *. set (E := rp_end2 [n] r (x_endst [n] l e)) in *.
  assert (HB : A (repeat 0 (length [total r])) (rp_begin [total r] (x_begin e))).
  { left. change [total r] with (upd [n] 0 (total r)). eapply begin_at; eauto. apply x_begin_at. exact Hok. }
  destruct (l_end _ _ _ _ _ L (rp_begin [total r] (x_begin e))) as (ste & HE & He); [eexists; exact HB|].
  assert (Hend : forall st, [total r] <> [] -> E st -> A (endx l [total r]) st).
  { intros st _ HEst. change [total r] with (upd [n] 0 (total r)).
    eapply (rep_end_at (x_ops [n] e) l [n] r 0 (x_at [n] e) (x_endst [n] l e)); auto; try exact HEst.
    intros s (_ & Hs). apply Hs; [discriminate|exact Hrev]. }
  assert (Ep : prod [total r] = total r) by (rewrite prod_cons, prod_nil; lia).
  exists (rp_begin [total r] (x_begin e), repeat 0 (length [total r]), 0), (ste, endx l [total r], prod [total r]).
  split; [reflexivity|]. split.
  { unfold rp_it_end. cbn [rp_ops s_to_end] in HE. rewrite HE. cbn [bind]. apply make_end; assumption. }
  intros fe ms start Hs.
  assert (GB : gvalid l [total r] A E start (if fe then (ste, endx l [total r], prod [total r]) else
     (rp_begin [total r] (x_begin e), repeat 0 (length [total r]), 0))).
  { unfold start. destruct fe; [rewrite <- Ep at 2; apply g_end; exact He|apply g_begin; auto]. }
  destruct (g_moves ops l [total r] A E Hl L Hpos Hend ms start _ GB) as (it & Eit & Hv & Hr2).
  { unfold start. rewrite Ep. destruct fe; lia. }
  { rewrite Ep. exact Hs. }
  exists it. split; [exact Eit|]. split; [destruct it as [[? ?] ?]; apply Hv|].
  intros j Hsrc. set (i := final start ms) in *.
  assert (Hi : 0 <= i < total r).
  { destruct Hsrc as [Hj Hsrc]. pose proof (total_prefix r j H3). pose proof (total_prefix r (S j) H3). lia. }
  assert (Hb : in_bounds [total r] [i]) by (repeat constructor; lia).
  assert (Ho : order_pos l [total r] [i] = i).
  { clear. destruct l; cbn [order_pos row_pos col_pos]; rewrite ?prod_nil; ring. }
  pose proof (g_at l [total r] A E Hl i it [i] Hv Hb Ho) as Ha.
  assert (Hsb : in_bounds [n] [Z.of_nat j]).
  { cbn in H2. injection H2 as H2. destruct Hsrc. repeat constructor; lia. }
  destruct (x_value_ok [n] e Hok Hst _ Hsb) as (v & Ev). exists v. split; [exact Ev|].
  destruct it as [[st' ix'] lin]. cbn [fst] in Ha. unfold rp_it_deref, rp_deref. rewrite <- Ev.
  eapply x_deref_ok; eauto.
  exact (rep_at_sub [n] r 0 (x_at [n] e) H2 H3 Hf [i] st' j Hb Ha Hsrc).
Qed.

(** ** Witnesses *)
Definition row3 : sexp Z := XStrided (mk_container [3] [1] [2] 0) [10;20;30].
Definition grid23 : sexp Z := XStrided (mk_container [2;3] [3;1] [3;2] 0) [1;2;3;4;5;6].

Definition reversed {V} (e : sexp V) (esh r : list Z) (axis : nat) (l : layout) (k : nat) : res V :=
  let* sh := make_xrepeat false esh r axis in
  let* it := rp_it_end (x_ops esh e) sh r l (x_begin e) in
  let* it := it_dec_k (rp_ops (x_ops esh e) sh r axis) sh l k it in
  rp_it_deref e it.
