(** Proofs about xview: the property lemmas. *)
From Coq Require Import List ZArith Bool Lia.
From Verif Require Import Prelude PreludeFacts Strides_Model Strides_Spec Strides_Proofs Slice_Model Slice_Spec Slice_Proofs
  Container_Model Container_Spec Container_Proofs Stepper_Proofs
  View_Spec SView_Model SView_Spec SView_Proofs SView2_Proofs SView3_Proofs SView4_Proofs Manip_Spec
  XView_Model XView_Spec XView_Proofs XView2_Proofs XView3_Proofs.
Import ListNotations.
Open Scope Z_scope.

Lemma rr_strided us sh rs : rr us sh rs -> Forall no_list us -> forallb is_strided_slice rs = true.
Proof.
  induction 1; intros Fl; [reflexivity| |]; inversion Fl; subst; cbn [forallb]; rewrite IHrr by auto; [reflexivity|].
  rewrite andb_true_r. destruct u; cbn in H0; try (injection H0 as <-; reflexivity); cbn in H4; try tauto.
  destruct start, stop, step; cbn in H0; unfold get_stepped_range, mk_stepped, mk_range, cdiv, crem in H0;
    repeat match type of H0 with context [if ?b then _ else _] => destruct b end; cbn in H0; try discriminate;
    injection H0 as <-; reflexivity.
Qed.

Lemma dot_zeros n st : dot (repeat 0 n) st = 0.
Proof. apply dot_repeat0. Qed.
Lemma row_pos_zeros s : forall n, row_pos s (repeat 0 n) = 0.
Proof. induction s as [|d s IH]; intros [|n]; cbn; auto. rewrite IH. lia. Qed.

Section Layout.
Variables (e : xexp) (us : list user_slice) (rs : list slice) (sl : layout) (fixed : bool).
Hypothesis R : rr us (x_shape e) rs.
Hypothesis F : forallb is_strided_slice rs = true.
Hypothesis Hd : x_direct e = true.
Hypothesis Hst : length (x_strides e) = length (x_shape e).
Hypothesis Hl : layout_true e.
Hypothesis Hsl : is_order sl -> x_layout e = sl.
Hypothesis Hsrc : forall ix, in_bounds (shp rs (x_shape e)) ix ->
      exists jx, src rs ix = Ok jx /\ source_index us (x_shape e) ix jx /\ in_bounds (x_shape e) jx.

Let v := mk_xview e rs (shp rs (x_shape e)).

Lemma strides_ok : exists st, v_strides sl fixed v = Ok st /\ length st = length (shp rs (x_shape e)) /\
  forall ix, in_bounds (shp rs (x_shape e)) ix -> dot ix st = dot ix (sstr rs (x_strides e)).
Proof.
  pose proof (sstr_len rs (x_shape e) (x_strides e) Hst) as SL.
  unfold v_strides. destruct (has_trivial_strides sl fixed v) eqn:T.
  - unfold has_trivial_strides in T. apply andb_true_iff in T as (T1 & T2). apply negb_true_iff in T1, T2.
    unfold static_view_layout in *. cbn [v v_e v_slices] in *. rewrite Hd in *. cbn [negb] in *.
    destruct sl; try discriminate.
    + destruct (contiguous_row true false false rs) eqn:C; [|discriminate].
      apply row_crow in C. rewrite <- (crow_trivial _ _ _ _ R C T2 Hst). eexists. repeat split; auto.
    + destruct (fixed && (length (x_shape e) =? length rs)%nat && contiguous_col true false false rs) eqn:C; [|discriminate].
      apply andb_true_iff in C as (C1 & C). apply andb_true_iff in C1 as (_ & C1). apply Nat.eqb_eq in C1.
      apply col_ccol in C. rewrite <- (ccol_trivial _ _ _ _ R C T2 Hst) by auto. eexists. repeat split; auto.
  - unfold v. rewrite (computed_ok e us rs R F Hst). eexists. split; [reflexivity|].
    rewrite adapted_length. split; [auto|]. intros ix Hi. apply dot_adapted; auto.
Qed.

Lemma source_dot ix jx : src rs ix = Ok jx -> in_bounds (x_shape e) jx ->
  x_elem e jx = Slot (x_offset e + off rs (x_strides e) + dot ix (sstr rs (x_strides e))).
Proof.
  intros E J. unfold x_elem. rewrite Hd. pose proof (in_bounds_length _ _ J).
  rewrite element_offset_same by lia. rewrite (dot_src rs ix jx (x_strides e) F E) by lia. f_equal. lia.
Qed.

Lemma static_rank l : static_view_layout sl fixed v = l -> l <> dynamic -> is_order l /\
  forall ix, in_bounds (shp rs (x_shape e)) ix -> dot ix (sstr rs (x_strides e)) = rank l (shp rs (x_shape e)) ix.
Proof.
  intros El Hn. unfold static_view_layout, v in El. cbn [v_e v_slices] in El. rewrite Hd in El. cbn [negb] in El.
  assert (K : forall (pos : list Z -> list Z -> Z),
    (forall n, pos (shp rs (x_shape e)) (repeat 0 n) = 0) ->
    (exists c, forall ix jx, src rs ix = Ok jx -> length ix = length (shp rs (x_shape e)) ->
       pos (x_shape e) jx = c + pos (shp rs (x_shape e)) ix) ->
    (forall jx, in_bounds (x_shape e) jx -> element_offset (x_strides e) jx = pos (x_shape e) jx) ->
    forall ix, in_bounds (shp rs (x_shape e)) ix -> dot ix (sstr rs (x_strides e)) = pos (shp rs (x_shape e)) ix).
  { intros pos Z0 (c & C) Hp ix Hi.
    pose proof (zeros_in_bounds _ (in_bounds_pos _ _ Hi)) as Hz.
    destruct (Hsrc _ Hi) as (jx & J1 & _ & J3). destruct (Hsrc _ Hz) as (jz & Z1 & _ & Z3).
    assert (G : forall ix jx, src rs ix = Ok jx -> in_bounds (x_shape e) jx -> in_bounds (shp rs (x_shape e)) ix ->
      off rs (x_strides e) + dot ix (sstr rs (x_strides e)) = c + pos (shp rs (x_shape e)) ix).
    { intros ix0 jx0 E J B. rewrite <- (C ix0 jx0 E (in_bounds_length _ _ B)). rewrite <- Hp by auto.
      pose proof (in_bounds_length _ _ J). rewrite element_offset_same by lia.
      rewrite (dot_src rs ix0 jx0 (x_strides e) F E) by lia. reflexivity. }
    pose proof (G _ _ J1 J3 Hi) as G1. pose proof (G _ _ Z1 Z3 Hz) as G2. rewrite Z0, dot_zeros in G2. lia. }
  destruct sl; try congruence.
  - destruct (contiguous_row true false false rs) eqn:C; [subst l|congruence]. split; [left; reflexivity|].
    apply row_crow in C. apply (K row_pos); [apply row_pos_zeros|apply (crow_pos us); auto|].
    intros jx J. specialize (Hsl (or_introl eq_refl)). pose proof (Hl ltac:(rewrite Hsl; left; reflexivity) jx J) as E.
    rewrite Hsl in E. exact E.
  - destruct (fixed && (length (x_shape e) =? length rs)%nat && contiguous_col true false false rs) eqn:C; [|congruence].
    apply andb_true_iff in C as (C1 & C). apply andb_true_iff in C1 as (_ & C1). apply Nat.eqb_eq in C1. subst l.
    split; [right; reflexivity|].
    apply col_ccol in C. apply (K col_pos); [apply col_pos_zeros|apply (ccol_pos us); auto|].
    intros jx J. specialize (Hsl (or_intror eq_refl)). pose proof (Hl ltac:(rewrite Hsl; right; reflexivity) jx J) as E.
    rewrite Hsl in E. exact E.
Qed.

Lemma layout_ok st : v_strides sl fixed v = Ok st -> length st = length (shp rs (x_shape e)) ->
  (forall ix, in_bounds (shp rs (x_shape e)) ix -> dot ix st = dot ix (sstr rs (x_strides e))) ->
  exists l, v_layout sl fixed v = Ok l /\ (l <> dynamic -> is_order l /\
    forall ix, in_bounds (shp rs (x_shape e)) ix -> element_offset st ix = rank l (shp rs (x_shape e)) ix).
Proof.
  intros Es Ls Hd'. unfold v_layout.
  assert (Sv : is_strided_view v = true) by (unfold is_strided_view, v; cbn; rewrite Hd, F; reflexivity).
  rewrite Sv. cbv zeta. destruct (layout_eqb (static_view_layout sl fixed v) dynamic) eqn:E.
  - rewrite Es. cbn [bind]. unfold v at 1 2 3. cbn [v_shape v_e].
    destruct (strides_match_exact_lemma (x_layout e) _ _ true Ls) as (m & Hm & _). rewrite Hm. cbn [bind].
    eexists. split; [reflexivity|]. intros Hn. destruct m; [|congruence].
    destruct (strides_match_sound_lemma _ _ _ _ Ls Hm) as (Q1 & Q2). split; [exact Q1|]. exact Q2.
  - eexists. split; [reflexivity|]. intros Hn. destruct (static_rank _ eq_refl Hn) as (O & Rk). split; [exact O|].
    intros ix Hi. rewrite element_offset_same by (rewrite Ls; apply in_bounds_length; auto).
    rewrite Hd' by auto. auto.
Qed.
End Layout.

Lemma view_data_lemma : forall (e : xexp) (us : list user_slice) (sl : layout) (fixed : bool),
  wf_exp e -> x_direct e = true -> layout_true e -> (is_order sl -> x_layout e = sl) ->
  valid true us (x_shape e) -> Forall no_list us -> (length us <= length (x_shape e))%nat ->
  exists v st o l, view e us = Ok v /\ is_strided_view v = true /\
    v_strides sl fixed v = Ok st /\ v_data_offset v = Ok o /\ v_layout sl fixed v = Ok l /\
    length st = length (v_shape v) /\
    (l <> dynamic -> is_order l) /\
    forall ix, in_bounds (v_shape v) ix ->
      exists jx, source_index us (x_shape e) ix jx /\ in_bounds (x_shape e) jx /\
        x_elem e jx = Slot (o + element_offset st ix) /\
        (l <> dynamic -> element_offset st ix = rank l (v_shape v) ix /\
           linear_at v (rank l (v_shape v) ix) = Ok (x_elem e jx)).
Proof.
  intros e us sl fixed (Hs & Hw) Hd Hl Hsl Hv Hn Hu. pose proof (Hw Hd) as Hst.
  destruct (resolved us (x_shape e) Hv Hs) as (rs & R & V & S & J).
  pose proof (rr_strided _ _ _ R Hn) as F.
  set (v := mk_xview e rs (shp rs (x_shape e))).
  destruct (strides_ok e us rs sl fixed R F Hd Hst Hsl) as (st & St1 & St2 & St3).
  destruct (layout_ok e us rs sl fixed R F Hd Hst Hl Hsl J st St1 St2 St3) as (l & L1 & L2).
  assert (Lo : v_data_offset v = Ok (off rs (x_strides e) + x_offset e)).
  { apply (data_offset_ok e us rs); auto. rewrite (rr_len _ _ _ R). auto. }
  exists v, st, (off rs (x_strides e) + x_offset e), l.
  split; [apply (view_ok e us rs R)|]. split; [unfold is_strided_view, v; cbn; rewrite Hd, F; reflexivity|].
  split; [exact St1|]. split; [exact Lo|]. split; [exact L1|]. split; [exact St2|].
  split; [intros X; apply L2; auto|]. cbn [v v_shape]. intros ix Hi.
  destruct (J ix Hi) as (jx & J1 & J2 & J3). exists jx. split; [exact J2|]. split; [exact J3|].
  pose proof (in_bounds_length _ _ Hi) as Li.
  assert (E : x_elem e jx = Slot (off rs (x_strides e) + x_offset e + element_offset st ix)).
  { rewrite (source_dot e rs F Hd Hst ix jx J1 J3). rewrite element_offset_same by lia. rewrite St3 by auto. f_equal. lia. }
  split; [exact E|]. intros X. destruct (L2 X) as (_ & L3). split; [auto|].
  unfold linear_at. fold v. rewrite Lo. cbn [bind]. rewrite E. rewrite L3 by auto. reflexivity.
Qed.

Lemma view_write_lemma : forall (V : Type) (c : cont V) (us : list user_slice) (v : xview) (ix : list Z) (x : V),
  consistent c -> valid true us (ct_shape c) -> one_newaxis us ->
  view (of_cont c) us = Ok v -> in_bounds (v_shape v) ix ->
  exists jx c', source_index us (ct_shape c) ix jx /\ in_bounds (ct_shape c) jx /\
    v_assign v ix x c = Ok c' /\
    ct_shape c' = ct_shape c /\ ct_strides c' = ct_strides c /\ ct_layout c' = ct_layout c /\
    elt c' jx = Ok x /\
    forall jx', in_bounds (ct_shape c) jx' -> jx' <> jx -> elt c' jx' = elt c jx'.
Proof.
  intros V c us v ix x Hc Hv N Hs Hi.
  destruct (view_element_lemma (of_cont c) us (consistent_wf c Hc) Hv) as (v' & E & _ & _ & A).
  rewrite Hs in E. injection E as <-.
  destruct (A ix Hi) as (jx & J1 & J2 & _ & J3). destruct (J3 N) as (_ & J4). specialize (J4 []). cbn [app] in J4.
  cbn [of_cont x_shape] in *.
  unfold x_elem, of_cont in J4. cbn in J4. rewrite Z.add_0_l in J4.
  unfold v_assign. rewrite J4. cbn [bind].
  pose proof (consistent_accesses c Hc jx J2) as Hb.
  rewrite wrz_ok by lia. cbn [bind]. eexists jx, _. split; [exact J1|]. split; [exact J2|]. split; [reflexivity|].
  cbn [ct_shape ct_strides ct_layout]. repeat split.
  - unfold elt. cbn [ct_data ct_strides]. apply rdz_ok; [lia|]. rewrite nth_error_upd_same by lia. reflexivity.
  - intros jx' Hj' Hne. unfold elt. cbn [ct_data ct_strides].
    pose proof (consistent_accesses c Hc jx' Hj') as Hb'.
    destruct Hc as (_ & _ & _ & _ & l & Hl & _ & Hr).
    destruct (nth_error_lt_ex (ct_data c) (Z.to_nat (element_offset (ct_strides c) jx')) ltac:(lia)) as (y & Hy).
    rewrite (rdz_ok (ct_data c) _ y (proj1 Hb') Hy). apply rdz_ok; [lia|].
    rewrite nth_error_upd_other; auto. intros Heq.
    assert (element_offset (ct_strides c) jx' = element_offset (ct_strides c) jx) as Ho by lia.
    rewrite !Hr in Ho by auto. apply Hne. eapply rank_inj; eauto.
Qed.

Ltac inv_views := repeat match goal with
  | H : view_shape (_ :: _) _ _ |- _ => inversion H; clear H; subst
  | H : view_shape [] _ _ |- _ => inversion H; clear H; subst
  | H : source_index (_ :: _) _ _ _ |- _ => inversion H; clear H; subst
  | H : source_index [] _ _ _ |- _ => inversion H; clear H; subst
  end.

Lemma row_lemma : forall (e : xexp) (i n m : Z), wf_exp e -> x_shape e = [n; m] -> - n <= i < n ->
  exists v, row e i = Ok v /\ v_shape v = [m] /\ forall k, 0 <= k < m -> v_call v [k] = Ok (x_elem e [from_end n i; k]).
Proof.
  intros e i n m He Es Hi. unfold row. rewrite Es. cbn [length Nat.eqb].
  destruct (view_element_lemma e [UInt i; UAll] He) as (v & E & V & _ & A).
  { rewrite Es. repeat constructor; lia. }
  exists v. split; [exact E|]. rewrite Es in *.
  assert (Ev : v_shape v = [m]).
  { inv_views. congruence. }
  split; [exact Ev|]. intros k Hk. destruct (A [k]) as (jx & J1 & _ & _ & J2).
  { rewrite Ev. repeat constructor; lia. }
  destruct (J2 I) as (_ & J3). specialize (J3 []). cbn [app] in J3. rewrite J3.
  inv_views. reflexivity.
Qed.

Lemma col_lemma : forall (e : xexp) (i n m : Z), wf_exp e -> x_shape e = [n; m] -> - m <= i < m ->
  exists v, col e i = Ok v /\ v_shape v = [n] /\ forall k, 0 <= k < n -> v_call v [k] = Ok (x_elem e [k; from_end m i]).
Proof.
  intros e i n m He Es Hi. unfold col. rewrite Es. cbn [length Nat.eqb].
  destruct (view_element_lemma e [UAll; UInt i] He) as (v & E & V & _ & A).
  { rewrite Es. repeat constructor; lia. }
  exists v. split; [exact E|]. rewrite Es in *.
  assert (Ev : v_shape v = [n]).
  { inv_views. congruence. }
  split; [exact Ev|]. intros k Hk. destruct (A [k]) as (jx & J1 & _ & _ & J2).
  { rewrite Ev. repeat constructor; lia. }
  destruct (J2 I) as (_ & J3). specialize (J3 []). cbn [app] in J3. rewrite J3.
  inv_views. reflexivity.
Qed.

Lemma row_throws_lemma : forall (e : xexp) (i : Z), length (x_shape e) <> 2%nat ->
  row e i = Throw invalid_argument /\ col e i = Throw invalid_argument.
Proof. intros e i H. unfold row, col. apply Nat.eqb_neq in H. rewrite H. auto. Qed.

(** ** Refutations *)
Definition a45 : xexp := mk_xexp true [4;5] [5;1] 0 row_major.
Definition a345 : xexp := mk_xexp true [3;4;5] [20;5;1] 0 row_major.

Lemma two_newaxis_lemma :
  exists e us v ix jx, wf_exp e /\ valid true us (x_shape e) /\ no_int_after_newaxis us /\ view e us = Ok v /\
    in_bounds (v_shape v) ix /\ source_index us (x_shape e) ix jx /\
    v_element v ix = Ok (x_elem e jx) /\ v_call v ix <> Ok (x_elem e jx) /\ is_ok (v_call v ix) = true.
Proof.
  exists a45, [UNewaxis; UNewaxis; UAll; UAll], (mk_xview a45 [SNewaxis; SNewaxis; SAll 4; SAll 5] [1;1;4;5]), [0;0;2;3], [2;3].
  split; [split; [repeat constructor; lia|reflexivity]|]. split; [repeat constructor|].
  split; [cbn; repeat constructor|]. split; [vm_compute; reflexivity|].
  split; [repeat constructor; lia|]. split; [repeat constructor|]. split; [vm_compute; reflexivity|].
  split; [vm_compute; discriminate|vm_compute; reflexivity].
Qed.

Lemma int_after_newaxis_lemma :
  exists e us v ix jx, wf_exp e /\ valid true us (x_shape e) /\ view e us = Ok v /\
    in_bounds (v_shape v) ix /\ source_index us (x_shape e) ix jx /\
    v_call v ix <> Ok (x_elem e jx) /\ is_ok (v_call v ix) = true /\
    v_element v ix <> Ok (x_elem e jx) /\ is_ok (v_element v ix) = true.
Proof.
  exists a345, [UNewaxis; UInt 1; UAll; UAll], (mk_xview a345 [SNewaxis; SInt 1; SAll 4; SAll 5] [1;4;5]), [0;2;3], [1;2;3].
  split; [split; [repeat constructor; lia|reflexivity]|]. split; [repeat constructor; cbn; lia|].
  split; [vm_compute; reflexivity|].
  split; [repeat constructor; lia|]. split; [apply si_new, (si_int 1); repeat constructor|].
  repeat split; vm_compute; try discriminate; reflexivity.
Qed.

Lemma data_offset_lemma :
  exists e us v st o ix jx, wf_exp e /\ x_direct e = true /\ layout_true e /\ valid true us (x_shape e) /\
    Forall no_list us /\ view e us = Ok v /\ v_strides dynamic false v = Ok st /\ v_data_offset v = Ok o /\
    in_bounds (v_shape v) ix /\ source_index us (x_shape e) ix jx /\
    x_elem e jx <> Slot (o + element_offset st ix).
Proof.
  exists (mk_xexp true [4;5] [1;4] 0 column_major), [UNewaxis; UAll; UInt 2],
    (mk_xview (mk_xexp true [4;5] [1;4] 0 column_major) [SNewaxis; SAll 4; SInt 2] [1;4]), [0;1], 2, [0;0], [0;2].
  split; [split; [repeat constructor; lia|reflexivity]|]. split; [reflexivity|].
  split. { intros _ ix Hi. inversion Hi; subst. inversion H3; subst. inversion H5; subst.
    rewrite element_offset_same by reflexivity. cbn. lia. }
  split; [repeat constructor; cbn; lia|]. split; [repeat constructor|].
  split; [vm_compute; reflexivity|]. split; [vm_compute; reflexivity|]. split; [vm_compute; reflexivity|].
  split; [repeat constructor; lia|]. split; [apply si_new, si_all, (si_int 2), si_rest|]. vm_compute. discriminate.
Qed.

Lemma short_call_lemma :
  exists e us v i jx, wf_exp e /\ valid true us (x_shape e) /\ view e us = Ok v /\
    length (v_shape v) = 2%nat /\ in_bounds (v_shape v) [0; i] /\ source_index us (x_shape e) [0; i] jx /\
    v_call v [0; i] = Ok (x_elem e jx) /\ v_call v [i] <> v_call v [0; i] /\ is_ok (v_call v [i]) = true.
Proof.
  exists a45, [URange (Some 1) (Some 3) None; UAll], (mk_xview a45 [SRange 1 2; SAll 5] [2;5]), 1, [1;1].
  split; [split; [repeat constructor; lia|reflexivity]|].
  split; [apply va_range; [discriminate|left; reflexivity|repeat constructor]|].
  split; [vm_compute; reflexivity|]. split; [reflexivity|]. split; [repeat constructor; lia|].
  split. { apply (si_range 0 (Some 1) (Some 3) None 4). repeat constructor. }
  repeat split; vm_compute; try discriminate; reflexivity.
Qed.

Lemma short_element_lemma :
  exists e us v i, wf_exp e /\ valid true us (x_shape e) /\ view e us = Ok v /\
    us = [UAll; UAll] /\ in_bounds (v_shape v) [0; i] /\
    v_element v [0; i] = Ok (x_elem e [i]) /\ v_element v [i] <> Ok (x_elem e [i]) /\ is_ok (v_element v [i]) = true.
Proof.
  exists a45, [UAll; UAll], (mk_xview a45 [SAll 4; SAll 5] [4;5]), 1.
  split; [split; [repeat constructor; lia|reflexivity]|]. split; [repeat constructor|].
  split; [vm_compute; reflexivity|]. split; [reflexivity|]. split; [repeat constructor; lia|].
  repeat split; vm_compute; try discriminate; reflexivity.
Qed.

Lemma no_argument_lemma :
  exists e us v c, wf_exp e /\ valid true us (x_shape e) /\ view e us = Ok v /\ v_shape v = [2] /\
    v_call v [] = Ok c /\ forall i, in_bounds (v_shape v) [i] -> v_call v [i] <> Ok c /\ is_ok (v_call v [i]) = true.
Proof.
  exists a45, [URange (Some 1) (Some 3) None; UInt 0], (mk_xview a45 [SRange 1 2; SInt 0] [2]), (Slot 1).
  split; [split; [repeat constructor; lia|reflexivity]|].
  split; [apply va_range; [discriminate|left; reflexivity|repeat constructor; lia]|].
  split; [vm_compute; reflexivity|]. split; [reflexivity|]. split; [vm_compute; reflexivity|].
  intros i H. assert (0 <= i < 2) by (inversion H; subst; assumption).
  assert (i = 0 \/ i = 1) as [ -> | -> ] by lia; split; vm_compute; try discriminate; reflexivity.
Qed.
