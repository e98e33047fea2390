(** Proofs about xview: element access. *)
From Coq Require Import List ZArith Bool Lia.
From Verif Require Import Prelude PreludeFacts Strides_Model Strides_Spec Strides_Proofs Slice_Model Slice_Spec Slice_Proofs
  View_Spec SView_Model SView_Spec SView_Proofs SView2_Proofs SView3_Proofs XView_Model XView_Spec XView_Proofs.
Import ListNotations.
Open Scope Z_scope.

(** Valid slices resolve, and the resolved slices select what the specification says. *)
Lemma resolved us sh : valid true us sh -> is_shape sh ->
  exists rs, rr us sh rs /\ view_shape us sh (shp rs sh) /\ is_shape (shp rs sh) /\
    forall ix, in_bounds (shp rs sh) ix ->
      exists jx, src rs ix = Ok jx /\ source_index us sh ix jx /\ in_bounds sh jx.
Proof.
  induction 1; intros Hs.
  - exists []. split; [constructor|]. split; [constructor|]. split; [auto|]. intros ix Hi. exists ix.
    split; [reflexivity|]. split; [constructor|auto].
  - inversion Hs; subst. destruct IHvalid as (rs & R & V & S & J); auto.
    exists (SInt (if i <? 0 then i + n else i) :: rs). split; [constructor; [discriminate|reflexivity|auto]|].
    cbn [shp tl]. split; [constructor; auto|]. split; [auto|]. intros ix Hi. destruct (J ix Hi) as (jx & J1 & J2 & J3).
    exists (from_end n i :: jx). cbn [src]. rewrite J1. cbn [bind].
    split; [unfold from_end; destruct (i <? 0); do 2 f_equal; lia|]. split; [constructor; auto|].
    constructor; auto. unfold from_end. destruct (i <? 0) eqn:E; [apply Z.ltb_lt in E|apply Z.ltb_ge in E]; lia.
  - destruct IHvalid as (rs & R & V & S & J); auto. exists (SNewaxis :: rs). split; [constructor; auto|].
    cbn [shp]. split; [constructor; auto|]. split; [constructor; auto; lia|]. intros ix Hi.
    destruct (in_bounds_cons_inv _ _ _ Hi) as (k & ix' & -> & Hk & Hi'). destruct (J ix' Hi') as (jx & J1 & J2 & J3).
    exists jx. replace k with 0 by lia. cbn [src]. split; [auto|]. split; [constructor; auto|auto].
  - inversion Hs; subst. destruct IHvalid as (rs & R & V & S & J); auto.
    exists (SAll n :: rs). split; [constructor; [discriminate|reflexivity|auto]|].
    cbn [shp tl slice_size]. split; [constructor; auto|]. split; [constructor; auto|]. intros ix Hi.
    destruct (in_bounds_cons_inv _ _ _ Hi) as (k & ix' & -> & Hk & Hi'). destruct (J ix' Hi') as (jx & J1 & J2 & J3).
    exists (k :: jx). cbn [src slice_at bind]. rewrite J1. cbn [bind]. split; [auto|]. split; [constructor; auto|].
    constructor; auto.
  - inversion Hs; subst. destruct IHvalid as (rs & R & V & S & J); auto.
    destruct (range_python_lemma n a b s) as (r & f & R1 & R2 & R3 & R4); auto.
    assert (A : axis_slice r).
    { split; [rewrite (resolve_int (URange a b s) n r R1)|rewrite (resolve_new (URange a b s) n r R1)]; reflexivity. }
    exists (r :: rs). split; [constructor; [discriminate|exact R1|auto]|].
    rewrite shp_axis by auto. cbn [tl]. split; [econstructor; eauto|].
    split; [constructor; [destruct R3; auto|auto]|]. intros ix Hi.
    destruct (in_bounds_cons_inv _ _ _ Hi) as (k & ix' & -> & Hk & Hi'). destruct (J ix' Hi') as (jx & J1 & J2 & J3).
    exists (f k :: jx). rewrite src_axis by auto. rewrite R2. cbn [bind]. rewrite J1. cbn [bind].
    split; [auto|]. destruct R3 as (_ & _ & R3). specialize (R3 k Hk). rewrite R3.
    split; [constructor; auto|]. constructor; auto. rewrite <- R3. auto.
  - inversion Hs; subst. destruct IHvalid as (rs & R & V & S & J); auto.
    destruct (keep_lemma n raw) as (r & R1 & R2 & R3 & _); auto.
    assert (A : axis_slice r).
    { split; [rewrite (resolve_int (UKeep raw) n r R1)|rewrite (resolve_new (UKeep raw) n r R1)]; reflexivity. }
    exists (r :: rs). split; [constructor; [discriminate|exact R1|auto]|].
    rewrite shp_axis by auto. cbn [tl]. rewrite R2. split; [econstructor; eauto|].
    split; [constructor; [lia|auto]|]. intros ix Hi.
    destruct (in_bounds_cons_inv _ _ _ Hi) as (k & ix' & -> & Hk & Hi'). destruct (J ix' Hi') as (jx & J1 & J2 & J3).
    destruct (nth_error_lt_ex raw (Z.to_nat k) ltac:(lia)) as (x & Hx).
    destruct (R3 _ _ Hx) as (X1 & X2). rewrite Z2Nat.id in X1 by lia.
    exists (from_end n x :: jx). rewrite src_axis by auto. rewrite X1. cbn [bind]. rewrite J1. cbn [bind].
    split; [auto|]. replace k with (Z.of_nat (Z.to_nat k)) by lia.
    split; [constructor; auto|]. constructor; auto.
  - inversion Hs; subst. destruct IHvalid as (rs & R & V & S & J); auto.
    destruct (drop_lemma n raw) as (r & R1 & R2 & R3 & _); auto.
    assert (A : axis_slice r).
    { split; [rewrite (resolve_int (UDrop raw) n r R1)|rewrite (resolve_new (UDrop raw) n r R1)]; reflexivity. }
    exists (r :: rs). split; [constructor; [discriminate|exact R1|auto]|].
    rewrite shp_axis by auto. cbn [tl]. rewrite R2. split; [econstructor; eauto|].
    split; [constructor; [lia|auto]|]. intros ix Hi.
    destruct (in_bounds_cons_inv _ _ _ Hi) as (k & ix' & -> & Hk & Hi'). destruct (J ix' Hi') as (jx & J1 & J2 & J3).
    destruct (nth_error_lt_ex (survivors n (map (from_end n) raw)) (Z.to_nat k) ltac:(lia)) as (x & Hx).
    pose proof (R3 _ _ Hx) as X1. rewrite Z2Nat.id in X1 by lia.
    exists (x :: jx). rewrite src_axis by auto. rewrite X1. cbn [bind]. rewrite J1. cbn [bind].
    split; [auto|]. replace k with (Z.of_nat (Z.to_nat k)) by lia.
    split; [constructor; auto|]. constructor; auto.
    apply nth_error_In in Hx. apply in_survivors in Hx. tauto.
Qed.

Lemma view_ok e us rs : rr us (x_shape e) rs -> view e us = Ok (mk_xview e rs (shp rs (x_shape e))).
Proof.
  intros R. unfold view. rewrite (make_slices_ok _ _ _ R). cbn [bind].
  rewrite compute_shape_ok by (eapply rr_count; eauto). reflexivity.
Qed.

Lemma slice_int_or s y x : (s = SInt y \/ slice_at s x = Ok y) -> slice_at s x = Ok y.
Proof. intros [ -> |H]; auto. Qed.

Lemma tabulate_len {A} (f : nat -> res A) l n : length l = n -> (forall i a, nth_error l i = Some a -> f i = Ok a) ->
  tabulate f 0 n = Ok l.
Proof. intros <- H. apply tabulate_ok. auto. Qed.

Section Access.
Variables (e : xexp) (us : list user_slice) (rs : list slice) (ix jx : list Z).
Hypothesis R : rr us (x_shape e) rs.
Hypothesis Hix : length ix = length (shp rs (x_shape e)).
Hypothesis Hsrc : src rs ix = Ok jx.
Hypothesis Hjx : length jx = length (x_shape e).

Let v := mk_xview e rs (shp rs (x_shape e)).

Lemma element_access extra : no_int_after_newaxis us -> v_element v (extra ++ ix) = Ok (x_elem e jx).
Proof.
  intros N. unfold v_element, make_index, v. cbn [v_e v_slices v_shape].
  rewrite app_length, Hix. rewrite (Nat.min_r (length extra + _)) by lia.
  rewrite (tabulate_len _ jx); [reflexivity|auto|].
  intros i y Hy. cbv zeta.
  replace (length extra + length (shp rs (x_shape e)) - length (shp rs (x_shape e)))%nat with (length extra) by lia.
  set (k := newaxis_skip rs i). rewrite (element_counts _ _ _ R N i). fold k.
  destruct (src_nth rs ix jx i y Hsrc Hy) as (S1 & S2). fold k in S1, S2.
  pose proof (icb_le rs k).
  destruct (k <? length rs)%nat eqn:Ek.
  - apply Nat.ltb_lt in Ek. destruct (nth_error_lt_ex rs k Ek) as (s & Hs). destruct (S1 s Hs) as (_ & S3).
    rewrite (rd_ok _ _ _ Hs). cbn [bind].
    destruct (length extra + (k - integral_count_before rs k) <? length extra + length (shp rs (x_shape e)))%nat eqn:E.
    + apply Nat.ltb_lt in E.
      destruct (nth_error_lt_ex ix (k - integral_count_before rs k) ltac:(lia)) as (x & Hx).
      rewrite (rd_ok (extra ++ ix) _ x).
      2:{ rewrite nth_error_app2 by lia. rewrite <- Hx. f_equal. lia. }
      cbn [bind]. destruct S3 as [ -> |(x' & X1 & X2)]; [reflexivity|]. congruence.
    + apply Nat.ltb_ge in E. destruct S3 as [ -> |(x' & X1 & X2)]; [reflexivity|].
      assert (k - integral_count_before rs k < length ix)%nat by (apply nth_error_Some; congruence). lia.
  - apply Nat.ltb_ge in Ek. specialize (S2 Ek). rewrite <- (icb_all rs k Ek) in S2.
    assert (k - integral_count_before rs k < length ix)%nat by (apply nth_error_Some; congruence).
    replace (length extra + (k - integral_count_before rs k) <? length extra + length (shp rs (x_shape e)))%nat with true
      by (symmetry; apply Nat.ltb_lt; lia).
    rewrite (rd_ok (extra ++ ix) _ y); [reflexivity|]. rewrite nth_error_app2 by lia. rewrite <- S2. f_equal. lia.
Qed.

Lemma impl_access : one_newaxis us -> access_impl v ix = Ok (x_elem e jx).
Proof.
  intros N. unfold access_impl, v. cbn [v_e v_slices v_shape].
  rewrite (tabulate_len _ jx); [reflexivity| |].
  - unfold index_count. pose proof (src_len _ _ _ Hsrc). lia.
  - intros i y Hy. unfold view_index. cbv zeta. destruct (call_counts _ _ _ R N i) as (C1 & C2).
    rewrite C1. set (k := newaxis_skip rs i) in *.
    destruct (src_nth rs ix jx i y Hsrc Hy) as (S1 & S2). fold k in S1, S2.
    pose proof (icb_le rs k). pose proof (icb_le rs i).
    destruct (k <? length rs)%nat eqn:Ek.
    + apply Nat.ltb_lt in Ek. destruct (nth_error_lt_ex rs k Ek) as (s & Hs). destruct (S1 s Hs) as (_ & S3).
      rewrite (rd_ok _ _ _ Hs). cbn [bind].
      replace (i - integral_count_before rs i + newaxis_count_before rs (i + 1))%nat
        with (k - integral_count_before rs k)%nat by lia.
      destruct S3 as [ -> |(x & X1 & X2)]; [reflexivity|].
      unfold sliced_access. destruct s; try (cbn in X2; congruence);
        (destruct ix as [|i0 ix']; [destruct (k - integral_count_before rs k)%nat; discriminate|];
         unfold argument; rewrite (rd_ok _ _ _ X1); cbn [bind]; exact X2).
    + apply Nat.ltb_ge in Ek. specialize (S2 Ek). apply rd_ok. rewrite <- S2. f_equal.
      pose proof (nskip_past rs i Ek) as P. fold k in P. pose proof (ic_nc_len rs). lia.
Qed.

Lemma call_access extra : one_newaxis us -> v_call v (extra ++ ix) = Ok (x_elem e jx).
Proof.
  intros N. unfold v_call. induction extra as [|a extra IH].
  - cbn [app]. pose proof (impl_access N) as H. destruct ix as [|i0 ix'] eqn:E; [exact H|].
    cbn [access]. replace (length (v_shape v) <=? length ix')%nat with false; [exact H|].
    symmetry. apply Nat.leb_gt. unfold v. cbn [v_shape]. rewrite <- Hix. cbn. lia.
  - cbn [app access]. replace (length (v_shape v) <=? length (extra ++ ix))%nat with true; [exact IH|].
    symmetry. apply Nat.leb_le. rewrite app_length. unfold v. cbn [v_shape]. lia.
Qed.
End Access.

Lemma view_element_lemma : forall (e : xexp) (us : list user_slice),
  wf_exp e -> valid true us (x_shape e) ->
  exists v, view e us = Ok v /\ view_shape us (x_shape e) (v_shape v) /\ is_shape (v_shape v) /\
    forall ix, in_bounds (v_shape v) ix ->
      exists jx, source_index us (x_shape e) ix jx /\ in_bounds (x_shape e) jx /\
        (no_int_after_newaxis us -> forall extra, v_element v (extra ++ ix) = Ok (x_elem e jx)) /\
        (one_newaxis us -> v_unchecked v ix = Ok (x_elem e jx) /\
           forall extra, v_call v (extra ++ ix) = Ok (x_elem e jx)).
Proof.
  intros e us (Hs & _) Hv. destruct (resolved us (x_shape e) Hv Hs) as (rs & R & V & S & J).
  exists (mk_xview e rs (shp rs (x_shape e))). split; [apply (view_ok e us rs R)|]. cbn [v_shape].
  split; [exact V|]. split; [exact S|]. intros ix Hi. destruct (J ix Hi) as (jx & J1 & J2 & J3).
  exists jx. split; [exact J2|]. split; [exact J3|].
  pose proof (in_bounds_length _ _ Hi) as L1. pose proof (in_bounds_length _ _ J3) as L2.
  split; [intros N extra; eapply element_access; eauto|].
  intros N. split; [eapply impl_access; eauto|]. intros extra. eapply call_access; eauto.
Qed.
