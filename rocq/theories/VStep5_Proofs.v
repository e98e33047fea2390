(** Iteration over views that are not strided: the lemmas behind C60. *)
From Coq Require Import List ZArith Bool Lia.
From Verif Require Import Prelude PreludeFacts Strides_Model Strides_Spec Strides_Proofs Slice_Model Slice_Spec
  SView_Model View_Spec XView_Model XView_Proofs XView2_Proofs Stepper_Model Stepper_Spec Stepper_Proofs Stepper2_Proofs Stepper3_Proofs Stepper4_Proofs
  StepGen_Proofs VStep_Model VStep_Spec VStep_Proofs VStep2_Proofs VStep3_Proofs VStep4_Proofs.
Import ListNotations.
Open Scope Z_scope.

Lemma view_of_ok us esh rs : rr us esh rs -> view_of esh us = Ok (rs, shp rs esh).
Proof.
  intros R. unfold view_of. rewrite (view_ok (mk_xexp false esh [] 0 dynamic) us rs R). reflexivity.
Qed.

Lemma rr_keep us esh rs : rr us esh rs -> ~ In (UKeep []) us -> ~ In (SKeep []) rs.
Proof.
  induction 1 as [sh|us sh rs R IH|u n us sh s rs Hu Hr R IH]; intros Hn Hin; [exact Hin| |].
  - destruct Hin as [Hin|Hin]; [discriminate|]. apply IH; [|exact Hin]. intros H. apply Hn. right. exact H.
  - destruct Hin as [Hin|Hin].
    + subst s. apply Hn. left. destruct u; cbn in Hr; try discriminate; try congruence.
      * unfold range_get, get_stepped_range, mk_stepped, mk_range, bind, cdiv, crem in Hr. repeat match type of Hr with context [match ?c with _ => _ end] => destruct c; try discriminate end.
      * destruct raw; [reflexivity|discriminate].
    + apply IH; [|exact Hin]. intros H. apply Hn. right. exact H.
Qed.

Lemma ends_ok rs : ~ In (SKeep []) rs -> Forall sfirst rs /\ Forall slast rs.
Proof.
  intros Hk. split; apply Forall_forall; intros s Hs Hn; destruct s; try discriminate; try reflexivity.
  - assert (indices <> []) by (intros ->; auto). cbn [slice_at spos]. destruct (Nat.eqb_spec (length indices) 1) as [E|E].
    + apply rd_nth. lia.
    + assert (0 < length indices)%nat by (destruct indices; [congruence|cbn; lia]).
      destruct (Z.ltb_spec 0 (Z.of_nat (length indices))); [|lia]. apply rdz_nth'. lia.
  - cbn [slice_at spos]. destruct (Z.ltb_spec 0 (Z.max size 1)); [reflexivity|lia].
  - assert (indices <> []) by (intros ->; auto). cbn [slice_at spos slice_size]. destruct (Nat.eqb_spec (length indices) 1) as [E|E].
    + apply rd_nth. lia.
    + assert (0 < length indices)%nat by (destruct indices; [congruence|cbn; lia]).
      destruct (Z.ltb_spec (Z.of_nat (length indices) - 1) (Z.of_nat (length indices))); [|lia]. apply rdz_nth'. lia.
  - cbn [slice_at spos slice_size]. destruct (Z.ltb_spec (size - 1) (Z.max size 1)); [reflexivity|lia].
Qed.

Lemma patch_inc {S} (o : stepper_ops S) b sh l : forall k it, it_inc_k (patch o b) sh l k it = it_inc_k o sh l k it.
Proof.
  induction k as [|k IH]; intros it; [reflexivity|]. cbn [it_inc_k].
  change (it_inc (patch o b) sh l it) with (it_inc o sh l it). destruct (it_inc o sh l it); cbn [bind]; auto.
Qed.
Lemma patch_walk {S} (o : stepper_ops S) b sh l : forall k ix st, walk (patch o b) sh l k ix st = walk o sh l k ix st.
Proof.
  induction k as [|k IH]; intros ix st; [reflexivity|]. cbn [walk].
  change (row_increment (patch o b) sh ix st) with (row_increment o sh ix st).
  change (col_increment (patch o b) sh ix st) with (col_increment o sh ix st).
  destruct (match l with row_major => row_increment o sh ix st | _ => col_increment o sh ix st end) as [[ix' st']| |]; cbn [bind]; auto.
Qed.

Section Lemmas.
Context {V : Type} (l : layout) (e : sexp V) (esh : list Z) (us : list user_slice).
Hypothesis Hl : l = row_major \/ l = column_major.
Hypothesis Hs : is_shape esh.
Hypothesis Hok : operands_ok esh e.
Hypothesis Hv : View_Spec.valid true us esh.
Hypothesis Hk : ~ In (UKeep []) us.

(** Everything needed about the view. *)
Lemma view_facts : exists ss, let vsh := shp ss esh in
  view_of esh us = Ok (ss, vsh) /\ view_shape us esh vsh /\ is_shape vsh /\
  (length ss - newaxis_count ss <= length esh)%nat /\ Forall slast ss /\
  (exists st, view_stepper_begin e esh ss = Ok st /\ vat e esh ss (repeat 0 (length vsh)) st) /\
  (forall ix, in_bounds vsh ix -> exists jx, source_index us esh ix jx /\ in_bounds esh jx /\
     forall st, vat e esh ss ix st -> x_at esh e jx (vt_it st) /\ x_deref e (vt_it st) = x_value jx e).
Proof.
  destruct (resolved us esh Hv Hs) as (ss & R & VS & Sh & J). exists ss. cbv zeta.
  split; [apply view_of_ok; exact R|]. split; [exact VS|]. split; [exact Sh|].
  pose proof (rr_count _ _ _ R) as Hc. split; [exact Hc|].
  destruct (ends_ok ss (rr_keep _ _ _ R Hk)) as [F1 F2]. split; [exact F2|]. split; [apply start_ok; assumption|].
  intros ix Hb. destruct (J ix Hb) as (jx & J1 & J2 & J3). exists jx. split; [exact J2|]. split; [exact J3|].
  intros st (HL & Hat & _). rewrite (src_esrc ss esh ix jx Hb J1) in Hat. split; [exact Hat|]. eapply x_deref_ok; eauto.
Qed.

Lemma view_iteration_lemma :
  exists ss vsh, view_of esh us = Ok (ss, vsh) /\ view_shape us esh vsh /\
  forall junk, length junk = length ss ->
  exists b en,
    view_it_begin e esh ss vsh l = Ok b /\ view_it_end e esh ss vsh junk l = Ok en /\
    (forall k, Z.of_nat k < prod vsh ->
       exists it, it_inc_k (vs_ops (x_ops esh e) esh ss vsh 0) vsh l k b = Ok it /\ it_equal it en = false /\
         forall ix, in_bounds vsh ix -> order_pos l vsh ix = Z.of_nat k ->
           exists jx, source_index us esh ix jx /\ in_bounds esh jx /\ view_it_deref e it = x_value jx e) /\
    (exists it, it_inc_k (vs_ops (x_ops esh e) esh ss vsh 0) vsh l (Z.to_nat (prod vsh)) b = Ok it /\ it_equal it en = true).
Proof.
  destruct view_facts as (ss & E & VS & Sh & Hc & F2 & (st0 & E0 & A0) & J). set (vsh := shp ss esh) in *.
  exists ss, vsh. split; [exact E|]. split; [exact VS|]. intros junk HJ.
  destruct (x_end_ok l esh e Hl Hok) as (it & Ee & He).
  destruct (end_impl_ok e esh ss l Hok Hc Hl F2 it junk HJ He) as (st1 & E1 & A1).
  exists (st0, repeat 0 (length vsh), 0), (st1, endx l vsh, prod vsh).
  split; [unfold view_it_begin; rewrite E0; reflexivity|].
  split; [unfold view_it_end, view_stepper_end; rewrite Ee; cbn [bind]; rewrite E1; cbn [bind]; apply make_end; assumption|].
  assert (STEP : 0 < prod vsh -> forall k, Z.of_nat k <= prod vsh ->
     exists it, it_inc_k (vs_ops (x_ops esh e) esh ss vsh 0) vsh l k (st0, repeat 0 (length vsh), 0) = Ok it /\
       gvalid l vsh (vat e esh ss) (vend e esh ss l) (Z.of_nat k) it).
  { intros Hp k Hk'. pose proof (prod_nonneg_pos vsh Sh Hp) as Hpos. rewrite <- (patch_inc _ st0).
    destruct (g_inc_k (patch (vs_ops (x_ops esh e) esh ss vsh 0) st0) l vsh (vat e esh ss) (vend e esh ss l) Hl
      (view_laws0 e esh ss l Hok Hc Hl F2 st0 A0 Hpos) Hpos k 0 (st0, repeat 0 (length vsh), 0)) as (it' & Ei & Hi).
    - apply g_begin; auto.
    - lia.
    - exists it'. auto. }
  pose proof (prod_nonneg vsh Sh) as NN. split.
  - intros k Hk'. destruct (STEP ltac:(lia) k ltac:(lia)) as (it' & Ei & Hi). exists it'. split; [exact Ei|]. split.
    + destruct it' as [[st' ix'] lin]. destruct Hi as [-> _]. unfold it_equal. cbn. apply Z.eqb_neq. lia.
    + intros ix Hb Hp. destruct (J ix Hb) as (jx & J1 & J2 & J3). exists jx. split; [exact J1|]. split; [exact J2|].
      pose proof (prod_nonneg_pos vsh Sh ltac:(lia)) as Hpos.
      pose proof (g_at l vsh (vat e esh ss) (vend e esh ss l) Hl (Z.of_nat k) it' ix Hi Hb Hp) as HA.
      destruct it' as [[st' ix'] lin]. apply J3. exact HA.
  - destruct (Z.eq_dec (prod vsh) 0) as [E2|E2].
    + rewrite E2. eexists. split; [reflexivity|]. reflexivity.
    + destruct (STEP ltac:(lia) (Z.to_nat (prod vsh)) ltac:(lia)) as (it' & Ei & Hi). exists it'. split; [exact Ei|].
      destruct it' as [[st' ix'] lin]. destruct Hi as [-> _]. unfold it_equal. cbn. apply Z.eqb_eq. lia.
Qed.

Lemma view_walk_lemma :
  exists ss vsh, view_of esh us = Ok (ss, vsh) /\ view_shape us esh vsh /\
  forall ix, in_bounds vsh ix -> exists jx, source_index us esh ix jx /\ in_bounds esh jx /\
    view_walk e esh ss vsh vsh l (Z.to_nat (order_pos l vsh ix)) = x_value jx e /\
    exists st0 st, view_stepper_begin e esh ss = Ok st0 /\
      walk (vs_ops (x_ops esh e) esh ss vsh 0) vsh l (Z.to_nat (order_pos l vsh ix)) (map (fun _ => 0) vsh) st0 = Ok (ix, st) /\
      x_at esh e jx (vt_it st).
Proof.
  destruct view_facts as (ss & E & VS & Sh & Hc & F2 & (st0 & E0 & A0) & J). set (vsh := shp ss esh) in *.
  exists ss, vsh. split; [exact E|]. split; [exact VS|]. intros ix Hb. destruct (J ix Hb) as (jx & J1 & J2 & J3).
  exists jx. split; [exact J1|]. split; [exact J2|]. pose proof (in_bounds_shape_pos _ _ Hb) as Hpos.
  destruct (g_walk_at (patch (vs_ops (x_ops esh e) esh ss vsh 0) st0) l vsh (vat e esh ss) (vend e esh ss l) Hl
    (view_laws0 e esh ss l Hok Hc Hl F2 st0 A0 Hpos) Hpos st0 ix A0 Hb) as (st & Ew & HA).
  rewrite patch_walk in Ew. destruct (J3 st HA) as [K1 K2].
  assert (EZ : map (fun _ : Z => 0) vsh = repeat 0 (length vsh)).
  { clear. induction vsh as [|d t IH]; [reflexivity|]. cbn. rewrite IH. reflexivity. }
  rewrite <- EZ in Ew. split.
  - unfold view_walk. rewrite E0. cbn [bind]. rewrite Nat.sub_diag, Ew. cbn [bind]. exact K2.
  - exists st0, st. auto.
Qed.

Lemma view_moves_lemma :
  exists ss vsh, view_of esh us = Ok (ss, vsh) /\ view_shape us esh vsh /\
  (vsh <> [] -> Forall (fun d => 0 < d) vsh -> reversible l e -> reverse_ok l ss esh = true ->
   forall junk, length junk = length ss ->
   let ops := vs_ops (x_ops esh e) esh ss vsh 0 in
   exists b en,
    view_it_begin e esh ss vsh l = Ok b /\ view_it_end e esh ss vsh junk l = Ok en /\
    forall (from_end1 from_end2 : bool) (ms1 ms2 : list move),
    let start1 := if from_end1 then prod vsh else 0 in
    let start2 := if from_end2 then prod vsh else 0 in
    stays (prod vsh) start1 ms1 -> stays (prod vsh) start2 ms2 ->
    exists it1 it2,
      do_moves ops vsh l ms1 (if from_end1 then en else b) = Ok it1 /\
      do_moves ops vsh l ms2 (if from_end2 then en else b) = Ok it2 /\
      (forall ix, in_bounds vsh ix -> order_pos l vsh ix = final start1 ms1 ->
         exists jx, source_index us esh ix jx /\ in_bounds esh jx /\ view_it_deref e it1 = x_value jx e) /\
      it_diff it1 it2 = final start1 ms1 - final start2 ms2 /\
      it_equal it1 it2 = (final start1 ms1 =? final start2 ms2) /\
      it_less it1 it2 = (final start1 ms1 <? final start2 ms2)).
Proof.
  destruct view_facts as (ss & E & VS & Sh & Hc & F2 & (st0 & E0 & A0) & J). set (vsh := shp ss esh) in *.
  exists ss, vsh. split; [exact E|]. split; [exact VS|]. intros Hne Hpos Hrev HR junk HJ ops.
  destruct (x_end_ok l esh e Hl Hok) as (it & Ee & He).
  destruct (end_impl_ok e esh ss l Hok Hc Hl F2 it junk HJ He) as (st1 & E1 & A1).
  pose proof (view_laws e esh ss l Hok Hc Hl F2 Hne Hpos) as L. fold vsh in L. fold ops in L.
  exists (st0, repeat 0 (length vsh), 0), (st1, endx l vsh, prod vsh).
  split; [unfold view_it_begin; rewrite E0; reflexivity|].
  split; [unfold view_it_end, view_stepper_end; rewrite Ee; cbn [bind]; rewrite E1; cbn [bind]; apply make_end; assumption|].
  intros fe1 fe2 ms1 ms2 s1 s2 H1 H2.
  assert (Hp : 0 < prod vsh) by (apply prod_pos; assumption).
  assert (Hend : forall st, vsh <> [] -> vend e esh ss l st -> vat e esh ss (endx l vsh) st).
  { intros st _ (_ & _ & H). apply H; assumption. }
  assert (G : forall (fe : bool) ms, let s := if fe then prod vsh else 0 in stays (prod vsh) s ms ->
    exists it, do_moves ops vsh l ms (if fe then (st1, endx l vsh, prod vsh) else (st0, repeat 0 (length vsh), 0)) = Ok it /\
      gvalid l vsh (vat e esh ss) (vend e esh ss l) (final s ms) it /\ 0 <= final s ms <= prod vsh).
  { intros fe ms s H. eapply g_moves; eauto.
    - destruct fe; unfold s; [apply g_end; exact A1|apply g_begin; assumption].
    - destruct fe; unfold s; lia. }
  destruct (G fe1 ms1 H1) as (it1 & Ei1 & V1 & R1). destruct (G fe2 ms2 H2) as (it2 & Ei2 & V2 & R2).
  exists it1, it2. split; [exact Ei1|]. split; [exact Ei2|]. fold s1 in V1, R1. fold s2 in V2, R2. split.
  - intros ix Hb Hpx. destruct (J ix Hb) as (jx & J1 & J2 & J3). exists jx. split; [exact J1|]. split; [exact J2|].
    pose proof (g_at l vsh (vat e esh ss) (vend e esh ss l) Hl _ it1 ix V1 Hb Hpx) as HA.
    destruct it1 as [[st' ix'] lin]. apply J3. exact HA.
  - destruct it1 as [[? ?] k1], it2 as [[? ?] k2]. destruct V1 as [-> _], V2 as [-> _].
    unfold it_diff, it_equal, it_less. cbn [snd]. auto.
Qed.
End Lemmas.

Lemma view_target_lemma {V} (l : layout) (c : container) (buf : list V) (us : list user_slice) :
  l = row_major \/ l = column_major -> is_shape (k_shape c) -> strided_ok c ->
  View_Spec.valid true us (k_shape c) -> ~ In (UKeep []) us ->
  let e := XStrided c buf in let esh := k_shape c in
  exists ss vsh, view_of esh us = Ok (ss, vsh) /\ view_shape us esh vsh /\
  exists st0, view_stepper_begin e esh ss = Ok st0 /\
  forall ix, in_bounds vsh ix -> exists jx st, source_index us esh ix jx /\ in_bounds esh jx /\
    walk (vs_ops (x_ops esh e) esh ss vsh 0) vsh l (Z.to_nat (order_pos l vsh ix)) (map (fun _ => 0) vsh) st0 = Ok (ix, st) /\
    vt_it st = TPtr (k_begin c + dot jx (k_strides c)).
Proof.
  intros Hl Hs Hst Hv Hk e esh.
  assert (Hok : operands_ok esh e) by (split; [apply fits_self|exact Hst]).
  destruct (view_facts e esh us Hs Hok Hv Hk) as (ss & E & _ & _ & _ & _ & (st0 & E0 & _) & _).
  destruct (view_walk_lemma l e esh us Hl Hs Hok Hv Hk) as (ss' & vsh & E' & VS & W).
  exists ss', vsh. split; [exact E'|]. split; [exact VS|].
  assert (ss' = ss) by congruence. subst ss'. exists st0. split; [exact E0|].
  intros ix Hb. destruct (W ix Hb) as (jx & J1 & J2 & _ & st0' & st & E0' & Ew & Ha).
  assert (st0' = st0) by congruence. subst st0'. exists jx, st. split; [exact J1|]. split; [exact J2|]. split; [exact Ew|].
  destruct (vt_it st) as [|p| |]; try contradiction. destruct Ha as [_ Hp]. rewrite Hp. do 2 f_equal.
  unfold k_offset, esh. rewrite Nat.sub_diag. reflexivity.
Qed.

(** ** Fixtures *)
Definition row6 : sexp Z := XStrided (mk_container [6] [1] [5] 0) [0;1;2;3;4;5].
Definition grid43 : sexp Z := XStrided (mk_container [4;3] [3;1] [9;2] 0) [0;1;2;10;11;12;20;21;22;30;31;32].
(** -e: an expression without a buffer. *)
Definition neg (e : sexp Z) : sexp Z := XFun (fun vs => - hd 0 vs) [e].

Lemma row6_ok : operands_ok [6] row6 /\ storage_ok row6 /\ strided_ok (mk_container [6] [1] [5] 0).
Proof.
  assert (strided_ok (mk_container [6] [1] [5] 0)).
  { split; [reflexivity|]. split; [reflexivity|]. intros [|j] H; cbn in *; [split; [discriminate|reflexivity]|lia]. }
  split; [split; [apply fits_self|assumption]|]. split; [|assumption].
  intros ix Hb. inversion Hb as [|? ? ? ? H1 H2]; subst. inversion H2; subst. cbn -[Z.mul Z.add]. lia.
Qed.
Lemma grid43_ok : operands_ok [4;3] grid43 /\ storage_ok grid43 /\ strided_ok (mk_container [4;3] [3;1] [9;2] 0).
Proof.
  assert (strided_ok (mk_container [4;3] [3;1] [9;2] 0)).
  { split; [reflexivity|]. split; [reflexivity|]. intros [|[|j]] H; cbn in *; [split; [discriminate|reflexivity]|split; [discriminate|reflexivity]|lia]. }
  split; [split; [apply fits_self|assumption]|]. split; [|assumption].
  intros ix Hb. inversion Hb as [|? ? ? ? H1 H2]; subst. inversion H2 as [|? ? ? ? H3 H4]; subst. inversion H4; subst. cbn -[Z.mul Z.add]. lia.
Qed.
Lemma neg_ok sh e : operands_ok sh e -> operands_ok sh (neg e).
Proof. intros H. cbn. auto. Qed.

