(** Lazy reduction: the theorems. *)
From Coq Require Import List ZArith Lia Bool Sorted.
From Verif Require Import Prelude PreludeFacts Strides_Model Strides_Spec Strides_Proofs Access_Model Broadcast_Spec Broadcast_Proofs Stepper_Model Stepper_Spec Stepper_Proofs
  Stepper2_Proofs Stepper3_Proofs Stepper4_Proofs Reduce_Model Reduce_Spec Reduce_Proofs Reduce2_Proofs Reduce3_Proofs Reduce4_Proofs Reduce5_Proofs.
Import ListNotations.
Open Scope Z_scope.

Lemma kept_pos_bound axes : forall len k n, (n < nkept axes k len)%nat -> (kept_pos axes k len n < len)%nat.
Proof.
  induction len; intros k n H; cbn in *; [lia|]. destruct (in_dec Z.eq_dec k axes).
  - apply IHlen in H. lia.
  - destruct n; [lia|]. assert (n < nkept axes (k + 1) len)%nat by lia. apply IHlen in H0. lia.
Qed.

Lemma shape_cases s : is_shape s -> Forall (fun d => 0 < d) s \/ prod s = 0.
Proof.
  induction 1 as [|d s Hd _ IH]; [left; constructor|]. rewrite prod_cons. destruct IH as [IH|IH]; [|right; rewrite IH; lia].
  destruct (Z.eq_dec d 0) as [->|]; [right; lia|left]. constructor; [lia|assumption].
Qed.

Lemma replaced_nth_in axes v : forall l k j, (j < length l)%nat -> In (k + Z.of_nat j) axes -> nth j (replaced axes v k l) 0 = v.
Proof.
  induction l as [|x l IH]; intros k j Hj Hin; cbn in Hj; [lia|]. destruct j; cbn [replaced nth].
  - replace (k + Z.of_nat 0) with k in Hin by lia. destruct (in_dec Z.eq_dec k axes); [reflexivity|contradiction].
  - apply IH; [lia|]. replace (k + 1 + Z.of_nat j) with (k + Z.of_nat (S j)) by lia. assumption.
Qed.

Section Lazy.
Context {T R : Type} (f : rfun T R) (dflt : R) (esh : list Z) (e : sexp T) (ev : list Z -> T)
  (axes : list Z) (keep : bool) (initial : option R).
Hypothesis Hshape : is_shape esh.
Hypothesis Hval : valid_axes (length esh) axes.
Hypothesis Hel : has_elements esh e ev.
Hypothesis Hlaw : law_if_needed f axes initial.

Notation red := (Reduce4_Proofs.red esh axes keep initial).
Notation rsh := (red_shape keep axes esh).
Notation value := (reduced f initial row_major keep axes esh ev).

Lemma mapping_rd n : (n < length rsh)%nat -> exists d, rd (r_mapping red) n = Ok d /\ (d < length esh)%nat.
Proof.
  intros Hn. unfold Reduce4_Proofs.red, red_shape in *. cbn [r_mapping]. destruct keep.
  - rewrite replaced_length in Hn. exists n. split; [|assumption]. apply rd_ok.
    rewrite nth_error_nth' with (d := 0%nat) by (rewrite seq_length; assumption). rewrite seq_nth by assumption. reflexivity.
  - rewrite without_length in Hn. eexists. split; [apply rd_ok, kepts_nth; assumption|]. apply kept_pos_bound. assumption.
Qed.

Definition E_at (sh ix : list Z) (st : sstate) : Prop := length ix = length sh /\ x_shaped e st.

Lemma empty_laws l sh : l = row_major \/ l = column_major -> fits rsh sh ->
  laws (rs_ops (x_ops esh e) red (length sh - length rsh)) l sh (E_at sh) (x_shaped e).
Proof.
  intros Hl [HLe _]. destruct Hel as [Hok _].
  assert (LEN : forall (pre : list Z) x y post, length (pre ++ x :: post) = length sh -> length (pre ++ y :: post) = length sh)
    by (intros; rewrite app_length in *; auto).
  assert (DIM : forall (pre : list Z) x post, length (pre ++ x :: post) = length sh -> (length sh - length rsh <= length pre)%nat ->
     exists d, rd (r_mapping red) (length pre - (length sh - length rsh)) = Ok d /\ (d < length esh)%nat).
  { intros pre x post H Ho. apply mapping_rd. rewrite app_length in H. cbn in H. lia. }
  constructor.
  - intros pre x post n d st _ _ _ _ [HL Hs]. unfold rs_ops, s_step, rs_step.
    destruct (Nat.leb_spec (length sh - length rsh) (length pre)) as [Ho|Ho].
    + destruct (DIM _ _ _ HL Ho) as (d' & E & Hd'). unfold get_dim. rewrite E. cbn [bind].
      destruct (keeps_step esh d' n Hd' e Hok st Hs) as (st' & E' & Hs'). exists st'. split; [exact E'|]. split; [eapply LEN; eassumption|assumption].
    + exists st. split; [reflexivity|]. split; [eapply LEN; eassumption|assumption].
  - intros pre x post n st _ _ [HL Hs]. unfold rs_ops, s_step_back, rs_step_back.
    destruct (Nat.leb_spec (length sh - length rsh) (length pre)) as [Ho|Ho].
    + destruct (DIM _ _ _ HL Ho) as (d' & E & Hd'). unfold get_dim. rewrite E. cbn [bind].
      destruct (keeps_step_back esh d' n Hd' e Hok st Hs) as (st' & E' & Hs'). exists st'. split; [exact E'|]. split; [eapply LEN; eassumption|assumption].
    + exists st. split; [reflexivity|]. split; [eapply LEN; eassumption|assumption].
  - intros pre x post d st _ _ _ [HL Hs]. unfold rs_ops, s_reset, rs_reset.
    destruct (Nat.leb_spec (length sh - length rsh) (length pre)) as [Ho|Ho].
    + destruct (r_keep red && mem_axis _ _); [exists st; split; [reflexivity|split; [eapply LEN; eassumption|assumption]]|].
      destruct (DIM _ _ _ HL Ho) as (d' & E & Hd'). unfold get_dim. rewrite E. cbn [bind].
      destruct (keeps_reset esh d' Hd' e Hok st Hs) as (st' & E' & Hs'). exists st'. split; [exact E'|]. split; [eapply LEN; eassumption|assumption].
    + exists st. split; [reflexivity|]. split; [eapply LEN; eassumption|assumption].
  - intros pre post d st _ _ [HL Hs]. unfold rs_ops, s_reset_back, rs_reset_back.
    destruct (Nat.leb_spec (length sh - length rsh) (length pre)) as [Ho|Ho].
    + destruct (r_keep red && mem_axis _ _); [exists st; split; [reflexivity|split; [eapply LEN; eassumption|assumption]]|].
      destruct (DIM _ _ _ HL Ho) as (d' & E & Hd'). unfold get_dim. rewrite E. cbn [bind].
      destruct (keeps_reset_back esh d' Hd' e Hok st Hs) as (st' & E' & Hs'). exists st'. split; [exact E'|]. split; [eapply LEN; eassumption|assumption].
    + exists st. split; [reflexivity|]. split; [eapply LEN; eassumption|assumption].
  - intros st H. assert (Hs : x_shaped e st) by (destruct H as [(ix & _ & H)|H]; assumption).
    destruct (keeps_begin esh e Hok st Hs) as (st' & E & Hs'). exists st'. split; [exact E|]. split; [apply repeat_length|assumption].
  - intros st (ix & _ & Hs). destruct (keeps_end esh l Hl e Hok st Hs) as (st' & E & Hs'). eauto.
Qed.

Lemma empty_value ix : prod esh = 0 -> value ix = initial_value f red.
Proof.
  intros E. unfold reduced, block. cbn [indices_of]. rewrite row_indices_empty by assumption. reflexivity.
Qed.

Lemma empty_deref st : prod esh = 0 -> rs_deref f dflt esh (x_ops esh e) (x_deref e) red st = Ok (initial_value f red, st).
Proof. intros E. unfold rs_deref. rewrite compute_size_prod, E. reflexivity. Qed.

Lemma iteration_ok l sh : l = row_major \/ l = column_major -> is_shape sh -> iterable keep axes esh sh ->
  rs_read_all f dflt esh (x_ops esh e) (x_deref e) red (length sh - length rsh) sh l (Z.to_nat (prod sh)) (repeat 0 (length sh)) (x_begin e) =
  Ok (map (fun ix => value (bc_index rsh ix)) (indices_of l sh)).
Proof.
  intros Hl Hs Hit. destruct (shape_cases sh Hs) as [Hp|Hp].
  2:{ rewrite Hp. cbn [Z.to_nat rs_read_all]. pose proof (indices_of_length l sh Hl Hs) as HL.
      destruct (indices_of l sh); [reflexivity|]. cbn in HL. lia. }
  destruct (shape_cases esh Hshape) as [He|He].
  - eapply read_all_begin with (1 := Hl) (2 := Hp).
    + eapply (red_laws esh e ev axes keep initial Hel l sh Hl He Hp Hit).
    + intros ix st Hb Ha. eapply rs_deref_ok; eassumption.
    + split; [apply zeros_in_bounds; assumption|].
      assert (Hsk : skipn (length sh - length rsh) (repeat 0 (length sh)) = repeat 0 (length sh - (length sh - length rsh))).
      { generalize (length sh - length rsh)%nat. intros o. generalize (length sh). clear. induction o; intros [|m]; cbn; auto. }
      rewrite Hsk, (HFz_ok esh axes keep sh Hit).
      apply x_begin_at. apply (operands_ok_fits esh); [apply wider_fits, (fsh_wider esh axes keep sh Hit)|apply Hel].
  - destruct Hit as [Hf _]. eapply read_all_begin with (1 := Hl) (2 := Hp).
    + apply empty_laws; assumption.
    + intros ix st _ Ha. exists st. split; [|assumption]. rewrite empty_deref, empty_value by assumption. reflexivity.
    + split; [apply repeat_length|]. apply x_begin_shaped.
Qed.

Lemma self_iterable : iterable keep axes esh rsh.
Proof.
  split; [apply fits_self|]. intros -> a Ha. cbn [red_shape]. rewrite Nat.sub_diag, Nat.add_0_r.
  destruct Hval as [_ HF]. rewrite Forall_forall in HF. specialize (HF a Ha). apply replaced_nth_in; [lia|].
  replace (0 + Z.of_nat (Z.to_nat a)) with a by lia. assumption.
Qed.

Lemma step_all_ok at_ end_ : laws (rs_ops (x_ops esh e) red 0) row_major rsh at_ end_ -> forall ix pre st,
  in_bounds rsh (pre ++ ix) -> at_ (pre ++ repeat 0 (length ix)) st ->
  exists st', step_all (x_ops esh e) red (length pre) ix st = Ok st' /\ at_ (pre ++ ix) st'.
Proof.
  intros L. induction ix as [|i ix IH]; intros pre st Hb Ha; cbn [step_all length repeat] in *; [eauto|].
  assert (Hb2 : in_bounds rsh ((pre ++ [i]) ++ ix)) by (rewrite <- app_assoc; assumption).
  assert (Hd : exists d, nth_error rsh (length pre) = Some d /\ 0 <= i < d).
  { apply Forall2_app_inv_r in Hb. destruct Hb as (s1 & s2 & H1 & H2 & ->). inversion H2 as [|d ? s3 ? Hi Hx]; subst. exists d.
    rewrite <- (Forall2_len _ _ _ H1), nth_error_app2, Nat.sub_diag by lia. auto. }
  destruct Hd as (d & Hd & Hi).
  destruct (l_step _ _ _ _ _ L pre 0 (repeat 0 (length ix)) i d st) as (st1 & E1 & Ha1); auto; try lia.
  { apply Forall2_app_inv_r in Hb. destruct Hb as (s1 & s2 & H1 & H2 & ->). inversion H2 as [|d2 ? s3 ? Hi2 Hx]; subst.
    apply Forall2_app; [assumption|]. constructor; [lia|]. clear -Hx. induction Hx; cbn; constructor; auto. lia. }
  rewrite Z.add_0_l in *. cbn [rs_ops s_step] in E1. rewrite E1. cbn [bind].
  destruct (IH (pre ++ [i]) st1 Hb2) as (st2 & E2 & Ha2); [rewrite <- app_assoc; assumption|].
  rewrite app_length in E2. cbn [length] in E2. replace (length pre + 1)%nat with (S (length pre)) in E2 by lia.
  exists st2. rewrite <- app_assoc in Ha2. auto.
Qed.

Lemma element_full at_ end_ ix : laws (rs_ops (x_ops esh e) red 0) row_major rsh at_ end_ -> at_ (repeat 0 (length rsh)) (x_begin e) ->
  (forall ix st, in_bounds rsh ix -> at_ ix st -> exists st', rs_deref f dflt esh (x_ops esh e) (x_deref e) red st = Ok (value ix, st')) ->
  in_bounds rsh ix ->
  (let* st := step_all (x_ops esh e) red 0 ix (x_begin e) in
   let* '(v, _) := rs_deref f dflt esh (x_ops esh e) (x_deref e) red st in Ok v) = Ok (value ix) /\
  (ix = repeat 0 (length rsh) -> (let* '(v, _) := rs_deref f dflt esh (x_ops esh e) (x_deref e) red (x_begin e) in Ok v) = Ok (value ix)).
Proof.
  intros L H0 HD Hb. split.
  - destruct (step_all_ok at_ end_ L ix [] (x_begin e)) as (st & E & Ha).
    + exact Hb.
    + cbn [app]. rewrite (in_bounds_length _ _ Hb). assumption.
    + cbn [length] in E. rewrite E. cbn [bind]. destruct (HD ix st Hb Ha) as (st' & E'). rewrite E'. reflexivity.
  - intros ->. destruct (HD _ _ Hb H0) as (st' & E'). rewrite E'. reflexivity.
Qed.

Lemma element_begin ix : in_bounds rsh ix ->
  (let* st := step_all (x_ops esh e) red 0 ix (x_begin e) in
   let* '(v, _) := rs_deref f dflt esh (x_ops esh e) (x_deref e) red st in Ok v) = Ok (value ix) /\
  (ix = repeat 0 (length rsh) -> (let* '(v, _) := rs_deref f dflt esh (x_ops esh e) (x_deref e) red (x_begin e) in Ok v) = Ok (value ix)).
Proof.
  intros Hb. pose proof self_iterable as Hit. pose proof (in_bounds_shape_pos _ _ Hb) as Hp.
  destruct (shape_cases esh Hshape) as [He|He].
  - pose proof (red_laws esh e ev axes keep initial Hel row_major rsh (or_introl eq_refl) He Hp Hit) as L.
    rewrite Nat.sub_diag in L. eapply element_full; [exact L| | |exact Hb].
    + split; [apply zeros_in_bounds; assumption|]. cbn [skipn].
      pose proof (HFz_ok esh axes keep rsh Hit) as Hz. rewrite Nat.sub_diag, Nat.sub_0_r in Hz. rewrite Hz.
      apply x_begin_at. apply (operands_ok_fits esh); [|apply Hel].
      pose proof (fsh_wider esh axes keep rsh Hit) as Hw. rewrite Nat.sub_diag in Hw. apply wider_fits. exact Hw.
    + intros jx st Hjb Ha.
      pose proof (rs_deref_ok f dflt esh e ev axes keep initial Hval Hel Hlaw row_major rsh (or_introl eq_refl) He Hp Hit jx st Hjb) as HR.
      rewrite Nat.sub_diag in HR. destruct (HR Ha) as (st' & E & _). exists st'. rewrite E. do 3 f_equal.
      unfold bc_index. rewrite (in_bounds_length _ _ Hjb), Nat.sub_diag. cbn [skipn].
      clear -Hjb. induction Hjb; cbn; [reflexivity|]. rewrite IHHjb. f_equal. destruct (Z.eqb_spec x 1); lia.
  - destruct Hit as [Hf _]. pose proof (empty_laws row_major rsh (or_introl eq_refl) Hf) as L. rewrite Nat.sub_diag in L.
    eapply element_full; [exact L| | |exact Hb].
    + split; [apply repeat_length|]. apply x_begin_shaped.
    + intros jx st _ _. exists st. rewrite empty_deref, empty_value by assumption. reflexivity.
Qed.

(** Element access: excess indices on the left are dropped, missing ones are 0. *)
Lemma element_ok extra ix : in_bounds rsh ix ->
  rs_element f dflt esh (x_ops esh e) (x_deref e) red (x_begin e) (extra ++ ix) = Ok (value ix).
Proof.
  intros Hb. pose proof (in_bounds_length _ _ Hb) as HL. unfold rs_element. change (r_shape red) with rsh.
  assert (Hfull : (match extra ++ ix with [] => [] | _ => repeat 0 (length rsh - length (extra ++ ix)) ++ skipn (length (extra ++ ix) - length rsh) (extra ++ ix) end) = ix).
  { rewrite app_length, <- HL. replace (length ix - (length extra + length ix))%nat with 0%nat by lia.
    replace (length extra + length ix - length ix)%nat with (length extra) by lia.
    rewrite skipn_app, skipn_all, Nat.sub_diag. cbn [app repeat skipn]. destruct (extra ++ ix) eqn:E; [|reflexivity].
    apply app_eq_nil in E. destruct E as [_ ->]. reflexivity. }
  rewrite Hfull. apply element_begin. assumption.
Qed.

Lemma element_short n ix : in_bounds rsh (repeat 0 n ++ ix) ->
  rs_element f dflt esh (x_ops esh e) (x_deref e) red (x_begin e) ix = Ok (value (repeat 0 n ++ ix)).
Proof.
  intros Hb. pose proof (in_bounds_length _ _ Hb) as HL. rewrite app_length, repeat_length in HL.
  unfold rs_element. change (r_shape red) with rsh. destruct ix as [|i ix].
  - cbn [step_all bind]. rewrite app_nil_r in *. cbn [length] in HL. replace n with (length rsh) in * by lia.
    apply (element_begin _ Hb). reflexivity.
  - replace (length rsh - length (i :: ix))%nat with n by lia. replace (length (i :: ix) - length rsh)%nat with 0%nat by lia.
    cbn [skipn]. apply (element_begin _ Hb).
Qed.
End Lazy.
