(** xview_stepper obeys the laws of steppers. *)
From Coq Require Import List ZArith Bool Lia.
From Verif Require Import Prelude PreludeFacts Strides_Model Strides_Spec Strides_Proofs Slice_Model Slice_Spec
  SView_Model XView_Model XView_Proofs Stepper_Model Stepper_Spec Stepper_Proofs Stepper2_Proofs Stepper3_Proofs Stepper4_Proofs
  StepGen_Proofs VStep_Model VStep_Spec VStep_Proofs.
Import ListNotations.
Open Scope Z_scope.

Lemma iskip_ge ss k : (k <= integral_skip ss k)%nat.
Proof. rewrite iskip_eq. lia. Qed.

Lemma iskip_inj ss : forall i j, integral_skip ss i = integral_skip ss j -> i = j.
Proof.
  induction ss as [|s t IH]; intros i j H; [exact H|]. cbn in H. destruct (is_integral s).
  - apply IH. congruence.
  - destruct i, j; try discriminate; [reflexivity|]. f_equal. apply IH. congruence.
Qed.

Lemma iskip_not_int ss : forall k s, nth_error ss (integral_skip ss k) = Some s -> is_integral s = false.
Proof.
  induction ss as [|s t IH]; intros k s' H; [destruct (integral_skip [] k); discriminate|].
  cbn in H. destruct (is_integral s) eqn:E; [cbn in H; eauto|]. destruct k; cbn in H; [congruence|eauto].
Qed.

Lemma sens_axis s : sensitive s = true -> is_newaxis s = false.
Proof. destruct s; cbn; congruence. Qed.
Lemma step_insens s x y n : (sensitive s = true -> x = y) -> slice_step s x n = slice_step s y n.
Proof.
  intros H. destruct s; try reflexivity; cbn in H.
  - cbn. destruct (Z.of_nat (length indices) =? 1); [reflexivity|]. rewrite (H eq_refl). reflexivity.
  - rewrite (H eq_refl). reflexivity.
Qed.

Section VS.
Context {V : Type} (e : sexp V) (esh : list Z) (ss : list slice).
Hypothesis Hok : operands_ok esh e.
Hypothesis Hcount : (length ss - newaxis_count ss <= length esh)%nat.
Notation vsh := (shp ss esh).
Notation ops := (vs_ops (x_ops esh e) esh ss vsh 0).

Definition vat (ix : list Z) (st : vst sstate) : Prop :=
  length ix = length vsh /\ x_at esh e (esrc ss ix) (vt_it st) /\ length (vt_keep st) = length ss /\
  forall k s, (k < length vsh)%nat -> nth_error ss (integral_skip ss k) = Some s -> sensitive s = true ->
    nth k (vt_keep st) 0 = nth k ix 0.

Lemma esrc_full (ix : list Z) : length ix = length vsh -> length (esrc ss ix) = length esh.
Proof.
  intros H. rewrite shp_len in H by exact Hcount. pose proof (ic_nc_len ss).
  pose proof (esrc_len ss ix ltac:(lia)). lia.
Qed.

Lemma axis_in (ix : list Z) k : length ix = length vsh -> (k < length vsh)%nat ->
  (forall s, nth_error ss (integral_skip ss k) = Some s -> is_newaxis s = false) ->
  (axis_of ss k < length esh)%nat.
Proof.
  intros HL Hk Hn. rewrite <- (esrc_full ix HL).
  pose proof (esrc_upd ss ix k 0 ltac:(lia)) as H. apply nth_error_Some.
  destruct (nth_error ss (integral_skip ss k)) as [s|] eqn:E.
  - rewrite (Hn s eq_refl) in H. destruct H as [_ H]. congruence.
  - destruct H as [_ H]. congruence.
Qed.

Lemma vsh_size k s : (k < length vsh)%nat -> nth_error ss (integral_skip ss k) = Some s -> nth k vsh 0 = slice_size s.
Proof.
  intros Hk Hs. destruct (nth_error vsh k) as [n|] eqn:E; [|apply nth_error_None in E; lia].
  destruct (shp_nth ss esh k n Hcount E) as [H _]. rewrite (nth_error_nth _ _ 0 E). apply H. exact Hs.
Qed.

(** Moving the stepper of the expression along the axis of view axis k. *)
Lemma sub_step ix k d st : length ix = length vsh -> (axis_of ss k < length esh)%nat ->
  x_at esh e (esrc ss ix) st ->
  exists st', s_step (x_ops esh e) (axis_of ss k) d st = Ok st' /\
    x_at esh e (upd (esrc ss ix) (axis_of ss k) (nth (axis_of ss k) (esrc ss ix) 0 + d)) st'.
Proof.
  intros HL Ha Hat. pose proof (esrc_full ix HL) as HE. revert Hat HE. generalize (esrc ss ix). intros jx Hat HE.
  destruct (split_at jx (axis_of ss k)) as (pre & x & post & Ej & Ek); [lia|].
  rewrite Ej in *. rewrite Ek in *. rewrite nth_mid, upd_mid. apply free_step; assumption.
Qed.
Lemma sub_back ix k d st : length ix = length vsh -> (axis_of ss k < length esh)%nat ->
  x_at esh e (esrc ss ix) st ->
  exists st', s_step_back (x_ops esh e) (axis_of ss k) d st = Ok st' /\
    x_at esh e (upd (esrc ss ix) (axis_of ss k) (nth (axis_of ss k) (esrc ss ix) 0 - d)) st'.
Proof.
  intros HL Ha Hat. pose proof (esrc_full ix HL) as HE. revert Hat HE. generalize (esrc ss ix). intros jx Hat HE.
  destruct (split_at jx (axis_of ss k)) as (pre & x & post & Ej & Ek); [lia|].
  rewrite Ej in *. rewrite Ek in *. rewrite nth_mid, upd_mid. apply free_back; assumption.
Qed.

Lemma keep_upd ix (st : vst sstate) k v w : (k < length ss)%nat -> (k < length vsh)%nat -> length ix = length vsh ->
  length (vt_keep st) = length ss ->
  (forall k s, (k < length vsh)%nat -> nth_error ss (integral_skip ss k) = Some s -> sensitive s = true ->
    nth k (vt_keep st) 0 = nth k ix 0) ->
  (forall s, nth_error ss (integral_skip ss k) = Some s -> sensitive s = true -> v = w) ->
  forall k' s, (k' < length vsh)%nat -> nth_error ss (integral_skip ss k') = Some s -> sensitive s = true ->
    nth k' (upd (vt_keep st) k v) 0 = nth k' (upd ix k w) 0.
Proof.
  intros Hk Hkv HL HK H Hv k' s Hk' Hs Hn. destruct (Nat.eq_dec k' k) as [->|Hne].
  - rewrite !nth_upd_same by lia. eauto.
  - rewrite !nth_upd_other by auto. eauto.
Qed.

Lemma keep_other ix (st : vst sstate) k v : nth_error ss (integral_skip ss k) = None \/ (exists s, nth_error ss (integral_skip ss k) = Some s /\ is_newaxis s = true) ->
  (forall k s, (k < length vsh)%nat -> nth_error ss (integral_skip ss k) = Some s -> sensitive s = true ->
    nth k (vt_keep st) 0 = nth k ix 0) ->
  forall k' s, (k' < length vsh)%nat -> nth_error ss (integral_skip ss k') = Some s -> sensitive s = true ->
    nth k' (vt_keep st) 0 = nth k' (upd ix k v) 0.
Proof.
  intros Hk H k' s Hk' Hs Hn. assert (Hne : k' <> k).
  { intros ->. destruct Hk as [Hk|(s' & Hk & Hk2)]; [congruence|]. apply sens_axis in Hn. congruence. }
  rewrite nth_upd_other by auto. eauto.
Qed.

Lemma skip_in k s : nth_error ss (integral_skip ss k) = Some s -> (integral_skip ss k < length ss)%nat /\ (k < length ss)%nat.
Proof.
  intros H. assert ((integral_skip ss k < length ss)%nat) by (apply nth_error_Some; congruence).
  pose proof (iskip_ge ss k). lia.
Qed.

Lemma vstep_ok ix k n st : (k < length vsh)%nat -> vat ix st ->
  0 <= nth k ix 0 < nth k vsh 0 -> 0 <= n -> nth k ix 0 + n <= nth k vsh 0 ->
  exists st', s_step ops k n st = Ok st' /\ vat (upd ix k (nth k ix 0 + n)) st'.
Proof.
  intros Hk (HL & Hat & HK & HKV) Hx Hn Hle. cbn [vs_ops s_step]. unfold vs_step. cbn [Nat.leb].
  rewrite nas_ok. pose proof (esrc_upd ss ix k (nth k ix 0 + n) ltac:(lia)) as HU. fold (axis_of ss k).
  destruct (nth_error ss (integral_skip ss k)) as [s|] eqn:Es.
  - destruct (is_newaxis s) eqn:En.
    + exists st. split; [reflexivity|]. split; [rewrite upd_length; exact HL|]. split; [rewrite HU; exact Hat|].
      split; [exact HK|]. eapply keep_other; eauto.
    + destruct HU as [HU1 HU2]. destruct (skip_in _ _ Es) as [Hi Hks].
      apply Nat.ltb_lt in Hi. rewrite Hi. rewrite (rd_ok _ _ _ Es). cbn [bind].
      rewrite (rd_nth 0) by lia. cbn [bind]. rewrite (step_insens s _ (nth k ix 0) n (HKV _ _ Hk Es)).
      rewrite (vsh_size _ _ Hk Es) in *.
      assert (A : axis_slice s) by (split; [eapply iskip_not_int; eauto|exact En]).
      rewrite (step_spos s) by auto. cbn [bind]. rewrite wr_ok by lia. cbn [bind].
      destruct (sub_step ix k (spos s (nth k ix 0 + n) - spos s (nth k ix 0)) (vt_it st) HL) as (it & Eit & Hit); auto.
      { apply (axis_in ix); auto. intros s' E'. congruence. }
      rewrite Eit. cbn [bind]. eexists. split; [reflexivity|]. split; [rewrite upd_length; exact HL|].
      cbn [vt_it vt_keep]. split; [|split].
      * rewrite HU1. rewrite (nth_error_nth _ _ 0 HU2) in Hit.
        replace (spos s (nth k ix 0) + (spos s (nth k ix 0 + n) - spos s (nth k ix 0))) with (spos s (nth k ix 0 + n)) in Hit by ring.
        exact Hit.
      * rewrite upd_length. exact HK.
      * eapply keep_upd; eauto; intros s' Hs1 Hs2; rewrite ?(HKV _ _ Hk Hs1 Hs2); reflexivity.
  - destruct HU as [HU1 HU2]. pose proof Es as Hi. apply nth_error_None in Hi. apply Nat.ltb_ge in Hi. rewrite Hi.
    destruct (sub_step ix k n (vt_it st) HL) as (it & Eit & Hit); auto.
    { apply (axis_in ix); auto. intros s' E'. congruence. }
    rewrite Eit. cbn [bind]. eexists. split; [reflexivity|]. split; [rewrite upd_length; exact HL|].
    cbn [vt_it vt_keep]. split; [|split].
    + rewrite HU1. rewrite (nth_error_nth _ _ 0 HU2) in Hit. exact Hit.
    + exact HK.
    + eapply keep_other; eauto.
Qed.

Lemma vback_ok ix k n st : (k < length vsh)%nat -> vat ix st ->
  0 <= nth k ix 0 - n < nth k vsh 0 -> 0 <= n -> nth k ix 0 <= nth k vsh 0 ->
  exists st', s_step_back ops k n st = Ok st' /\ vat (upd ix k (nth k ix 0 - n)) st'.
Proof.
  intros Hk (HL & Hat & HK & HKV) Hx Hn Hle. cbn [vs_ops s_step_back]. unfold vs_step_back. cbn [Nat.leb].
  rewrite nas_ok. pose proof (esrc_upd ss ix k (nth k ix 0 - n) ltac:(lia)) as HU. fold (axis_of ss k).
  destruct (nth_error ss (integral_skip ss k)) as [s|] eqn:Es.
  - destruct (is_newaxis s) eqn:En.
    + exists st. split; [reflexivity|]. split; [rewrite upd_length; exact HL|]. split; [rewrite HU; exact Hat|].
      split; [exact HK|]. eapply keep_other; eauto.
    + destruct HU as [HU1 HU2]. destruct (skip_in _ _ Es) as [Hi Hks].
      apply Nat.ltb_lt in Hi. rewrite Hi. rewrite (rd_ok _ _ _ Es). cbn [bind].
      rewrite (rd_nth 0) by lia. cbn [bind]. rewrite wr_ok by lia. cbn [bind].
      rewrite (step_insens s _ (nth k ix 0 - n) n) by (intros Hs; rewrite (HKV _ _ Hk Es Hs); reflexivity).
      rewrite (vsh_size _ _ Hk Es) in *.
      assert (A : axis_slice s) by (split; [eapply iskip_not_int; eauto|exact En]).
      rewrite (step_spos s) by (auto; lia). cbn [bind].
      replace (nth k ix 0 - n + n) with (nth k ix 0) by ring.
      destruct (sub_back ix k (spos s (nth k ix 0) - spos s (nth k ix 0 - n)) (vt_it st) HL) as (it & Eit & Hit); auto.
      { apply (axis_in ix); auto. intros s' E'. congruence. }
      rewrite Eit. cbn [bind]. eexists. split; [reflexivity|]. split; [rewrite upd_length; exact HL|].
      cbn [vt_it vt_keep]. split; [|split].
      * rewrite HU1. rewrite (nth_error_nth _ _ 0 HU2) in Hit.
        replace (spos s (nth k ix 0) - (spos s (nth k ix 0) - spos s (nth k ix 0 - n))) with (spos s (nth k ix 0 - n)) in Hit by ring.
        exact Hit.
      * rewrite upd_length. exact HK.
      * eapply keep_upd; eauto; intros s' Hs1 Hs2; rewrite ?(HKV _ _ Hk Hs1 Hs2); reflexivity.
  - destruct HU as [HU1 HU2]. pose proof Es as Hi. apply nth_error_None in Hi. apply Nat.ltb_ge in Hi. rewrite Hi.
    destruct (sub_back ix k n (vt_it st) HL) as (it & Eit & Hit); auto.
    { apply (axis_in ix); auto. intros s' E'. congruence. }
    rewrite Eit. cbn [bind]. eexists. split; [reflexivity|]. split; [rewrite upd_length; exact HL|].
    cbn [vt_it vt_keep]. split; [|split].
    + rewrite HU1. rewrite (nth_error_nth _ _ 0 HU2) in Hit. exact Hit.
    + exact HK.
    + eapply keep_other; eauto.
Qed.

Lemma vreset_ok ix k st (b : bool) : (k < length vsh)%nat -> vat ix st -> 0 < nth k vsh 0 ->
  nth k ix 0 = (if b then 0 else nth k vsh 0 - 1) ->
  exists st', vs_common_reset (x_ops esh e) ss vsh b k st = Ok st' /\ vat (upd ix k (if b then nth k vsh 0 - 1 else 0)) st'.
Proof.
  intros Hk (HL & Hat & HK & HKV) Hp Hx. unfold vs_common_reset.
  set (v := if b then nth k vsh 0 - 1 else 0).
  rewrite nas_ok. pose proof (esrc_upd ss ix k v ltac:(lia)) as HU. fold (axis_of ss k).
  destruct (nth_error ss (integral_skip ss k)) as [s|] eqn:Es.
  - destruct (is_newaxis s) eqn:En.
    + exists st. split; [reflexivity|]. split; [rewrite upd_length; exact HL|]. split; [rewrite HU; exact Hat|].
      split; [exact HK|]. eapply keep_other; eauto.
    + destruct HU as [HU1 HU2]. destruct (skip_in _ _ Es) as [Hi Hks].
      rewrite HK. pose proof Hks as Hks'. apply Nat.ltb_lt in Hks'. rewrite Hks'.
      apply Nat.ltb_lt in Hi. rewrite Hi. rewrite (rd_ok _ _ _ Es). cbn [bind].
      rewrite wr_ok by lia. cbn [bind].
      pose proof (vsh_size _ _ Hk Es) as Hvs.
      assert (A : axis_slice s) by (split; [eapply iskip_not_int; eauto|exact En]).
      rewrite !(at_spos s) by (auto; lia). cbn [bind]. rewrite <- Hvs. change (if b then nth k vsh 0 - 1 else 0) with v.
      assert (Ha : (axis_of ss k < length esh)%nat) by (apply (axis_in ix); auto; intros s' E'; congruence).
      assert (Hgo : exists it, (if b then s_step (x_ops esh e) (axis_of ss k) (spos s (nth k vsh 0 - 1) - spos s 0) (vt_it st)
               else s_step_back (x_ops esh e) (axis_of ss k) (spos s (nth k vsh 0 - 1) - spos s 0) (vt_it st)) = Ok it /\
               x_at esh e (upd (esrc ss ix) (axis_of ss k) (spos s v)) it).
      { destruct b.
        - destruct (sub_step ix k (spos s (nth k vsh 0 - 1) - spos s 0) (vt_it st) HL Ha Hat) as (it & Eit & Hit).
          exists it. split; [exact Eit|]. rewrite (nth_error_nth _ _ 0 HU2), Hx in Hit.
          replace (spos s 0 + (spos s (nth k vsh 0 - 1) - spos s 0)) with (spos s v) in Hit by (unfold v; ring). exact Hit.
        - destruct (sub_back ix k (spos s (nth k vsh 0 - 1) - spos s 0) (vt_it st) HL Ha Hat) as (it & Eit & Hit).
          exists it. split; [exact Eit|]. rewrite (nth_error_nth _ _ 0 HU2), Hx in Hit.
          replace (spos s (nth k vsh 0 - 1) - (spos s (nth k vsh 0 - 1) - spos s 0)) with (spos s v) in Hit by (unfold v; ring). exact Hit. }
      destruct Hgo as (it & Eit & Hit). rewrite Eit. cbn [bind].
      eexists. split; [reflexivity|]. split; [rewrite upd_length; exact HL|]. cbn [vt_it vt_keep]. split; [|split].
      * rewrite HU1. exact Hit.
      * rewrite upd_length. exact HK.
      * eapply keep_upd; eauto; intros s' Hs1 Hs2; rewrite ?(HKV _ _ Hk Hs1 Hs2); reflexivity.
  - destruct HU as [HU1 HU2]. pose proof Es as Hi. apply nth_error_None in Hi. apply Nat.ltb_ge in Hi. rewrite Hi.
    assert (Hkeep : exists keep, (if (k <? length (vt_keep st))%nat
       then let* size := rd vsh k in wr (vt_keep st) k (if b then size - 1 else 0) else Ok (vt_keep st)) = Ok keep /\
       length keep = length ss /\ forall k', k' <> k -> nth k' keep 0 = nth k' (vt_keep st) 0).
    { destruct (Nat.ltb_spec k (length (vt_keep st))) as [Hl|Hl].
      - rewrite (rd_nth 0) by exact Hk. cbn [bind]. rewrite wr_ok by exact Hl. eexists. split; [reflexivity|].
        split; [rewrite upd_length; exact HK|]. intros k' Hne. apply nth_upd_other. auto.
      - eexists. split; [reflexivity|]. split; [exact HK|]. auto. }
    destruct Hkeep as (keep & Ek & Hk1 & Hk2). rewrite Ek. cbn [bind]. rewrite (rd_nth 0) by exact Hk. cbn [bind].
    assert (Ha : (axis_of ss k < length esh)%nat) by (apply (axis_in ix); auto; intros s' E'; congruence).
    assert (Hgo : exists it, (if b then s_step (x_ops esh e) (axis_of ss k) (nth k vsh 0 - 1) (vt_it st)
               else s_step_back (x_ops esh e) (axis_of ss k) (nth k vsh 0 - 1) (vt_it st)) = Ok it /\
               x_at esh e (upd (esrc ss ix) (axis_of ss k) v) it).
    { destruct b.
      - destruct (sub_step ix k (nth k vsh 0 - 1) (vt_it st) HL Ha Hat) as (it & Eit & Hit).
        exists it. split; [exact Eit|]. rewrite (nth_error_nth _ _ 0 HU2), Hx in Hit. exact Hit.
      - destruct (sub_back ix k (nth k vsh 0 - 1) (vt_it st) HL Ha Hat) as (it & Eit & Hit).
        exists it. split; [exact Eit|]. rewrite (nth_error_nth _ _ 0 HU2), Hx in Hit.
        replace (nth k vsh 0 - 1 - (nth k vsh 0 - 1)) with v in Hit by (unfold v; ring). exact Hit. }
    destruct Hgo as (it & Eit & Hit). rewrite Eit. cbn [bind].
    eexists. split; [reflexivity|]. split; [rewrite upd_length; exact HL|]. cbn [vt_it vt_keep]. split; [|split].
    + rewrite HU1. exact Hit.
    + exact Hk1.
    + intros k' s' Hk' Hs' Hn'. assert (k' <> k) by (intros ->; congruence).
      rewrite Hk2 by assumption. rewrite nth_upd_other by auto. eauto.
Qed.
End VS.
