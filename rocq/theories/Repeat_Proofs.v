(** Proofs about xt::repeat. *)
From Coq Require Import List ZArith Lia Bool.
From Verif Require Import Prelude PreludeFacts Strides_Model Strides_Spec Strides_Proofs Access_Model
  Stepper_Model Stepper_Spec Stepper_Proofs Stepper2_Proofs Stepper3_Proofs Stepper4_Proofs StepGen_Proofs
  Repeat_Model Repeat_Spec.
Import ListNotations.
Open Scope Z_scope.

(** ** Sums of repeats *)
Lemma total_app : forall a b, total (a ++ b) = total a + total b.
Proof. intros a b. induction a as [|x a IH]; cbn [app total fold_right]; [reflexivity|]. fold (total (a ++ b)). fold (total a). lia. Qed.

Lemma total_nonneg : forall r, Forall (fun x => 0 <= x) r -> 0 <= total r.
Proof. intros r H. induction H; cbn [total fold_right]; [lia|]. fold (total l). lia. Qed.

Lemma fold_total : forall r a, fold_left Z.add r a = a + total r.
Proof. induction r as [|x r IH]; intros a; cbn [fold_left total fold_right]; [lia|]. rewrite IH. fold (total r). lia. Qed.

Lemma firstn_S_nth : forall (r : list Z) j, (j < length r)%nat -> firstn (S j) r = firstn j r ++ [nth j r 0].
Proof.
  induction r as [|x r IH]; intros j H; [cbn in H; lia|]. destruct j as [|j]; [reflexivity|].
  change (firstn (S (S j)) (x :: r)) with (x :: firstn (S j) r). rewrite IH by (cbn in H; lia). reflexivity.
Qed.

Lemma total_S : forall (r : list Z) j, (j < length r)%nat -> total (firstn (S j) r) = total (firstn j r) + nth j r 0.
Proof. intros. rewrite firstn_S_nth by assumption. rewrite total_app. cbn. lia. Qed.

Lemma total_prefix : forall r j, Forall (fun x => 0 <= x) r -> 0 <= total (firstn j r) <= total r.
Proof.
  intros r j H. assert (E : total r = total (firstn j r) + total (skipn j r)) by (rewrite <- total_app, firstn_skipn; reflexivity).
  assert (A : Forall (fun x => 0 <= x) (firstn j r)) by (apply Forall_firstn'; exact H).
  assert (B : Forall (fun x => 0 <= x) (skipn j r)) by (apply Forall_skipn'; exact H).
  pose proof (total_nonneg _ A). pose proof (total_nonneg _ B). lia.
Qed.

Lemma total_mono : forall r j k, Forall (fun x => 0 <= x) r -> (j <= k)%nat -> total (firstn j r) <= total (firstn k r).
Proof.
  intros r j k H Hjk. replace (firstn j r) with (firstn j (firstn k r)).
  - apply total_prefix. apply Forall_firstn'. exact H.
  - rewrite firstn_firstn. f_equal. lia.
Qed.

Lemma source_unique : forall r i j k, Forall (fun x => 0 <= x) r -> source r i j -> source r i k -> j = k.
Proof.
  intros r i j k H [Hj Rj] [Hk Rk].
  destruct (Nat.lt_trichotomy j k) as [C|[C|C]]; [|exact C|].
  - pose proof (total_mono r (S j) k H ltac:(lia)). lia.
  - pose proof (total_mono r (S k) j H ltac:(lia)). lia.
Qed.

(** ** The two loops *)
Section Loops.
Context (r : list Z).
Hypothesis Hr : Forall (fun x => 0 <= x) r.

Lemma rdz_rep : forall j, (j < length r)%nat -> rdz r (Z.of_nat j) = Ok (nth j r 0).
Proof.
  intros j H. apply rdz_ok; [lia|]. rewrite Nat2Z.id. apply nth_error_nth'. exact H.
Qed.

Lemma rep_nonneg : forall j, 0 <= nth j r 0.
Proof.
  intros j. destruct (Nat.lt_ge_cases j (length r)).
  - rewrite Forall_forall in Hr. apply Hr. apply nth_In. assumption.
  - rewrite nth_overflow by assumption. lia.
Qed.

Lemma forward_ok : forall fuel j steps, (length r - j < fuel)%nat -> (j <= length r)%nat -> 0 <= steps ->
  total (firstn j r) + steps < total r ->
  exists j' s', rp_forward r fuel steps (Z.of_nat j) = Ok (s', Z.of_nat j') /\ (j <= j' < length r)%nat /\
    0 <= s' < nth j' r 0 /\ total (firstn j' r) + s' = total (firstn j r) + steps.
Proof.
  induction fuel as [|fuel IH]; intros j steps Hf Hj Hs Ht; [lia|]. cbn [rp_forward].
  assert (j < length r)%nat.
  { destruct (Nat.eq_dec j (length r)) as [->|]; [|lia]. rewrite firstn_all in Ht. lia. }
  rewrite rdz_rep by assumption. cbn [bind].
  destruct (Z.leb_spec (nth j r 0) steps).
  - replace (Z.of_nat j + 1) with (Z.of_nat (S j)) by lia.
    destruct (IH (S j) (steps - nth j r 0)) as (j' & s' & E & Hj' & Hs' & Ht'); try lia.
    + rewrite total_S by assumption. lia.
    + exists j', s'. split; [exact E|]. split; [lia|]. split; [exact Hs'|]. rewrite Ht', total_S by assumption. lia.
  - exists j, steps. split; [reflexivity|]. split; [lia|]. split; [lia|reflexivity].
Qed.

Lemma backward_ok : forall fuel j steps, (j < fuel)%nat -> (j <= length r)%nat ->
  0 <= total (firstn j r) + steps -> steps < 0 ->
  exists j' s', rp_backward r fuel steps (Z.of_nat j) = Ok (s', Z.of_nat j') /\ (j' < j)%nat /\
    0 <= s' < nth j' r 0 /\ total (firstn j' r) + s' = total (firstn j r) + steps.
Proof.
  induction fuel as [|fuel IH]; intros j steps Hf Hj Ht Hs; [lia|]. cbn [rp_backward].
  destruct (Z.ltb_spec steps 0) as [Hn|Hn]; [|lia].
  destruct j as [|j]; [cbn in Ht; lia|].
  replace (Z.of_nat (S j) - 1) with (Z.of_nat j) by lia.
  rewrite rdz_rep by lia. cbn [bind]. rewrite total_S in Ht by lia.
  destruct (Z.lt_ge_cases (steps + nth j r 0) 0) as [C|C].
  - destruct (IH j (steps + nth j r 0)) as (j' & s' & E & Hj' & Hs' & Ht'); try lia.
    exists j', s'. split; [exact E|]. split; [lia|]. split; [exact Hs'|].
    rewrite Ht', total_S by lia. lia.
  - exists j, (steps + nth j r 0). split.
    + destruct fuel; cbn [rp_backward]; (destruct (Z.ltb_spec (steps + nth j r 0) 0); [lia|reflexivity]).
    + split; [lia|]. split; [lia|]. rewrite total_S by lia. lia.
Qed.
End Loops.
