(** C89: unwrap. *)
From Coq Require Import List ZArith Lia Bool QArith Qabs.
From Verif Require Import Prelude Strides_Spec Diff_Spec Reduce_Model Unwrap_Model Unwrap_Spec Unwrap_Proofs Unwrap2_Proofs.
Import ListNotations.
Open Scope Z_scope.

(** unwrap(p, discontinuity, axis, period): the result is p unwrapped along the axis; a temporary argument is not changed. Arrays of
    integers: for integer periods. *)
Theorem C89_unwrap : forall lvalue integral sh (p : list Z -> Q) dopt axis a period,
  Z.of_nat (length sh) < 2 ^ 64 -> axis_names (length sh) axis a -> (0 < period)%Q ->
  (integral = true -> integer period /\ forall ix, in_bounds sh ix -> integer (p ix)) ->
  exists p' u, unwrap lvalue integral (length sh) p dopt axis period = (p', u) /\
    unwraps (match dopt with Some d => d | None => ((1 # 2) * period)%Q end) period sh a p u /\ (lvalue = false -> p' = p).
Proof. exact unwrap_ok. Qed.
Print Assumptions C89_unwrap.

(** This determines the result: there is only one such array. *)
Theorem C89_unique : forall discont period sh a p u w, (0 < period)%Q -> (a < length sh)%nat ->
  unwraps discont period sh a p u -> unwraps discont period sh a p w -> forall ix, in_bounds sh ix -> (u ix == w ix)%Q.
Proof. exact unwraps_unique. Qed.
Print Assumptions C89_unique.

(** Every step of the result is shorter than the discontinuity or at most half a period. *)
Theorem C89_steps : forall lvalue sh (p : list Z -> Q) d axis a period,
  Z.of_nat (length sh) < 2 ^ 64 -> axis_names (length sh) axis a -> (0 < period)%Q ->
  let u := snd (unwrap lvalue false (length sh) p (Some d) axis period) in
  forall ix, in_bounds sh ix -> in_bounds sh (further a 1 ix) ->
    (Qabs (u (further a 1 ix) - u ix) < d)%Q \/ (Qabs (u (further a 1 ix) - u ix) <= (1 # 2) * period)%Q.
Proof.
  intros lvalue sh p d axis a period Hd Ha Hp u. destruct (unwrap_ok lvalue false sh p (Some d) axis a period Hd Ha Hp ltac:(discriminate)) as (p' & w & E & U & _).
  subst u. rewrite E. exact (unwraps_steps _ _ _ _ _ _ U).
Qed.
Print Assumptions C89_steps.

(** A discontinuity below half a period is treated as half a period. *)
Theorem C89_small_discontinuity : forall lvalue sh (p : list Z -> Q) d axis a period,
  Z.of_nat (length sh) < 2 ^ 64 -> axis_names (length sh) axis a -> (0 < period)%Q -> (d <= (1 # 2) * period)%Q ->
  forall ix, in_bounds sh ix ->
    (snd (unwrap lvalue false (length sh) p (Some d) axis period) ix == snd (unwrap lvalue false (length sh) p None axis period) ix)%Q.
Proof.
  intros lvalue sh p d axis a period Hd Ha Hp Hs ix B.
  destruct (unwrap_ok lvalue false sh p (Some d) axis a period Hd Ha Hp ltac:(discriminate)) as (p1 & u1 & E1 & U1 & _).
  destruct (unwrap_ok lvalue false sh p None axis a period Hd Ha Hp ltac:(discriminate)) as (p2 & u2 & E2 & U2 & _).
  rewrite E1, E2. cbn [snd]. exact (unwraps_unique _ _ _ _ _ _ _ Hp (proj1 Ha) (unwraps_small _ _ _ _ _ _ Hp Hs U1) U2 ix B).
Qed.
Print Assumptions C89_small_discontinuity.

(** Unwrapping again changes nothing, if the discontinuity is at least half a period. *)
Theorem C89_idempotent : forall lvalue sh (p : list Z -> Q) d axis a period,
  Z.of_nat (length sh) < 2 ^ 64 -> axis_names (length sh) axis a -> (0 < period)%Q -> ((1 # 2) * period <= d)%Q ->
  let u := snd (unwrap lvalue false (length sh) p (Some d) axis period) in
  forall ix, in_bounds sh ix -> (snd (unwrap lvalue false (length sh) u (Some d) axis period) ix == u ix)%Q.
Proof.
  intros lvalue sh p d axis a period Hd Ha Hp Hs u ix B. subst u.
  destruct (unwrap_ok lvalue false sh p (Some d) axis a period Hd Ha Hp ltac:(discriminate)) as (p1 & u1 & E1 & U1 & _). rewrite E1. cbn [snd].
  destruct (unwrap_ok lvalue false sh u1 (Some d) axis a period Hd Ha Hp ltac:(discriminate)) as (p2 & u2 & E2 & U2 & _). rewrite E2. cbn [snd].
  exact (unwraps_unique _ _ _ _ _ _ _ Hp (proj1 Ha) U2 (unwraps_again _ _ _ _ _ _ Hp Hs U1) ix B).
Qed.
Print Assumptions C89_idempotent.

(** The array 0 4 7 12 with period 6; also as an array of integers and with a larger discontinuity *)
Example C89_case_unwrap :
  let p ix := inject_Z (nth (Z.to_nat (nth 0 ix 0)) [0; 4; 7; 12] 0) in
  axis_names 1 (-1) 0 /\ (forall ix, integer (p ix)) /\
  map (fun i => Qred (snd (unwrap false false 1 p None (-1) 6) [i])) [0; 1; 2; 3] = [0; -2; 1; 0]%Q /\
  map (fun i => Qred (snd (unwrap true true 1 p None (-1) 6) [i])) [0; 1; 2; 3] = [0; -2; 1; 0]%Q /\
  map (fun i => Qred (snd (unwrap true true 1 p (Some 5%Q) 0 6) [i])) [0; 1; 2; 3] = [0; 4; 7; 6]%Q.
Proof.
  split; [split; [lia|right; reflexivity]|]. split; [intros ix; eexists; reflexivity|]. repeat split; vm_compute; reflexivity.
Qed.

(** An argument that is a variable is overwritten with the result. *)
Theorem C89_argument_refuted : exists (p : list Z -> Q),
  let '(p', u) := unwrap true false 1 p None (-1) 6 in p' = u /\ ~ (p' [1%Z] == p [1%Z])%Q.
Proof. exists (fun ix => inject_Z (4 * nth 0 ix 0)). split; [reflexivity|]. vm_compute. discriminate. Qed.
Print Assumptions C89_argument_refuted.

(** An array of integers and a period that is not an integer: the result is cut to integers, and no longer differs by a multiple of the period. *)
Theorem C89_integer_refuted : exists (p : list Z -> Q) (period : Q), (0 < period)%Q /\ (forall ix, integer (p ix)) /\
  let u := snd (unwrap false true 1 p None (-1) period) in ~ exists k : Z, (u [1%Z] == p [1%Z] + inject_Z k * period)%Q.
Proof.
  exists (fun ix => inject_Z (6 * nth 0 ix 0)), (13 # 2)%Q. split; [reflexivity|]. split; [intros ix; eexists; reflexivity|].
  cbv zeta. intros [k E]. assert (E0 : Qeq (snd (unwrap false true 1 (fun ix => inject_Z (6 * nth 0 ix 0)) None (-1) (13 # 2)) [1]) (inject_Z 0)) by (vm_compute; reflexivity).
  rewrite E0 in E. unfold Qeq, Qplus, Qmult, inject_Z in E. cbn [Qnum Qden nth] in E. lia.
Qed.
Print Assumptions C89_integer_refuted.
