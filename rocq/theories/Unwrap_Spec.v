(** Vocabulary for C89. *)
From Coq Require Import List ZArith QArith Qabs.
From Verif Require Import Prelude Strides_Spec Diff_Spec.
Import ListNotations.
Open Scope Z_scope.

(** [u] is [p], an array of shape [sh], unwrapped along axis [a]: it differs from p by multiples of the period; the first elements are those of
    p; a step of p shorter than [discont] is kept, and other steps are replaced by one of at most half a period; half a period is taken
    in the direction of the step of p. *)
Definition unwraps (discont period : Q) (sh : list Z) (a : nat) (p u : list Z -> Q) : Prop :=
  (forall ix, in_bounds sh ix -> exists k : Z, (u ix == p ix + inject_Z k * period)%Q) /\
  (forall ix, in_bounds sh ix -> nth a ix 0 = 0 -> (u ix == p ix)%Q) /\
  (forall ix, in_bounds sh ix -> in_bounds sh (further a 1 ix) ->
     let dp := (p (further a 1 ix) - p ix)%Q in
     let du := (u (further a 1 ix) - u ix)%Q in
     ((Qabs dp < discont)%Q -> (du == dp)%Q) /\
     (~ (Qabs dp < discont)%Q -> (Qabs du <= (1 # 2) * period)%Q /\ ((Qabs du == (1 # 2) * period)%Q -> (0 < du)%Q <-> (0 < dp)%Q))).
(** Integers *)
Definition integer (x : Q) : Prop := exists z, (x == inject_Z z)%Q.
