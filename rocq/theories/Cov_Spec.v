(** Vocabulary for C91. *)
From Coq Require Import ZArith QArith.
Open Scope Q_scope.

(** f 0 + ... + f (n - 1) *)
Fixpoint total (n : nat) (f : nat -> Q) : Q := match n with O => 0 | S n => total n f + f n end.
Definition average (n : nat) (f : nat -> Q) : Q := total n f / inject_Z (Z.of_nat n).
(** The sample covariance of n pairs of observations *)
Definition covariance (n : nat) (f g : nat -> Q) : Q :=
  total n (fun c => (f c - average n f) * (g c - average n g)) / inject_Z (Z.of_nat n - 1).
