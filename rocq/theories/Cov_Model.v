(** Model of cov: core/xmath.hpp 3193-3233, in exact arithmetic. A matrix is a function of the row and the column. None: the result of a division by zero, not a
    number (and, converted to an integer, undefined). *)
From Coq Require Import List ZArith QArith Bool.
From Verif Require Import Unwrap_Model.
Import ListNotations.
Open Scope Q_scope.

(** std::inner_product(a, a + n, b, 0.0) *)
Definition inner_product (n : nat) (a b : nat -> Q) : Q := fold_left (fun acc c => acc + a c * b c) (seq 0 n) 0.
(** mean(x, {1}) in row i: core/xmath.hpp 1877-1947. Not read when n is 0. *)
Definition row_mean (n : nat) (x : nat -> nat -> Q) (i : nat) : Q := fold_left (fun acc c => acc + x i c) (seq 0 n) 0 / inject_Z (Z.of_nat n).
(** 3205 and 3216: x_norm *)
Definition centred (n : nat) (x : nat -> nat -> Q) (i c : nat) : Q := x i c - row_mean n x i.
(** 3206-3207 and 3223-3224: the inner product over value_type(s[1] - 1), converted to the element type. [integral]: the elements are integers. *)
Definition divisor (n : nat) : Z := ((Z.of_nat n - 1) mod 2 ^ 64)%Z.
Definition entry (integral : bool) (n : nat) (x : nat -> nat -> Q) (i j : nat) : option Q :=
  if Z.eqb (divisor n) 0 then None else Some (stored integral (inner_product n (centred n x i) (centred n x j) / inject_Z (divisor n))).

Definition matrix := nat -> nat -> option Q.
Definition set_at (m : matrix) (r c : nat) (v : option Q) : matrix := fun r' c' => if Nat.eqb r' r && Nat.eqb c' c then v else m r' c'.
Definition zeros : matrix := fun _ _ => Some 0.
Definition o2 (f : Q -> Q -> Q) (a b : option Q) : option Q := match a, b with Some a, Some b => Some (f a b) | _, _ => None end.
(** diag(diagonal(m)) *)
Definition diagonal_part (m : matrix) : matrix := fun r c => if Nat.eqb r c then m r c else Some 0.

(** 3213-3227: k rows of n columns *)
Definition cov_rows (integral : bool) (k n : nat) (x : nat -> nat -> Q) : matrix :=
  let covar := fold_left (fun m i => fold_left (fun m j => set_at m j i (entry integral n x i j)) (seq i (k - i)) m) (seq 0 k) zeros in
  fun r c => o2 Qminus (o2 Qplus (covar r c) (covar c r)) (diagonal_part covar r c).
(** 3202-3209: one-dimensional x *)
Definition cov_vector (integral : bool) (n : nat) (x : nat -> Q) : matrix := set_at zeros 0 0 (entry integral n (fun _ => x) 0 0).
(** 3229-3232: stack(xtuple(x, y)) *)
Definition cov_pair (integral : bool) (n : nat) (x y : nat -> Q) : matrix :=
  cov_rows integral 2 n (fun r => match r with O => x | _ => y end).
