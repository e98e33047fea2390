(** What convolutions and interpolants are. *)
From Coq Require Import List ZArith Bool QArith Sorted.
From Verif Require Import Prelude.
Import ListNotations.
Open Scope Z_scope.

(** f(0) + ... + f(n - 1) *)
Definition sumn (f : nat -> Z) (n : nat) : Z := fold_right Z.add 0 (map f (seq 0 n)).

(** Element k of the convolution of a and v: the products of all the pairs of elements whose
    positions add up to k. *)
Definition conv_at (a v : list Z) (k : nat) : Z :=
  sumn (fun i => sumn (fun j => if (i + j =? k)%nat then nth i a 0 * nth j v 0 else 0) (length v)) (length a).

(** Sorted lists of numbers. *)
Definition increasing (l : list Q) : Prop := forall i j x y, (i < j)%nat -> nth_error l i = Some x -> nth_error l j = Some y -> (x <= y)%Q.
Definition strictly_increasing (l : list Q) : Prop := forall i j x y, (i < j)%nat -> nth_error l i = Some x -> nth_error l j = Some y -> (x < y)%Q.

(** The value at x of the line through (x0, y0) and (x1, y1). *)
Definition line (x0 y0 x1 y1 x : Q) : Q := (y0 + (x - x0) * (y1 - y0) / (x1 - x0))%Q.

(** y is the value at x of the piecewise linear function through the points (xp, fp), constant
    before the first and after the last point. *)
Definition interpolates (xp fp : list Q) (x y : Q) : Prop :=
  (forall x0 y0, nth_error xp 0 = Some x0 -> nth_error fp 0 = Some y0 -> (x <= x0)%Q -> (y == y0)%Q) /\
  (forall xn yn, nth_error xp (length xp - 1) = Some xn -> nth_error fp (length xp - 1) = Some yn -> (xn <= x)%Q -> (y == yn)%Q) /\
  (forall k x0 y0 x1 y1, nth_error xp k = Some x0 -> nth_error fp k = Some y0 -> nth_error xp (S k) = Some x1 -> nth_error fp (S k) = Some y1 ->
    (x0 <= x)%Q -> (x <= x1)%Q -> (y == line x0 y0 x1 y1 x)%Q).
