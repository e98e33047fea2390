(** The discrete Fourier transform and the circular convolution, in an exact arithmetic. *)
From Coq Require Import List ZArith Bool Ring_theory.
From Verif Require Import Prelude Strides_Model Strides_Spec Container_Model Container_Spec SView_Model SView_Spec AxisIt_Spec Fft_Model.
Import ListNotations.
Open Scope Z_scope.

(** n, as a number *)
Fixpoint numeral {K} (A : arith K) (one : K) (n : nat) : K :=
  match n with O => zero A | S n' => add A (numeral A one n') one end.

(** What is used of the complex numbers: a commutative ring without divisors of zero in which n z / n is z,
    a conjugation, and exp(-i pi a / b), which is a homomorphism in a, depends only on a / b, is -1 for a = b and
    is 1 only if a is an even multiple of b. *)
Record complex_laws {K : Type} (A : arith K) (one : K) (opp : K -> K) : Prop := {
  cl_ring : ring_theory (zero A) one (add A) (mul A) (sub A) opp eq;
  cl_integral : forall x y, mul A x y = zero A -> x = zero A \/ y = zero A;
  cl_over : forall z n, 0 < n -> over A (mul A (numeral A one (Z.to_nat n)) z) n = z;
  cl_conj_add : forall x y, conj A (add A x y) = add A (conj A x) (conj A y);
  cl_conj_mul : forall x y, conj A (mul A x y) = mul A (conj A x) (conj A y);
  cl_conj_conj : forall x, conj A (conj A x) = x;
  cl_conj_turn : forall a b, conj A (turn A a b) = turn A (- a) b;
  cl_turn_add : forall a a' b, 0 < b -> turn A (a + a') b = mul A (turn A a b) (turn A a' b);
  cl_turn_scale : forall a b c, 0 < b -> 0 < c -> turn A (c * a) (c * b) = turn A a b;
  cl_turn_half : turn A 1 1 = opp one;
  cl_turn_one : forall a b, 0 < b -> turn A a b = one -> (2 * b | a) }.

(** f 0 + ... + f (n - 1) *)
Fixpoint sumn {K} (A : arith K) (n : nat) (f : nat -> K) : K :=
  match n with O => zero A | S n' => add A (sumn A n' f) (f n') end.

(** The k-th coefficient of the transform of x_0 .. x_(n-1): the sum of x_j exp(-2 pi i j k / n) *)
Definition dft {K} (A : arith K) (n : nat) (x : nat -> K) (k : nat) : K :=
  sumn A n (fun j => mul A (x j) (turn A (2 * Z.of_nat j * Z.of_nat k) (Z.of_nat n))).
(** The circular convolution: the sum of x_j y_((k - j) mod n) *)
Definition circular {K} (A : arith K) (n : nat) (x y : nat -> K) (k : nat) : K :=
  sumn A n (fun j => mul A (x j) (y (Z.to_nat ((Z.of_nat k - Z.of_nat j) mod Z.of_nat n)))).

(** The elements of a list, as a function; the list of the first n values of a function *)
Definition item_of {K} (A : arith K) (l : list K) (j : nat) : K := nth j l (zero A).
Definition list_of {K} (n : nat) (f : nat -> K) : list K := map f (seq 0 n).

(** An xarray of shape sh, stored in the order l, of which element ix is x ix *)
Definition array_of {K} (l : layout) (c : cont K) (sh : list Z) (x : list Z -> K) : Prop :=
  packed l (of_cont c) /\ ct_shape c = sh /\ Z.of_nat (length (ct_data c)) = prod sh /\
  forall ix, in_bounds sh ix -> elt c ix = Ok (x ix).
(** The elements that share with ix the indices other than the one along the axis p *)
Definition line {K} (p : nat) (x : list Z -> K) (ix : list Z) (j : nat) : K := x (insert_at p (Z.of_nat j) (without p ix)).

(** [axis] is the axis [p], counted from the front or, by a negative number, from the end. *)
Definition axis_names (dim : nat) (axis : Z) (p : nat) : Prop := (p < dim)%nat /\ (axis = Z.of_nat p \/ axis = Z.of_nat p - Z.of_nat dim).
