(** Differences along an axis and the trapezoidal rule. *)
From Coq Require Import List ZArith Bool QArith Qcanon.
From Verif Require Import Prelude Strides_Model Strides_Spec Stepper_Model Stepper_Spec Broadcast_Spec Container_Model Container_Spec Assign_Model Assign_Spec Semantic_Model Semantic_Spec Stats_Spec.
Import ListNotations.
Open Scope Z_scope.

(** [l] with the entry [p] replaced by [f] of it *)
Fixpoint at_axis (p : nat) (f : Z -> Z) (l : list Z) : list Z :=
  match l, p with
  | [], _ => []
  | x :: l', O => f x :: l'
  | x :: l', S p' => x :: at_axis p' f l'
  end.
(** The index [j] places further along the axis [p] *)
Definition further (p : nat) (j : Z) (ix : list Z) : list Z := at_axis p (fun i => i + j) ix.

(** The n-th difference of a function of indices: each element is the next one minus itself, n times. *)
Fixpoint differences {V} (sub : V -> V -> V) (p n : nat) (f : list Z -> V) (ix : list Z) : V :=
  match n with
  | O => f ix
  | S n' => sub (differences sub p n' f (further p 1 ix)) (differences sub p n' f ix)
  end.

(** Binomial coefficients *)
Fixpoint binomial (n k : nat) : Z :=
  match n, k with
  | _, O => 1
  | O, S _ => 0
  | S n', S k' => binomial n' k' + binomial n' k
  end.
Definition alternating (n k : nat) : Z := if Nat.even (n - k) then 1 else -1.
Definition zsum (l : list Z) : Z := fold_right Z.add 0 l.

(** The expression [a], which does not refer to the memory assigned to, has the shape [sh] and the
    elements [f]. *)
Definition has_values {V} (g : Z -> setup) (a : aexp V) (sh : list Z) (f : list Z -> V) : Prop :=
  valid_operands g [] a /\ own_leaves (fun _ => False) a /\ broadcast_of (operand_shapes a) sh /\
  forall ix, in_bounds sh ix -> x_value ix (inst [] a) = Ok (f ix).

(** The container [c] has the shape [sh] and the elements [f]. *)
Definition contains {V} (c : cont V) (sh : list Z) (f : list Z -> V) : Prop :=
  ct_shape c = sh /\ forall ix, in_bounds sh ix -> elt c ix = Ok (f ix).

(** [axis] is the axis [p], counted from the front or, by a negative number, from the end. *)
Definition axis_names (dim : nat) (axis : Z) (p : nat) : Prop := (p < dim)%nat /\ (axis = Z.of_nat p \/ axis = Z.of_nat p - Z.of_nat dim).

(** A shape without its axis [p]; an index with the coordinate [j] inserted as axis [p] *)
Definition drop_axis (p : nat) (sh : list Z) : list Z := firstn p sh ++ skipn (S p) sh.
Definition insert_axis (p : nat) (j : Z) (ix : list Z) : list Z := firstn p ix ++ j :: skipn p ix.

(** The trapezoidal rule for n points of ordinates [y]: the sum of the areas of n - 1 trapezoids, the i-th of
    width [w i]. *)
Definition trapezoids (n : Z) (w y : Z -> Qc) : Qc :=
  total (map (fun i => w (Z.of_nat i) * ((y (Z.of_nat i) + y (Z.of_nat i + 1)%Z) / Q2Qc 2))%Qc (seq 0 (Z.to_nat (n - 1)))).
