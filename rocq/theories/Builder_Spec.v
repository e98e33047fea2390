(** What the builders are, after the NumPy functions of the same names. *)
From Coq Require Import List ZArith Bool.
From Verif Require Import Prelude Strides_Spec SView_Model Manip_Spec Builder_Model.
Import ListNotations.
Open Scope Z_scope.

(** [gives g ix v]: the generator has the value v at ix, by operator(), unchecked and
    element. *)
Definition gives {V} (g : gen V) (ix : list Z) (v : V) : Prop :=
  gen_call g ix = Ok v /\ gen_unchecked g ix = Ok v /\ gen_element g ix = Ok v.

(** Arrays that can be concatenated along an axis: they have this axis, as many axes, and
    the same extents along the others. *)
Definition conform {V} (axis : nat) (t : list (operand V)) : Prop :=
  forall o1 o2, In o1 t -> In o2 t ->
    (axis < length (o_shape o1))%nat /\ length (o_shape o1) = length (o_shape o2) /\
    forall k, k <> axis -> nth k (o_shape o1) 0 = nth k (o_shape o2) 0.

(** Sum of the extents along the axis. *)
Definition extent_sum {V} (axis : nat) (t : list (operand V)) : Z :=
  fold_right (fun o s => nth axis (o_shape o) 0 + s) 0 t.

(** Where the element jx of the k-th operand goes. *)
Definition placed {V} (axis : nat) (t : list (operand V)) (k : nat) (jx : list Z) : list Z :=
  upd jx axis (extent_sum axis (firstn k t) + nth axis jx 0).

(** g is the concatenation of the operands: its shape, every element of every operand is
    at its place, and there is nothing else. *)
Definition concatenation {V} (axis : nat) (t : list (operand V)) (g : gen V) : Prop :=
  (forall o, In o t -> g_shape g = upd (o_shape o) axis (extent_sum axis t)) /\
  (forall k o jx, nth_error t k = Some o -> in_bounds (o_shape o) jx ->
     in_bounds (g_shape g) (placed axis t k jx) /\ gives g (placed axis t k jx) (o_at o jx)) /\
  (forall ix, in_bounds (g_shape g) ix ->
     exists k o jx, nth_error t k = Some o /\ in_bounds (o_shape o) jx /\ ix = placed axis t k jx).

(** g is the stack of the operands along a new axis. *)
Definition stacking {V} (axis : nat) (t : list (operand V)) (g : gen V) : Prop :=
  (forall o, In o t -> g_shape g = insert_at axis (Z.of_nat (length t)) (o_shape o)) /\
  (forall k o jx, nth_error t k = Some o -> in_bounds (o_shape o) jx ->
     in_bounds (g_shape g) (insert_at axis (Z.of_nat k) jx) /\
     gives g (insert_at axis (Z.of_nat k) jx) (o_at o jx)) /\
  (forall ix, in_bounds (g_shape g) ix ->
     exists k o jx, nth_error t k = Some o /\ in_bounds (o_shape o) jx /\ ix = insert_at axis (Z.of_nat k) jx).

(** An operand whose number of elements fits in an int. *)
Definition small {V} (o : operand V) : Prop := is_shape (o_shape o) /\ prod (o_shape o) < 2 ^ 31.

(** An expression, and a view, as an operand, given the values of the elements. *)
Definition exp_operand {V} (val : cell -> V) (e : xexp) : operand V :=
  mk_operand (x_shape e) (fun ix => val (x_elem e ix)).
Definition view_operand {V} (val : cell -> V) (d : V) (v : sview) : operand V :=
  mk_operand (w_shape v)
    (fun ix => match w_element v ix with Ok c => val c | _ => d end).

(** The value x is before stop when walking with the given step. *)
Definition before (step x stop : Z) : Prop := if 0 <? step then x < stop else x > stop.

(** n is the number of values start, start + step, ... before stop. *)
Definition arange_count (start stop step n : Z) : Prop :=
  0 <= n /\ forall i, 0 <= i -> (i < n <-> before step (start + i * step) stop).

(** Extents and offsets that the machine types of the library can hold. *)
Definition holdable (sh : list Z) : Prop := Forall (fun d => 0 <= d < 2 ^ 63) sh.
Definition is_int (k : Z) : Prop := - 2 ^ 31 < k < 2 ^ 31.
