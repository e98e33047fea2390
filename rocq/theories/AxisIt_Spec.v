(** Slices of a tensor across and along an axis. *)
From Coq Require Import List ZArith.
From Verif Require Import Prelude Strides_Model Strides_Spec Container_Model Container_Spec SView_Model.
Import ListNotations.
Open Scope Z_scope.

(** A shape or an index without its entry number [axis], and an index with the
    entry [j] put back there. *)
Definition without (axis : nat) (l : list Z) : list Z := firstn axis l ++ skipn (S axis) l.
Definition insert_at (axis : nat) (j : Z) (rest : list Z) : list Z := firstn axis rest ++ j :: skipn axis rest.

(** A container that stores its elements in the order [l] (rank is row_pos or
    col_pos), or a view of all of it: its strides are the documented ones. *)
Definition packed (l : layout) (e : xexp) : Prop :=
  x_direct e = true /\ x_offset e = 0 /\ x_layout e = l /\ length (x_strides e) = length (x_shape e) /\
  forall k, (k < length (x_shape e))%nat ->
    nth k (x_strides e) 0 = match l with row_major => row_stride (x_shape e) k | _ => col_stride (x_shape e) k end.

(** The axes that vary slower than [axis] in the order [l], slowest first. *)
Definition slower (l : layout) (sh : list Z) (axis : nat) : list Z :=
  match l with row_major => firstn axis sh | _ => rev (skipn (S axis) sh) end.
Definition faster (l : layout) (sh : list Z) (axis : nat) : list Z :=
  match l with row_major => skipn (S axis) sh | _ => firstn axis sh end.

(** The cases in which the slices along an axis are enumerated correctly: the axis
    has extent 1 or is the fastest one, or the axes slower than it, the slowest apart,
    have extent 1, or there are at most two indices for the axes slower than it. *)
Definition slices_ok (l : layout) (sh : list Z) (axis : nat) : Prop :=
  nth axis sh 0 = 1 \/ faster l sh axis = [] \/ prod (skipn 1 (slower l sh axis)) = 1 \/ prod (slower l sh axis) <= 2.

(** Every element of [e] is in a buffer of [n] elements. *)
Definition inside (e : xexp) (n : nat) : Prop :=
  forall ix, in_bounds (x_shape e) ix -> exists p, x_elem e ix = Slot p /\ 0 <= p < Z.of_nat n.

(** [buf'] is [buf] with [x] at the elements of the view [v], and nothing else changed. *)
Definition filled_with {V} (v : sview) (x : V) (buf buf' : list V) : Prop :=
  length buf' = length buf /\
  (forall ix p, in_bounds (w_shape v) ix -> w_element v ix = Ok (Slot p) -> nth_error buf' (Z.to_nat p) = Some x) /\
  (forall p, 0 <= p -> (forall ix, in_bounds (w_shape v) ix -> w_element v ix <> Ok (Slot p)) ->
     nth_error buf' (Z.to_nat p) = nth_error buf (Z.to_nat p)).
