(** What a view built from slices is, independently of the model of views. Only
    the syntax of slices ([user_slice], and [item] for strided views) is shared. *)
From Coq Require Import List ZArith.
From Verif Require Import Strides_Spec Slice_Model Slice_Spec.
Import ListNotations.
Open Scope Z_scope.

(** [view_shape ss sh v]: slicing axes [sh] by [ss] gives axes [v]. Slices are
    matched with axes from the left; axes without a slice are kept whole; an
    integer removes its axis; newaxis inserts an axis of extent 1. *)
Inductive view_shape : list user_slice -> list Z -> list Z -> Prop :=
| vs_rest sh : view_shape [] sh sh
| vs_int i n ss sh v : view_shape ss sh v -> view_shape (UInt i :: ss) (n :: sh) v
| vs_new ss sh v : view_shape ss sh v -> view_shape (UNewaxis :: ss) sh (1 :: v)
| vs_all n ss sh v : view_shape ss sh v -> view_shape (UAll :: ss) (n :: sh) (n :: v)
| vs_range a b s n len f ss sh v :
    py_selects n a b (py_step s) len f -> view_shape ss sh v ->
    view_shape (URange a b s :: ss) (n :: sh) (len :: v)
| vs_keep raw n ss sh v : view_shape ss sh v ->
    view_shape (UKeep raw :: ss) (n :: sh) (Z.of_nat (length raw) :: v)
| vs_drop raw n ss sh v : view_shape ss sh v ->
    view_shape (UDrop raw :: ss) (n :: sh) (Z.of_nat (length (survivors n (map (from_end n) raw))) :: v).

(** [source_index ss sh ix jx]: the element at [ix] of the view is the element
    at [jx] of the sliced expression. *)
Inductive source_index : list user_slice -> list Z -> list Z -> list Z -> Prop :=
| si_rest sh ix : source_index [] sh ix ix
| si_int i n ss sh ix jx : source_index ss sh ix jx ->
    source_index (UInt i :: ss) (n :: sh) ix (from_end n i :: jx)
| si_new ss sh ix jx : source_index ss sh ix jx -> source_index (UNewaxis :: ss) sh (0 :: ix) jx
| si_all k n ss sh ix jx : source_index ss sh ix jx ->
    source_index (UAll :: ss) (n :: sh) (k :: ix) (k :: jx)
| si_range k a b s n ss sh ix jx : source_index ss sh ix jx ->
    source_index (URange a b s :: ss) (n :: sh) (k :: ix)
      (py_start n (py_step s) a + k * py_step s :: jx)
| si_keep k v raw n ss sh ix jx : nth_error raw k = Some v -> source_index ss sh ix jx ->
    source_index (UKeep raw :: ss) (n :: sh) (Z.of_nat k :: ix) (from_end n v :: jx)
| si_drop k x raw n ss sh ix jx : nth_error (survivors n (map (from_end n) raw)) k = Some x ->
    source_index ss sh ix jx ->
    source_index (UDrop raw :: ss) (n :: sh) (Z.of_nat k :: ix) (x :: jx).

(** A range that does not run backwards (see C17: for the others the computed
    number of elements is negative). *)
Definition forward (n : Z) (a b s : option Z) : Prop :=
  s = None \/
  ~ before (py_step s) (py_stop n (py_step s) b) (py_start n (py_step s) a) \/
  Z.abs (py_stop n (py_step s) b - py_start n (py_step s) a) < Z.abs (py_step s).

(** Slices that may be applied to axes [sh]: one axis for every slice but newaxis,
    integers within the axis (negative ones count from the end, only with
    [full]), ranges that run forward with a non-zero step, and (only with
    [full]) kept and dropped positions within the axis, dropped ones increasing. *)
Inductive valid (full : bool) : list user_slice -> list Z -> Prop :=
| va_rest sh : valid full [] sh
| va_int i n ss sh : (if full then - n else 0) <= i < n -> valid full ss sh -> valid full (UInt i :: ss) (n :: sh)
| va_new ss sh : valid full ss sh -> valid full (UNewaxis :: ss) sh
| va_all n ss sh : valid full ss sh -> valid full (UAll :: ss) (n :: sh)
| va_range a b s n ss sh : py_step s <> 0 -> forward n a b s -> valid full ss sh ->
    valid full (URange a b s :: ss) (n :: sh)
| va_keep raw n ss sh : full = true -> Forall (fun v => - n <= v < n) raw -> valid full ss sh ->
    valid full (UKeep raw :: ss) (n :: sh)
| va_drop raw n ss sh : full = true ->
    increasing (map (from_end n) raw) -> Forall (fun d => 0 <= d < n) (map (from_end n) raw) ->
    valid full ss sh -> valid full (UDrop raw :: ss) (n :: sh).
