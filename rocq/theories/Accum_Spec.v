(** What accumulation along an axis means. *)
From Coq Require Import List ZArith.
From Verif Require Import Prelude Strides_Model Strides_Spec Container_Model Container_Spec.
Import ListNotations.
Open Scope Z_scope.

(** The strides of a row or column major container are those of the documentation
    (C02): the products of the extents after, or before, the axis, 0 for extent 1.
    Nothing is asked of a container whose extents are all 0 (a default constructed
    xtensor has strides 0). *)
Definition documented {V} (c : cont V) : Prop :=
  is_order (ct_layout c) -> ~ Forall (fun d => d = 0) (ct_shape c) ->
  length (ct_strides c) = length (ct_shape c) /\
  forall k, (k < length (ct_shape c))%nat ->
    nth k (ct_strides c) 0 =
    match ct_layout c with row_major => row_stride (ct_shape c) k | _ => col_stride (ct_shape c) k end.

(** The element at [ix] of the accumulation along [axis] of the elements [ev]:
    f ( ... f (f (g e_0) e_1) ... ) e_k where e_j is the element at the index [ix]
    with j on the axis, and k the component of [ix] there. *)
Definition accumulated {R} (f : R -> R -> R) (g : R -> R) (ev : list Z -> R) (axis : nat) (ix : list Z) : R :=
  fold_left (fun acc j => f acc (ev (upd ix axis (Z.of_nat j)))) (seq 1 (Z.to_nat (nth axis ix 0)))
    (g (ev (upd ix axis 0))).

(** The partial accumulations of a sequence. *)
Definition accumulated_seq {R} (f : R -> R -> R) (g : R -> R) (vals : list R) (d : R) (k : nat) : R :=
  fold_left f (firstn k (tl vals)) (g (hd d vals)).

Definition init_fun {R} (init : option (R -> R)) : R -> R := match init with Some g => g | None => fun x => x end.

(** On this side of the axis the extents are all different from 1, or their product
    is 0 or 1. *)
Definition no_units (side : list Z) : Prop := Forall (fun d => d <> 1) side \/ prod side <= 1.
