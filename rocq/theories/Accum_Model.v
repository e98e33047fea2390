(** Accumulators (cumsum, cumprod, nancumsum, nancumprod): reducers/xaccumulator.hpp. *)
From Coq Require Import List ZArith Bool.
From Verif Require Import Prelude Strides_Model Access_Model Container_Model.
Import ListNotations.
Open Scope Z_scope.

(** *std::min_element on a non-empty range of strides, cast to std::size_t *)
Definition min_stride (l : list Z) : Z :=
  match l with [] => 0 | x :: r => to_size_t (fold_left Z.min r x) end.

Section Accum.
Context {R : Type} (f : R -> R -> R).

(** accumulator_init_with_f, lines 159-210: the two nested loops *)
Definition init_loop (g : R -> R) (outer inner : nat) (outer_stride inner_stride : Z) (data : list R) : res (list R) :=
  for_up (fun i data =>
    let* '(_, data) := for_up (fun _ '(pos, data) =>
        let* x := rdz data pos in
        let* data := wrz data pos (g x) in
        Ok (pos + inner_stride, data)) 0 inner (Z.of_nat i * outer_stride, data) in
    Ok data) 0 outer data.

(** accumulator_init_with_f: the sizes and strides of the loops. *)
Definition init_with_f (g : R -> R) (c : cont R) (axis : nat) : res (list R) :=
  let sh := ct_shape c in
  let st := ct_strides c in
  let outer := compute_size (firstn axis sh) in
  let inner := compute_size (skipn (S axis) sh) in
  let outer_stride := if (axis =? 0)%nat then 1 else min_stride (firstn axis st) in
  let inner_stride := if (axis =? length st - 1)%nat then 1 else min_stride (skipn (S axis) st) in
  if layout_eqb (ct_layout c) column_major then
    init_loop g (Z.to_nat inner) (Z.to_nat outer) inner_stride outer_stride (ct_data c)
  else
    init_loop g (Z.to_nat outer) (Z.to_nat inner) outer_stride inner_stride (ct_data c).

(** Lines 275-289: the accumulation loops; outer_stride is 1. *)
Definition accum_loop (outer inner : nat) (stride : Z) (data : list R) : res (list R) :=
  let* '(_, data) := for_up (fun _ '(pos, data) =>
    let* '(pos, data) := for_up (fun _ '(pos, data) =>
        let* a := rdz data pos in
        let* b := rdz data (pos + stride) in
        let* data := wrz data (pos + stride) (f a b) in
        Ok (pos + 1, data)) 0 inner (pos, data) in
    Ok (pos + stride, data)) 0 outer (0, data) in
  Ok data.

(** accumulator_impl with an axis, lines 212-293. [c] is the container [res] after
    [result_type res = e], whose elements are already converted; [SL] the static
    layout of its type; [init] the initialisation functor unless it is the identity
    type. The products of extents are taken without overflow (see C06), the
    difference of the loop sizes in std::size_t. *)
Definition acc_axis (SL : layout) (init : option (R -> R)) (c : cont R) (axis : nat) : res (cont R) :=
  let sh := ct_shape c in
  if (length sh <=? axis)%nat then Throw runtime_error
  else
    let* n := rd sh axis in
    if n =? 0 then Ok c
    else
      let* stride := rd (ct_strides c) axis in
      let inner_stride := to_size_t stride in
      let init_size := if n =? 1 then 0 else 1 in
      let '(outer, inner) :=
        if layout_eqb SL row_major then (init_size * compute_size (firstn axis sh), compute_size (skipn axis sh))
        else (compute_size (skipn (S axis) sh), init_size * compute_size (firstn (S axis) sh)) in
      let inner := to_size_t (inner - inner_stride) in
      let* data := (match init with Some g => init_with_f g c axis | None => Ok (ct_data c) end) in
      let* data := accum_loop (Z.to_nat outer) (Z.to_nat inner) inner_stride data in
      Ok (mk_cont sh (ct_strides c) (ct_back c) (ct_layout c) data).

(** accumulate with a signed axis, lines 355-360; [normalize_axis] is utils/xutils.hpp
    376-380. *)
Definition accumulate_axis (SL : layout) (init : option (R -> R)) (c : cont R) (axis : Z) : res (cont R) :=
  let dim := Z.of_nat (length (ct_shape c)) in
  let ax := to_size_t (if axis <? 0 then dim + axis else axis) in
  if dim <=? ax then Throw runtime_error
  else acc_axis SL init c (Z.to_nat ax).

(** The loop of lines 318-326 *)
Definition flat_loop (vals : list R) (data : list R) : res (list R) :=
  let* '(_, data) := fold_left (fun s v =>
    let* '(idx, data) := s in
    let* a := rdz data idx in
    let* data := wrz data (idx + 1) (f a v) in
    Ok (idx + 1, data)) vals (Ok (0, data)) in
  Ok data.

(** accumulator_impl without axis, lines 295-330. [vals] are the elements of the
    expression in the default traversal order. [dim]: number of dimensions of the
    result type if it is static (xtensor), in which case from_shape({sz})
    value-initialises the other extents. *)
Definition acc_flat (SL DL : layout) (fresh : list R -> Z -> list R) (r0 : R) (dim : option nat) (init : option (R -> R))
  (vals : list R) : res (cont R) :=
  let sz := Z.of_nat (length vals) in
  let n := match dim with Some n => n | None => 0%nat end in
  let shape := match dim with Some n => sz :: repeat 0 (n - 1) | None => [sz] end in
  let* r := c_resize_layout SL DL fresh (c_default SL n r0) shape SL in
  match vals with
  | [] => Ok r
  | v :: vals =>
      let* data := wrz (ct_data r) 0 (match init with Some g => g v | None => v end) in
      let* data := flat_loop vals data in
      Ok (mk_cont (ct_shape r) (ct_strides r) (ct_back r) (ct_layout r) data)
  end.
End Accum.
