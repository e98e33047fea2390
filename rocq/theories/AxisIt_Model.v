(** Model of the iterators over the slices of an expression:
    /repo/include/xtensor/views/xaxis_iterator.hpp (slices of dimension N - 1 across
    an axis) and views/xaxis_slice_iterator.hpp (slices of dimension 1 along an
    axis), and of fill on the views they give. The expression has a data interface:
    both headers use strides() and data_offset(). Offsets, indices and products are
    std::size_t: sums and products go through [to_size_t] where a stride, which may
    be negative, or the difference extent - 1, takes part. *)
From Coq Require Import List ZArith Bool.
From Verif Require Import Prelude Strides_Model Access_Model Slice_Model Container_Model SView_Model Stepper_Model.
Import ListNotations.
Open Scope Z_scope.

(** A list without its element number [axis]: the two copies of
    xaxis_iterator.hpp 112-120; [axis] is not checked. *)
Definition drop_axis (axis : nat) (l : list Z) : res (list Z) :=
  let* _ := rd l axis in Ok (firstn axis l ++ skipn (S axis) l).

(** ** xaxis_iterator *)

(** Lines 65-68. The expression an iterator belongs to is not kept: only
    iterators over the same expression are compared. *)
Record axis_it := mk_axis_it { ai_index : Z; ai_add : Z; ai_view : sview }.

(** Lines 101-123: derive_xstrided_view; the view has the layout of the expression.
    The first argument of make_view plays no part: the expression has data. *)
Definition derive_view (e : xexp) (axis : nat) (offset : Z) : res sview :=
  let* shape := drop_axis axis (x_shape e) in
  let* strides := drop_axis axis (x_strides e) in
  make_view row_major e shape strides offset (x_layout e).

(** Lines 165-173: the constructor. *)
Definition axis_make (e : xexp) (axis : nat) (index offset : Z) : res axis_it :=
  let* s := rd (x_strides e) axis in
  let* v := derive_view e axis offset in
  Ok (mk_axis_it index (to_size_t s) v).

(** Lines 150-155 and 298-303: axis_begin(e, axis); axis_begin(e), 284-289, is
    axis_begin(e, 0). *)
Definition axis_begin (e : xexp) (axis : nat) : res axis_it := axis_make e axis 0 (x_offset e).

(** Lines 333-344: axis_end(e, axis); axis_end(e), 312-323, is axis_end(e, 0). *)
Definition axis_end (e : xexp) (axis : nat) : res axis_it :=
  let* n := rd (x_shape e) axis in
  let* s := rd (x_strides e) axis in
  axis_make e axis n (to_size_t (to_size_t s * n)).

(** set_offset, views/xstrided_view_base.hpp 684-688. *)
Definition set_offset (v : sview) (o : Z) : sview :=
  mk_sview (w_base v) (w_flat v) (w_shape v) (w_strides v) (w_back v) o (w_layout v).

(** Lines 184-190: operator++. *)
Definition axis_next (it : axis_it) : axis_it :=
  mk_axis_it (ai_index it + 1) (ai_add it)
             (set_offset (ai_view it) (to_size_t (w_offset (ai_view it) + ai_add it))).

(** Lines 215-219: operator*; 244-249: equal. *)
Definition axis_deref (it : axis_it) : sview := ai_view it.
Definition axis_equal (a b : axis_it) : bool :=
  (ai_index a =? ai_index b) && (w_offset (ai_view a) =? w_offset (ai_view b)).

(** ** xaxis_slice_iterator *)

(** Lines 61-69. *)
Record slice_it := mk_slice_it {
  si_index : Z; si_offset : Z; si_axis_stride : Z; si_lower : Z; si_upper : Z;
  si_iter_size : Z; si_target : bool; si_view : sview }.

(** Lines 141-183: the constructor. The shape and the strides of the view are
    made by list initialisation of the shape type of the expression: for a
    container of fixed dimension ([fixed]), std::array, the remaining entries
    are 0. *)
Definition slice_make (fixed : bool) (e : xexp) (axis : nat) (index offset : Z) : res slice_it :=
  let sh := x_shape e in
  let* s := rd (x_strides e) axis in
  let* n := rd sh axis in
  let axis_stride := to_size_t (to_size_t s * to_size_t (n - 1)) in
  let pad := if fixed then repeat 0 (length sh - 1) else [] in
  let* v := make_view row_major e (n :: pad) (s :: pad) offset (x_layout e) in
  let '(target, lower, iter_size) :=
    match x_layout e with
    | row_major => ((axis =? length sh - 1)%nat, compute_size (skipn (S axis) sh), compute_size (skipn 1 sh))
    | _ => ((axis =? 0)%nat, compute_size (firstn axis sh), compute_size (removelast sh))
    end in
  Ok (mk_slice_it index offset axis_stride lower (to_size_t (lower + axis_stride)) iter_size target v).

(** Lines 126-131 and 312-317: axis_slice_begin(e, axis); axis_slice_begin(e),
    298-303, is axis_slice_begin(e, 0). *)
Definition slice_begin (fixed : bool) (e : xexp) (axis : nat) : res slice_it :=
  slice_make fixed e axis 0 (x_offset e).

(** Lines 346-362: axis_slice_end(e, axis); axis_slice_end(e), 326-336, is
    axis_slice_end(e, 0). *)
Definition slice_end (fixed : bool) (e : xexp) (axis : nat) : res slice_it :=
  let* others := drop_axis axis (x_shape e) in
  slice_make fixed e axis (compute_size others) (to_size_t (compute_size (x_shape e) + Z.of_nat axis)).

(** Lines 194-206: operator++. The remainder by 0 is undefined. *)
Definition slice_next (it : slice_it) : res slice_it :=
  if si_iter_size it =? 0 then UB
  else
    let offset := to_size_t (si_offset it + 1) in
    let cmp := offset mod si_iter_size it in
    let offset :=
      if si_target it || ((cmp <=? si_upper it) && (si_lower it <=? cmp))
      then to_size_t (offset + si_axis_stride it) else offset in
    Ok (mk_slice_it (si_index it + 1) offset (si_axis_stride it) (si_lower it) (si_upper it)
                    (si_iter_size it) (si_target it) (set_offset (si_view it) offset)).

(** Lines 231-235: operator*; 259-263: equal. *)
Definition slice_deref (it : slice_it) : sview := si_view it.
Definition slice_equal (a b : slice_it) : bool := si_index a =? si_index b.

(** [k] increments. *)
Fixpoint axis_nexts (k : nat) (it : axis_it) : axis_it :=
  match k with O => it | S k' => axis_nexts k' (axis_next it) end.
Fixpoint slice_nexts (k : nat) (it : slice_it) : res slice_it :=
  match k with O => Ok it | S k' => let* it := slice_next it in slice_nexts k' it end.

(** ** fill *)

(** xstrided_view::fill, views/xstrided_view.hpp 447-459, which is also v = x for a
    scalar x (405-412), on the storage [buf] of the viewed expression: std::fill
    from linear_begin() to linear_end() (487-497) when the view has a layout, and
    from begin() to end() in the order [T] (XTENSOR_DEFAULT_TRAVERSAL) otherwise. *)
Definition fill {V} (T : layout) (v : sview) (x : V) (buf : list V) : res (list V) :=
  let size := Z.to_nat (compute_size (w_shape v)) in
  match w_layout v with
  | dynamic =>
      let c := XStrided (mk_container (w_shape v) (w_strides v) (w_back v) (w_offset v)) buf in
      let* b := it_make (w_shape v) T (x_begin c) false in
      for_up (fun k buf =>
        let* '(st, _, _) := it_inc_k (x_ops (w_shape v) c) (w_shape v) T k b in
        match st with TPtr p => wrz buf p x | _ => UB end) 0 size buf
  | _ => for_up (fun k buf => wrz buf (w_offset v + Z.of_nat k) x) 0 size buf
  end.
