(** Model of reshape_view, ravel and flatten, and of the access to a strided view by
    position: /repo/include/xtensor/views/xstrided_view.hpp, misc/xmanipulation.hpp. *)
From Coq Require Import List ZArith Bool.
From Verif Require Import Prelude Strides_Model Access_Model Builder_Model SView_Model Stepper_Model.
Import ListNotations.
Open Scope Z_scope.

(** static_cast to a signed integer of [b] bits *)
Definition to_signed (b x : Z) : Z := (x + 2 ^ (b - 1)) mod 2 ^ b - 2 ^ (b - 1).

(** std::find(shape.begin(), shape.end(), -1) *)
Fixpoint find_missing (shape : list Z) : option nat :=
  match shape with
  | [] => None
  | n :: shape' => if n =? -1 then Some 0%nat else option_map S (find_missing shape')
  end.

(** std::multiplies<int>: the operands are converted to int, and a product that is not an
    int is undefined behaviour. *)
Definition int_mul (a b : Z) : res Z :=
  let p := to_int a * to_int b in
  if (- 2 ^ 31 <=? p) && (p <? 2 ^ 31) then Ok p else UB.

(** views/xstrided_view.hpp 827-841: recalculate_shape_impl for a shape of signed numbers of
    [b] bits. The product starts at -1 and is an int; it is converted to std::size_t by the
    division. The assertion that at most one extent is -1 is off by default. *)
Definition recalculate_shape_signed (b : Z) (shape : list Z) (size : Z) : res (list Z) :=
  match find_missing shape with
  | None => Ok shape
  | Some i =>
      let* total := for_each (fun n acc => int_mul acc n) shape (-1) in
      let t := to_size_t total in
      if t =? 0 then UB else wr shape i (to_signed b (size / t))
  end.

(** views/xstrided_view.hpp 843-854: recalculate_shape. [Some b]: the shape holds signed
    numbers of [b] bits; [None]: unsigned numbers, left as they are. *)
Definition recalculate_shape (vt : option Z) (shape : list Z) (size : Z) : res (list Z) :=
  match vt with Some b => recalculate_shape_signed b shape size | None => Ok shape end.

(** views/xstrided_view.hpp 857-884: reshape_view<L>(e, shape). The view goes through
    flat_adaptor_getter (xstrided_view_base.hpp 246-273) also when [e] has a data interface,
    so [e] is used here as an expression without one; e.size() is the product of its shape. *)
Definition reshape_view (L : layout) (vt : option Z) (e : xexp) (shape : list Z) : res sview :=
  let* shape := recalculate_shape vt shape (compute_size (x_shape e)) in
  let* '(st, _, _) := compute_strides dynamic shape L (repeat 0 (length shape)) None in
  make_view L (mk_xexp false (x_shape e) [] 0 (x_layout e)) (map to_size_t shape) st 0 (x_layout e).

(** views/xstrided_view.hpp 906-911: reshape_view<L>(e, {..}, order), whose braces hold signed
    numbers: they are converted to std::size_t first, and the order is ignored. *)
Definition reshape_view_order (L : layout) (e : xexp) (shape : list Z) (order : layout) : res sview :=
  reshape_view L None e (map to_size_t shape).

(** views/xstrided_view.hpp 462-485: flat(i), and data_element(i): storage()[i]. *)
Definition w_flat_at (v : sview) (i : Z) : res cell := storage_at (w_flat v) (w_base v) i.

(** *it for an iterator at position [p] of the storage. Simplification: the position of an
    iterator of a flat_expression_adaptor stands for e.begin<L>() + p, see C11 and C34; that
    a buffer has an end is left out. *)
Definition linear_at (v : sview) (p : Z) : res cell :=
  if p <? 0 then UB
  else if x_direct (w_base v) || (p <? compute_size (x_shape (w_base v))) then storage_at (w_flat v) (w_base v) p
  else UB.

(** views/xstrided_view.hpp 487-497: linear_begin() and linear_end(), as positions. *)
Definition linear_begin (v : sview) : Z := w_offset v.
Definition linear_end (v : sview) : Z := w_offset v + compute_size (w_shape v).

(** views/xstrided_view.hpp 523-533: linear_rbegin() and linear_rend(): the positions of the
    iterators below the reverse iterators. *)
Definition linear_rbegin (v : sview) : Z := linear_begin v.
Definition linear_rend (v : sview) : Z := linear_end v.

(** *r for a std::reverse_iterator at [p]: it reads the element before. *)
Definition reverse_at (v : sview) (p : Z) : res cell := linear_at v (p - 1).

(** core/xiterable.hpp 946-1080: begin<L>(), end<L>(), rbegin<L>() and rend<L>() of
    xcontiguous_iterable when L is the static layout; what is there after [k] increments.
    reshape_view has this base when E has the static layout L (xstrided_view.hpp 56-60, 872-878). *)
Definition forward (v : sview) (k : nat) : res cell := linear_at v (linear_begin v + Z.of_nat k).
Definition backward (v : sview) (k : nat) : res cell := reverse_at v (linear_rbegin v - Z.of_nat k).

(** misc/xmanipulation.hpp 418-428 with containers/xtensor.hpp 765-772 and
    containers/xbuffer_adaptor.hpp 873-883: ravel<L>(e)(i) for an expression [e] with shape [sh]:
    element [i] of a one dimensional container over the iterator e.begin<L>(). flatten is ravel
    (444-447). When the iterator is not a pointer the static layout is dynamic; the strides of
    one dimension are the same for both orders. *)
Definition ravel_at {V} (sh : list Z) (L : layout) (e : sexp V) (i : Z) : res V :=
  let* '(st, _, _) := compute_strides dynamic [compute_size sh] row_major [0] None in
  let* o := data_offset st [i] false in
  let* b := x_it_begin sh L e in
  let* it := it_add (x_ops sh e) sh L b o in
  it_deref e it.
