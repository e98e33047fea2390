(** Model of xview: /repo/include/xtensor/views/xview.hpp and
    views/xview_utils.hpp. The kinds of the slices are template parameters in the
    code; here they are read off the resolved slices ([slice], Slice_Model), so
    that functions of the types become functions of the list of slices. *)
From Coq Require Import List ZArith Bool.
From Verif Require Import Prelude Strides_Model Slice_Model SView_Model.
Import ListNotations.
Open Scope Z_scope.

Definition is_integral (s : slice) : bool := match s with SInt _ => true | _ => false end.
Definition is_newaxis (s : slice) : bool := match s with SNewaxis => true | _ => false end.

(** xview_utils.hpp 97-133: integral_count_impl::count, integral_count_before
    (the number of slices is the default limit, giving integral_count). *)
Fixpoint integral_count_before (ss : list slice) (i : nat) : nat :=
  match i, ss with
  | S i', s :: t => (integral_count_before t i' + if is_integral s then 1 else 0)%nat
  | _, _ => 0%nat
  end.
Definition integral_count (ss : list slice) : nat := integral_count_before ss (length ss).

(** xview_utils.hpp 139-185: newaxis_count_impl::count, newaxis_count_before,
    newaxis_count. *)
Fixpoint newaxis_count_before (ss : list slice) (i : nat) : nat :=
  match i, ss with
  | S i', s :: t => (newaxis_count_before t i' + if is_newaxis s then 1 else 0)%nat
  | _, _ => 0%nat
  end.
Definition newaxis_count (ss : list slice) : nat := newaxis_count_before ss (length ss).

(** xview_utils.hpp 191-234: integral_skip, index of the i-th slice that is not an integer. *)
Fixpoint integral_skip (ss : list slice) (i : nat) : nat :=
  match ss with
  | [] => i
  | s :: t =>
      if is_integral s then S (integral_skip t i)
      else match i with O => O | S i' => S (integral_skip t i') end
  end.

(** xview_utils.hpp 240-283: newaxis_skip, index of the i-th slice that is not a newaxis. *)
Fixpoint newaxis_skip (ss : list slice) (i : nat) : nat :=
  match ss with
  | [] => i
  | s :: t =>
      if is_newaxis s then S (newaxis_skip t i)
      else match i with O => O | S i' => S (newaxis_skip t i') end
  end.

(** The values f(start), ..., f(start + n - 1) stored one after the other: the
    loops that fill a sequence whose entries do not depend on each other. *)
Fixpoint tabulate {A} (f : nat -> res A) (start n : nat) : res (list A) :=
  match n with
  | O => Ok []
  | S n' => let* x := f start in let* t := tabulate f (S start) n' in Ok (x :: t)
  end.

(** xview.hpp 1774-1778: newaxis_count_before on the slices the user wrote, as
    used by get_underlying_shape_index. *)
Fixpoint user_newaxis_before (us : list user_slice) (i : nat) : nat :=
  match i, us with
  | S i', u :: t => (user_newaxis_before t i' + match u with UNewaxis => 1 | _ => 0 end)%nat
  | _, _ => 0%nat
  end.

(** xview.hpp 1796-1813: make_view_impl: slice number I is resolved against axis
    I - newaxis_count_before(I). A newaxis needs no axis (views/xslice.hpp
    985-1003); the extent is read for every other slice, also where the code does
    not need it (all(), unsigned integers). *)
Definition make_slice (e : xexp) (us : list user_slice) (I : nat) : res slice :=
  let* u := rd us I in
  match u with
  | UNewaxis => Ok SNewaxis
  | _ => let* n := rd (x_shape e) (I - user_newaxis_before us I) in resolve u n
  end.
Definition make_slices (e : xexp) (us : list user_slice) : res (list slice) :=
  tabulate (make_slice e us) 0 (length us).

(** xview.hpp 1724-1745: compute_shape. *)
Definition view_dim (e : xexp) (ss : list slice) : nat :=
  (length (x_shape e) - integral_count ss + newaxis_count ss)%nat.
Definition compute_shape (e : xexp) (ss : list slice) : res (list Z) :=
  tabulate (fun i =>
    let index := integral_skip ss i in
    if (index <? length ss)%nat then let* s := rd ss index in Ok (slice_size s)
    else rd (x_shape e) (index - newaxis_count_before ss index)) 0 (view_dim e ss).

(** xview: the expression, the slices and the shape (xview.hpp 671-678). Strides
    and offset, computed on demand, are functions below. *)
Record xview := mk_xview { v_e : xexp; v_slices : list slice; v_shape : list Z }.

(** xview.hpp 1825-1833 with the constructor 896-912: view(e, slices...). *)
Definition view (e : xexp) (us : list user_slice) : res xview :=
  let* ss := make_slices e us in
  let* sh := compute_shape e ss in
  Ok (mk_xview e ss sh).

(** argument<I>(args...) (utils/xutils.hpp 275-280); out of range does not compile. *)
Definition argument (args : list Z) (I : nat) : res Z := rd args I.

(** xview.hpp 1657-1680: sliced_access. *)
Definition sliced_access (I : nat) (s : slice) (args : list Z) : res Z :=
  match s with
  | SInt v => Ok v
  | _ => match args with
         | [] => slice_at s 0
         | _ => let* a := argument args I in slice_at s a
         end
  end.

(** xview.hpp 1641-1656 with lesser_condition, 666-669: index<I>(args...). *)
Definition view_index (ss : list slice) (args : list Z) (I : nat) : res Z :=
  let p := (I + newaxis_count_before ss (I + 1))%nat in
  if (p <? length ss)%nat then
    let* s := rd ss p in
    sliced_access (I - integral_count_before ss I + newaxis_count_before ss (I + 1)) s args
  else argument args (I - integral_count ss + newaxis_count ss).

(** xview.hpp 1526-1533: make_index_sequence(args...). *)
Definition index_count (ss : list slice) (args : list Z) : nat :=
  (length args + integral_count ss - newaxis_count ss)%nat.

(** xview.hpp 1623-1639 (access_impl) and 1608-1621 (unchecked_impl): the
    underlying expression is called with the computed indices. With as many
    indices as axes its operator(), unchecked and element are the same access
    (C04, C05), written [x_elem]. *)
Definition access_impl (v : xview) (args : list Z) : res cell :=
  let* jx := tabulate (view_index (v_slices v) args) 0 (index_count (v_slices v) args) in
  Ok (x_elem (v_e v) jx).

(** xview.hpp 1576-1606: access drops leading arguments in excess. *)
Fixpoint access (v : xview) (args : list Z) : res cell :=
  match args with
  | [] => access_impl v []
  | _ :: rest => if (length (v_shape v) <=? length rest)%nat then access v rest else access_impl v args
  end.

(** xview.hpp 1001-1012 and 1056-1066: operator()(args...). *)
Definition v_call (v : xview) (args : list Z) : res cell := access v args.

(** xview.hpp 1030-1037 and 1085-1092: unchecked(args...). *)
Definition v_unchecked (v : xview) (args : list Z) : res cell := access_impl v args.

(** xview.hpp 1682-1722: make_index(first, last). *)
Definition make_index (v : xview) (ix : list Z) : res (list Z) :=
  let ss := v_slices v in
  let s := Nat.min (length ix) (length (v_shape v)) in
  tabulate (fun i =>
    let k := newaxis_skip ss i in
    let first := (length ix - s + (k - integral_count_before ss i))%nat in
    if (first <? length ix)%nat then
      let* x := rd ix first in
      if (k <? length ss)%nat then let* sl := rd ss k in slice_at sl x else Ok x
    else
      if (k <? length ss)%nat then let* sl := rd ss k in slice_at sl 0 else Ok 0)
    0 (length (x_shape (v_e v))).

(** xview.hpp 1039-1047 and 1094-1101: element(first, last). *)
Definition v_element (v : xview) (ix : list Z) : res cell :=
  let* jx := make_index v ix in Ok (x_elem (v_e v) jx).

(** ** Data interface of views without keep or drop *)

(** xview.hpp 138-160: is_strided_slice_impl, is_strided_view. *)
Definition is_strided_slice (s : slice) : bool := match s with SKeep _ | SDrop _ _ _ => false | _ => true end.
Definition is_strided_view (v : xview) : bool := x_direct (v_e v) && forallb is_strided_slice (v_slices v).

Definition is_xrange (s : slice) : bool := match s with SRange _ _ => true | _ => false end.
Definition is_xall (s : slice) : bool := match s with SAll _ => true | _ => false end.

(** xview.hpp 172-198: is_contiguous_view_impl for row_major. *)
Fixpoint contiguous_row (valid all_seen range_seen : bool) (ss : list slice) : bool :=
  match ss with
  | [] => valid
  | s :: t =>
      let have_all_seen := all_seen || is_xall s in
      let is_valid := valid && (if have_all_seen then is_xall s
                                else negb range_seen && (is_integral s || is_xrange s)) in
      contiguous_row is_valid have_all_seen (range_seen || is_xrange s) t
  end.

(** xview.hpp 203-227: is_contiguous_view_impl for column_major. *)
Fixpoint contiguous_col (valid int_seen range_seen : bool) (ss : list slice) : bool :=
  match ss with
  | [] => valid
  | s :: t =>
      let have_int_seen := int_seen || is_integral s in
      let is_valid := valid && (if have_int_seen then is_integral s
                                else negb range_seen && (is_xall s || is_xrange s)) in
      contiguous_col is_valid have_int_seen (is_xrange s || range_seen) t
  end.

(** xview.hpp 229-240 (is_contiguous_view) with the primary template, 97-101, and
    306-308 (the static layout). [sl] is the static layout of the expression,
    [fixed] tells whether its number of dimensions is known at compile time. *)
Definition static_view_layout (sl : layout) (fixed : bool) (v : xview) : layout :=
  if negb (x_direct (v_e v)) then dynamic
  else match sl with
       | row_major => if contiguous_row true false false (v_slices v) then row_major else dynamic
       | column_major =>
           if fixed && (length (x_shape (v_e v)) =? length (v_slices v))%nat
              && contiguous_col true false false (v_slices v) then column_major else dynamic
       | _ => dynamic
       end.

(** xview.hpp 412-413: has_trivial_strides. *)
Definition has_trivial_strides (sl : layout) (fixed : bool) (v : xview) : bool :=
  negb (layout_eqb (static_view_layout sl fixed v) dynamic) && negb (existsb is_xrange (v_slices v)).

(** xview.hpp 1536-1547 and 1549-1569: compute_strides_impl and the loops of
    compute_strides(false_type). The code adapts stride i (zero for an extent of 1)
    right after storing it; here all are stored, then all adapted. The zeros the
    strides start with are overwritten. *)
Definition slice_stride (v : xview) (i : nat) : res Z :=
  let ss := v_slices v in
  let k := integral_skip ss i in
  let* s := rd ss k in
  let* t := slice_step s 1 1 in
  let axis := (k - newaxis_count_before ss k)%nat in
  let* st := (if (axis <? length (x_shape (v_e v)))%nat then rd (x_strides (v_e v)) axis else Ok 1) in
  Ok (t * st).
Definition raw_stride (v : xview) (i : nat) : res Z :=
  let ss := v_slices v in
  if (i <? length ss - integral_count ss)%nat then slice_stride v i
  else rd (x_strides (v_e v)) (i + integral_count ss - newaxis_count ss).
Definition computed_strides (v : xview) : res (list Z) :=
  let* st := tabulate (raw_stride v) 0 (length (v_shape v)) in
  let* '(st, _) := adapt_strides (v_shape v) st (Some (repeat 0 (length (v_shape v)))) in
  Ok st.

(** xview.hpp 903-912 with 243-270 (unwrap_offset_container): with trivial strides
    they are those of the expression without the axes of the integers. *)
Definition v_strides (sl : layout) (fixed : bool) (v : xview) : res (list Z) :=
  if has_trivial_strides sl fixed v then
    Ok (match static_view_layout sl fixed v with
        | row_major => skipn (integral_count (v_slices v)) (x_strides (v_e v))
        | _ => firstn (length (x_strides (v_e v)) - integral_count (v_slices v)) (x_strides (v_e v))
        end)
  else computed_strides v.

(** xview.hpp 1309-1328: data_offset_impl: slices number [dimension] and beyond
    are added without a stride. *)
Definition offset_term (v : xview) (i : nat) (acc : Z) : res Z :=
  let ss := v_slices v in
  let* s := rd ss i in
  let* t := slice_at s 0 in
  if (i <? Nat.min (length ss) (length (x_strides (v_e v))))%nat then
    let* st := rd (x_strides (v_e v)) (i - newaxis_count_before ss i) in Ok (acc + t * st)
  else Ok (acc + t).
Definition v_data_offset (v : xview) : res Z :=
  let* o := for_up (offset_term v) 0 (length (v_slices v)) 0 in
  Ok (o + x_offset (v_e v)).

(** xview.hpp 969-987: layout(). *)
Definition v_layout (sl : layout) (fixed : bool) (v : xview) : res layout :=
  if is_strided_view v then
    let l := static_view_layout sl fixed v in
    if layout_eqb l dynamic then
      let* st := v_strides sl fixed v in
      let* m := do_strides_match (v_shape v) st (x_layout (v_e v)) true in
      Ok (if (m : bool) then x_layout (v_e v) else dynamic)
    else Ok l
  else Ok dynamic.

(** xview.hpp 1155-1187: linear_begin() + k. *)
Definition linear_at (v : xview) (k : Z) : res cell :=
  let* o := v_data_offset v in Ok (Slot (o + k)).

(** xview.hpp 1830-1910: row(e, index) and col(e, index) on an expression whose
    number of dimensions is not known at compile time. *)
Definition row (e : xexp) (index : Z) : res xview :=
  if (length (x_shape e) =? 2)%nat then view e [UInt index; UAll] else Throw invalid_argument.
Definition col (e : xexp) (index : Z) : res xview :=
  if (length (x_shape e) =? 2)%nat then view e [UAll; UInt index] else Throw invalid_argument.
