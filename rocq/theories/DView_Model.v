(** Model of dynamic views: /repo/include/xtensor/views/xdynamic_view.hpp. A dynamic view is
    a strided view that also has, for every axis, a slice and a stride (adj_strides) for the
    positions that a keep or a drop selects. *)
From Coq Require Import List ZArith Bool.
From Verif Require Import Prelude Strides_Model Slice_Model SView_Model.
Import ListNotations.
Open Scope Z_scope.

(** xdynamic_view.hpp 147: a member of slice_type: detail::xfake_slice, or a keep or drop slice. *)
Inductive dslice := DFake | DReal (s : slice).

(** operator() of the slices; xfake_slice: xdynamic_view.hpp 336-339. *)
Definition dslice_at (s : dslice) (i : Z) : res Z :=
  match s with DFake => Ok 0 | DReal s => slice_at s i end.

(** The arrays new_shape, new_strides, new_slices and new_adj_strides. *)
Definition axes := (list Z * list Z * list dslice * list Z)%type.

(** Entry [idx] of the arrays: the extent, the stride ([None]: left as it is), and the slice
    with its stride; adj_strides_policy::set_fake_slice is xdynamic_view.hpp 720-724. *)
Definition set_axis (idx : nat) (n : Z) (s : option Z) (sl : dslice) (a : Z) (x : axes) : res axes :=
  let '(sh, st, sls, ads) := x in
  let* sh := wr sh idx n in
  let* st := match s with Some s => wr st idx s | None => Ok st end in
  let* sls := wr sls idx sl in
  let* ads := wr ads idx a in
  Ok (sh, st, sls, ads).

(** One axis copied: xstrided_view_base.hpp 918-920, 927-929, 951-953. *)
Definition copy_whole (shape strides : list Z) (i_ax idx : nat) (x : axes) : res axes :=
  let* n := rd shape i_ax in
  let* s := rd strides i_ax in
  set_axis idx n (Some s) DFake 0 x.

(** State of the second loop of fill_args: axis_skip, idx, new_offset and the arrays. *)
Definition dstate := (Z * nat * Z * axes)%type.

(** xstrided_view_base.hpp 899-946 with adj_strides_policy (xdynamic_view.hpp 703-781): the body
    of the second loop. A keep or drop is copied and normalised for the extent of its axis. *)
Definition dfill_body (shape strides : list Z) (n_add_all : nat) (slices : list item) (i : nat) (s : dstate)
  : res dstate :=
  let '(axis_skip, idx, off, x) := s in
  let* it := rd slices i in
  let i_ax := Z.to_nat (Z.of_nat i - axis_skip) in
  match it with
  | Pick (UInt v) =>
      let* o := rd strides i_ax in
      Ok (axis_skip, idx, off + v * o, x)
  | Pick UNewaxis =>
      let* x := set_axis idx 1 None DFake 0 x in
      Ok (axis_skip + 1, S idx, off, x)
  | Ellipsis =>
      let* x := for_up (fun j x => copy_whole shape strides (i_ax + j) (idx + j) x) 0 n_add_all x in
      Ok (axis_skip - Z.of_nat n_add_all + 1, (idx + n_add_all)%nat, off, x)
  | Pick UAll =>
      let* x := copy_whole shape strides i_ax idx x in
      Ok (axis_skip, S idx, off, x)
  | Pick (UKeep _ as u) | Pick (UDrop _ as u) =>
      let* n := rd shape i_ax in
      let* o := rd strides i_ax in
      let* ns := resolve u n in
      let* x := set_axis idx (slice_size ns) (Some 0) (DReal ns) o x in
      Ok (axis_skip, S idx, off, x)
  | Pick u =>
      let* n := rd shape i_ax in
      let* '(f, sz, step) := slice_getter u n in
      let* o := rd strides i_ax in
      let* x := set_axis idx sz (Some (step * o)) DFake 0 x in
      Ok (axis_skip, S idx, off + f * o, x)
  end.

(** xstrided_view_base.hpp 834-958: strided_view_args::fill_args with adj_strides_policy.
    [junk], [junk']: what the freshly resized new_strides and new_adj_strides contain. *)
Definition dfill_args (shape strides : list Z) (base_offset : Z) (l : layout) (slices : list item)
  (junk junk' : list Z) : res (axes * Z * layout) :=
  let n := Z.of_nat (length shape) in
  let* '(dimension, n_newaxis, dimension_check, has_ellipsis) :=
    for_each count_item slices (n, 0, n, false) in
  if dimension_check <? 0 then Throw runtime_error else
  let n_add_all :=
    if has_ellipsis then Z.to_nat (n - (Z.of_nat (length slices) - 1 - n_newaxis)) else 0%nat in
  let dim := Z.to_nat dimension in
  let x := (repeat 0 dim, firstn dim (junk ++ repeat 0 dim), repeat DFake dim, firstn dim (junk' ++ repeat 0 dim)) in
  let* '(axis_skip, idx, off, x) :=
    for_up (dfill_body shape strides n_add_all slices) 0 (length slices) (0, 0%nat, base_offset, x) in
  let i_ax := Z.to_nat (Z.of_nat (length slices) - axis_skip) in
  let* x := for_up (fun j x => copy_whole shape strides (i_ax + j) (idx + j) x) 0 (length shape - i_ax) x in
  let '(sh, st, _, _) := x in
  let* m := do_strides_match sh st l true in
  Ok (x, off, if m then l else dynamic).

(** xdynamic_view: the strided view below (xdynamic_view.hpp 382-397), m_slices and m_adj_strides. *)
Record dview := mk_dview { d_base : sview; d_slices : list dslice; d_adj : list Z }.

(** xdynamic_view.hpp 783-806: dynamic_view(e, slices). [T] is XTENSOR_DEFAULT_TRAVERSAL. *)
Definition dynamic_view (T : layout) (e : xexp) (slices : list item) (junk junk' : list Z) : res dview :=
  let* st := get_strides T e in
  let* '(sh, st, sls, ads, off, l) := dfill_args (x_shape e) st (get_offset e) (x_layout e) slices junk junk' in
  let* v := make_view T e sh st off l in
  Ok (mk_dview v sls ads).

Definition d_shape (v : dview) : list Z := w_shape (d_base v).
Definition d_storage (v : dview) (p : Z) : res cell := storage_at (w_flat (d_base v)) (w_base (d_base v)) p.

(** xdynamic_view.hpp 646-669: adjust_offset_impl *)
Fixpoint adjust_impl (v : dview) (idx : nat) (args : list Z) (off : Z) : res Z :=
  match args with
  | [] => Ok off
  | a :: args' =>
      let* sl := rd (d_slices v) idx in
      let* x := dslice_at sl a in
      let* s := rd (d_adj v) idx in
      adjust_impl v (S idx) args' (off + x * s)
  end.

(** xdynamic_view.hpp 627-644: adjust_offset(offset, args...) *)
Fixpoint adjust_offset (v : dview) (off : Z) (args : list Z) : res Z :=
  match args with
  | [] => Ok off
  | _ :: args' =>
      let dim := length (d_shape v) in
      if (dim <? length args)%nat then adjust_offset v off args'
      else adjust_impl v (dim - length args) args off
  end.

(** xdynamic_view.hpp 505-517: data_offset(): the first slice only. *)
Definition d_data_offset (v : dview) : res Z :=
  let* sl := rd (d_slices v) 0 in
  let* x := dslice_at sl 0 in
  let* s := rd (d_adj v) 0 in
  Ok (w_offset (d_base v) + x * s).

(** xdynamic_view.hpp 414-446: operator()(args...); without arguments it reads at data_offset(). *)
Definition d_call (v : dview) (args : list Z) : res cell :=
  match args with
  | [] => let* o := d_data_offset v in d_storage v o
  | _ =>
      let* o := data_offset (w_strides (d_base v)) args false in
      let* o := adjust_offset v (w_offset (d_base v) + o) args in
      d_storage v o
  end.

(** xdynamic_view.hpp 455-471: unchecked(args...): the computed offset is overwritten by
    adjust_offset(args...), whose first argument is the offset. Without arguments it does not compile. *)
Definition d_unchecked (v : dview) (a : Z) (args : list Z) : res cell :=
  let* _ := unchecked_data_offset dynamic (-1) (w_strides (d_base v)) (a :: args) in
  let* o := adjust_offset v a args in
  d_storage v o.

(** xdynamic_view.hpp 473-483: flat(i) *)
Definition d_flat (v : dview) (i : Z) : res cell :=
  let* o := d_data_offset v in d_storage v (o + i).

(** xdynamic_view.hpp 671-696: adjust_element_offset *)
Definition adjust_element (v : dview) (off : Z) (ix : list Z) : res Z :=
  let dim := length (d_shape v) in
  let loop_offset := (dim - length ix)%nat in
  let idx_offset := (length ix - dim)%nat in
  for_up (fun i res =>
    let* j := rd ix (i - loop_offset + idx_offset) in
    let* sl := rd (d_slices v) i in
    let* x := dslice_at sl j in
    let* s := rd (d_adj v) i in
    Ok (res + x * s)) loop_offset (dim - loop_offset) off.

(** xdynamic_view.hpp 485-503: element(first, last) *)
Definition d_element (v : dview) (ix : list Z) : res cell :=
  let* o := adjust_element v (w_offset (d_base v) + element_offset (w_strides (d_base v)) ix) ix in
  d_storage v o.
