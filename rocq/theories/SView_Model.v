(** Model of strided views: /repo/include/xtensor/views/xstrided_view_base.hpp
    and views/xstrided_view.hpp. A view is a shape, strides, an offset and a
    layout over the storage of an expression. What a view or an expression
    gives access to is not a value but a [cell]: reading and writing through the
    view are reading and writing that cell. Offsets are integers; in the code
    they are std::size_t, converted back to std::ptrdiff_t before use. *)
From Coq Require Import List ZArith Bool.
From Verif Require Import Prelude Strides_Model Slice_Model.
Import ListNotations.
Open Scope Z_scope.

(** An expression a view can be taken of. [x_direct] is has_data_interface: the
    expression has data(), strides() and data_offset() (containers, adaptors,
    strided views of them); otherwise (functions, broadcasts, generators, views
    of those) only shape() and element access exist and [x_strides], [x_offset]
    are not used. *)
Record xexp := mk_xexp {
  x_direct : bool;
  x_shape : list Z;
  x_strides : list Z;
  x_offset : Z;
  x_layout : layout }.

(** Where an element lives: a position of the underlying buffer, or the element
    of a lazy expression at a multi-index. *)
Inductive cell := Slot (p : Z) | Elem (ix : list Z).

(** e.element(ix): containers (containers/xcontainer.hpp 534-555) and strided
    views (xstrided_view_base.hpp 535-556) address their buffer with
    element_offset; a lazy expression computes its element. *)
Definition x_elem (e : xexp) (ix : list Z) : cell :=
  if x_direct e then Slot (x_offset e + element_offset (x_strides e) ix) else Elem ix.

(** xstrided_view_base.hpp 266-272: flat_adaptor_getter::get_strides, and the
    strides computed by flat_expression_adaptor's constructor, 696-704. *)
Definition flat_strides (L : layout) (e : xexp) : res (list Z) :=
  let* '(st, _, _) := compute_strides dynamic (x_shape e) L (repeat 0 (length (x_shape e))) None in
  Ok st.

(** xstrided_view_base.hpp 287-291 with 240-243 and 266-272: detail::get_strides<L>(e). *)
Definition get_strides (L : layout) (e : xexp) : res (list Z) :=
  if x_direct e then Ok (x_strides e) else flat_strides L e.

(** xstrided_view_base.hpp 281-285 with 235-238 and 261-264: detail::get_offset<L>(e). *)
Definition get_offset (e : xexp) : Z := if x_direct e then x_offset e else 0.

(** m_storage[p] (xstrided_view_base.hpp 230-233, 255-259, 727-742): the buffer
    of the expression, or a flat_expression_adaptor that turns the position back
    into a multi-index and takes that element of the expression. *)
Definition storage_at (L : layout) (e : xexp) (p : Z) : res cell :=
  if x_direct e then Ok (Slot p)
  else
    let* st := flat_strides L e in
    let* ix := unravel_noexcept p st L in
    Ok (Elem ix).

(** xstrided_view: the underlying expression, the layout of the flat adaptor used
    when it has no data interface, and the members of xstrided_view_base.hpp 206-212. *)
Record sview := mk_sview {
  w_base : xexp;
  w_flat : layout;
  w_shape : list Z;
  w_strides : list Z;
  w_back : list Z;
  w_offset : Z;
  w_layout : layout }.

(** xstrided_view_base.hpp 311-331: the constructor. *)
Definition make_view (L : layout) (e : xexp) (shape strides : list Z) (offset : Z) (l : layout) : res sview :=
  let* '(st, bs) := adapt_strides shape strides (Some (repeat 0 (length shape))) in
  match bs with
  | Some bs => Ok (mk_sview e L shape st bs offset l)
  | None => UB
  end.

(** xstrided_view_base.hpp 430-472 and 661-667: operator()(args...). The case
    without argument reads m_storage[m_offset]. *)
Definition w_call (v : sview) (args : list Z) : res cell :=
  let* o := data_offset (w_strides v) args false in
  storage_at (w_flat v) (w_base v) (w_offset v + o).

(** xstrided_view_base.hpp 493-526 and 669-675: unchecked(args...). *)
Definition w_unchecked (v : sview) (args : list Z) : res cell :=
  let* o := unchecked_data_offset dynamic (-1) (w_strides v) args in
  storage_at (w_flat v) (w_base v) (w_offset v + o).

(** xstrided_view_base.hpp 535-556 and 677-682: element(first, last). *)
Definition w_element (v : sview) (ix : list Z) : res cell :=
  storage_at (w_flat v) (w_base v) (w_offset v + element_offset (w_strides v) ix).

(** A view used as an expression. It has a data interface exactly when the
    expression below it has one (xstrided_view_base.hpp 580-599,
    provides_data_interface 88-92); storage() is then the same buffer. *)
Definition as_exp (v : sview) : xexp :=
  if x_direct (w_base v)
  then mk_xexp true (w_shape v) (w_strides v) (w_offset v) (w_layout v)
  else mk_xexp false (w_shape v) [] 0 (w_layout v).

(** xstrided_view.hpp 317-337: the members of the variant xstrided_slice: an
    integer, the range adaptors, all, newaxis and ellipsis. The already resolved
    xrange and xstepped_range are left out. *)
Inductive item := Pick (u : user_slice) | Ellipsis.

(** xstrided_view_base.hpp 795-832: slice_getter_impl on a range: first position,
    size and step. Any other slice gives zeros (807-811). *)
Definition slice_getter (u : user_slice) (size : Z) : res (Z * Z * Z) :=
  match u with
  | URange a b s =>
      let* sl := range_get a b s size in
      let* f := slice_at sl 0 in
      let* st := slice_step sl 0 1 in
      Ok (f, slice_size sl, st)
  | _ => Ok (0, 0, 0)
  end.

(** xstrided_view_base.hpp 843-871: the first loop of fill_args: the counters
    dimension, n_newaxis, dimension_check and the flag has_ellipsis. *)
Definition count_item (it : item) (s : Z * Z * Z * bool) : res (Z * Z * Z * bool) :=
  let '(dimension, n_newaxis, dimension_check, has_ellipsis) := s in
  match it with
  | Pick UNewaxis => Ok (dimension + 1, n_newaxis + 1, dimension_check, has_ellipsis)
  | Pick (UInt _) => Ok (dimension - 1, n_newaxis, dimension_check - 1, has_ellipsis)
  | Ellipsis => if has_ellipsis then Throw runtime_error
                else Ok (dimension, n_newaxis, dimension_check, true)
  | Pick _ => Ok (dimension, n_newaxis, dimension_check - 1, has_ellipsis)
  end.

(** State of the second loop: axis_skip, idx, new_offset, new_shape, new_strides. *)
Definition fstate := (Z * nat * Z * list Z * list Z)%type.

(** One axis copied: lines 918-919, 927-928, 951-952. *)
Definition copy_axis (shape strides : list Z) (i_ax idx : nat) (sh st : list Z) : res (list Z * list Z) :=
  let* n := rd shape i_ax in
  let* sh := wr sh idx n in
  let* s := rd strides i_ax in
  let* st := wr st idx s in
  Ok (sh, st).

(** xstrided_view_base.hpp 899-946: the body of the second loop. *)
Definition fill_body (shape strides : list Z) (n_add_all : nat) (slices : list item) (i : nat) (s : fstate)
  : res fstate :=
  let '(axis_skip, idx, off, sh, st) := s in
  let* it := rd slices i in
  let i_ax := Z.to_nat (Z.of_nat i - axis_skip) in
  match it with
  | Pick (UInt v) =>
      let* o := rd strides i_ax in
      Ok (axis_skip, idx, off + v * o, sh, st)
  | Pick UNewaxis =>
      let* sh := wr sh idx 1 in
      Ok (axis_skip + 1, S idx, off, sh, st)
  | Ellipsis =>
      let* '(sh, st) :=
        for_up (fun j '(sh, st) => copy_axis shape strides (i_ax + j) (idx + j) sh st) 0 n_add_all (sh, st) in
      Ok (axis_skip - Z.of_nat n_add_all + 1, (idx + n_add_all)%nat, off, sh, st)
  | Pick UAll =>
      let* '(sh, st) := copy_axis shape strides i_ax idx sh st in
      Ok (axis_skip, S idx, off, sh, st)
  | Pick u =>
      let* n := rd shape i_ax in
      let* '(f, sz, step) := slice_getter u n in
      let* o := rd strides i_ax in
      let* sh := wr sh idx sz in
      let* st := wr st idx (step * o) in
      Ok (axis_skip, S idx, off + f * o, sh, st)
  end.

(** xstrided_view_base.hpp 834-958: strided_view_args::fill_args with
    no_adj_strides_policy (xstrided_view.hpp 736-761). [junk] is what the freshly
    resized new_strides contain (resize of an svector does not initialise). *)
Definition fill_args (shape strides : list Z) (base_offset : Z) (l : layout) (slices : list item)
  (junk : list Z) : res (list Z * list Z * Z * layout) :=
  let n := Z.of_nat (length shape) in
  let* '(dimension, n_newaxis, dimension_check, has_ellipsis) :=
    for_each count_item slices (n, 0, n, false) in
  if dimension_check <? 0 then Throw runtime_error else
  let n_add_all :=
    if has_ellipsis then Z.to_nat (n - (Z.of_nat (length slices) - 1 - n_newaxis)) else 0%nat in
  let dim := Z.to_nat dimension in
  let new_shape := repeat 0 dim in
  let new_strides := firstn dim (junk ++ repeat 0 dim) in
  let* '(axis_skip, idx, off, sh, st) :=
    for_up (fill_body shape strides n_add_all slices) 0 (length slices)
      (0, 0%nat, base_offset, new_shape, new_strides) in
  let i_ax := Z.to_nat (Z.of_nat (length slices) - axis_skip) in
  let* '(sh, st) :=
    for_up (fun j '(sh, st) => copy_axis shape strides (i_ax + j) (idx + j) sh st) 0
      (length shape - i_ax) (sh, st) in
  let* m := do_strides_match sh st l true in
  Ok (sh, st, off, if m then l else dynamic).

(** xstrided_view.hpp 789-808: strided_view(e, slices). [T] is XTENSOR_DEFAULT_TRAVERSAL. *)
Definition strided_view (T : layout) (e : xexp) (slices : list item) (junk : list Z) : res sview :=
  let* st := get_strides T e in
  let* '(sh, st, off, l) := fill_args (x_shape e) st (get_offset e) (x_layout e) slices junk in
  make_view T e sh st off l.
