(** Model of the manipulation functions that return strided views:
    /repo/include/xtensor/misc/xmanipulation.hpp. The functions take the
    expression as an [xexp] and give the view ([sview]). [T] is
    XTENSOR_DEFAULT_TRAVERSAL, the layout of the flat adaptor of expressions
    without data, and [D] is XTENSOR_DEFAULT_LAYOUT. *)
From Coq Require Import List ZArith Bool.
From Verif Require Import Prelude Strides_Model Slice_Model SView_Model.
Import ListNotations.
Open Scope Z_scope.

(** 125-137: transpose_layout_noexcept. *)
Definition transpose_layout_noexcept (l : layout) : layout :=
  match l with row_major => column_major | column_major => row_major | _ => l end.

(** 139-146: transpose_layout. *)
Definition transpose_layout (l : layout) : res layout :=
  match l with
  | row_major | column_major => Ok (transpose_layout_noexcept l)
  | _ => Throw transpose_error
  end.

(** 214-229: compute_transposed_strides. *)
Definition compute_transposed_strides (T : layout) (e : xexp) (shape : list Z) : res (list Z) :=
  if x_direct e then Ok (rev (x_strides e))
  else
    let* l := transpose_layout T in
    let* '(st, _, _) := compute_strides dynamic shape l (repeat 0 (length shape)) None in
    Ok st.

(** 238-259: transpose(e). *)
Definition transpose (T : layout) (e : xexp) : res sview :=
  let shape := rev (x_shape e) in
  let* strides := compute_transposed_strides T e shape in
  make_view T e shape strides (get_offset e) (transpose_layout_noexcept (x_layout e)).

(** std::is_sorted, with < and with std::greater<>. *)
Fixpoint is_sorted (lt : Z -> Z -> bool) (l : list Z) : bool :=
  match l with
  | a :: ((b :: _) as t) => negb (lt b a) && is_sorted lt t
  | _ => true
  end.

(** 148-196: transpose_impl(e, permutation, check_policy::none). It uses
    e.strides(), so the expression has a data interface. The conversion to
    std::size_t makes a negative axis larger than any dimension. *)
Definition transpose_none (T : layout) (e : xexp) (perm : list Z) : res sview :=
  let n := length (x_shape e) in
  if negb (length perm =? n)%nat then Throw transpose_error else
  let* '(sh, st) :=
    for_up (fun i '(sh, st) =>
      let* p := rd perm i in
      if (p <? 0) || (Z.of_nat n <=? p) then Throw transpose_error else
      let* a := rd (x_shape e) (Z.to_nat p) in
      let* sh := wr sh i a in
      let* b := rd (x_strides e) (Z.to_nat p) in
      let* st := wr st i b in
      Ok (sh, st)) 0 n (repeat 0 n, repeat 0 n) in
  let l := if is_sorted Z.ltb perm then x_layout e
           else if is_sorted Z.gtb perm then transpose_layout_noexcept (x_layout e)
           else dynamic in
  make_view T e sh st (get_offset e) l.

(** 197-212: transpose_impl(e, permutation, check_policy::full). *)
Definition transpose_full (T : layout) (e : xexp) (perm : list Z) : res sview :=
  let n := length perm in
  let* _ :=
    for_up (fun i _ =>
      for_up (fun j _ =>
        let* a := rd perm i in
        let* b := rd perm j in
        if a =? b then Throw transpose_error else Ok tt) (i + 1) (n - (i + 1)) tt) 0 n tt in
  transpose_none T e perm.

(** utils/xexception.hpp 287-299: check_axis_in_dim. *)
Definition check_axis_in_dim (axis : Z) (dim : nat) : res unit :=
  if (Z.of_nat dim <=? axis) || (axis <? - Z.of_nat dim) then Throw out_of_range else Ok tt.

(** utils/xutils.hpp 377-381: normalize_axis. *)
Definition normalize_axis (dim : nat) (axis : Z) : Z := if axis <? 0 then Z.of_nat dim + axis else axis.

(** std::iota from 0. *)
Definition iota (n : nat) : list Z := map Z.of_nat (seq 0 n).

(** 291-302: swapaxes_perm. *)
Definition swapaxes_perm (dim : nat) (axis1 axis2 : Z) : res (list Z) :=
  let ax1 := normalize_axis dim axis1 in
  let ax2 := normalize_axis dim axis2 in
  let* perm := wrz (iota dim) ax1 ax2 in
  wrz perm ax2 ax1.

(** 315-324: swapaxes. *)
Definition swapaxes (T : layout) (e : xexp) (axis1 axis2 : Z) : res sview :=
  let dim := length (x_shape e) in
  let* _ := check_axis_in_dim axis1 dim in
  let* _ := check_axis_in_dim axis2 dim in
  let* perm := swapaxes_perm dim axis1 axis2 in
  transpose_none T e perm.

(** 332-358: moveaxis_perm. State: perm, perm_idx. *)
Definition moveaxis_perm (dim : nat) (src dest : Z) : res (list Z) :=
  let src_norm := normalize_axis dim src in
  let dest_norm := normalize_axis dim dest in
  let* '(perm, _) :=
    for_up (fun i '(perm, k) =>
      let* '(perm, k) :=
        if Z.of_nat k =? dest_norm then (let* perm := wr perm k src_norm in Ok (perm, (k + 1)%nat))
        else Ok (perm, k) in
      if negb (Z.of_nat i =? src_norm) then (let* perm := wr perm k (Z.of_nat i) in Ok (perm, (k + 1)%nat))
      else Ok (perm, k)) 0 dim (repeat src_norm dim, 0%nat) in
  Ok perm.

(** 369-378: moveaxis. *)
Definition moveaxis (T : layout) (e : xexp) (src dest : Z) : res sview :=
  let dim := length (x_shape e) in
  let* _ := check_axis_in_dim src dim in
  let* _ := check_axis_in_dim dest dim in
  let* perm := moveaxis_perm dim src dest in
  transpose_none T e perm.

(** 514-540: squeeze(e). *)
Definition squeeze (D T : layout) (e : xexp) : res sview :=
  let* old := get_strides D e in
  make_view T e (filter (fun i => negb (i =? 1)) (x_shape e)) (filter (fun i => negb (i =? 0)) old) 0 (x_layout e).

(** 545-563: squeeze_impl(e, axis, check_policy::none). The axes are integers of
    any type; they are compared with the std::size_t loop counter. A new dimension
    that is negative in the model is a huge std::size_t in the code: the
    allocation of the new shape fails, and the call is left undefined here. *)
Definition squeeze_none (D T : layout) (e : xexp) (axes : list Z) : res sview :=
  let n := length (x_shape e) in
  if (n <? length axes)%nat then UB else
  let new_dim := (n - length axes)%nat in
  let* old := get_strides D e in
  let* '(sh, st, _) :=
    for_up (fun i '(sh, st, ix) =>
      if existsb (Z.eqb (Z.of_nat i)) axes then Ok (sh, st, ix)
      else
        let* a := rd (x_shape e) i in
        let* sh := wr sh ix a in
        let* b := rd old i in
        let* st := wr st ix b in
        Ok (sh, st, (ix + 1)%nat)) 0 n (repeat 0 new_dim, repeat 0 new_dim, 0%nat) in
  make_view T e sh st 0 (x_layout e).

(** 566-580: squeeze_impl(e, axis, check_policy::full). *)
Definition squeeze_full (D T : layout) (e : xexp) (axes : list Z) : res sview :=
  let* _ :=
    for_each (fun ix _ =>
      if (ix <? 0) || (Z.of_nat (length (x_shape e)) <? ix) then Throw runtime_error else
      let* a := rd (x_shape e) (Z.to_nat ix) in
      if negb (a =? 1) then Throw runtime_error else Ok tt) axes tt in
  squeeze_none D T e axes.

(** 634-640: expand_dims. *)
Definition expand_dims (T : layout) (e : xexp) (axis : nat) (junk : list Z) : res sview :=
  let* sv := wr (repeat (Pick UAll) (length (x_shape e) + 1)) axis (Pick UNewaxis) in
  strided_view T e sv junk.

(** 659-678: atleast_Nd. The double std::round((N - d) / N) is 1 when
    2 (N - d) >= N and 0 otherwise, the quotient being in (0, 1]. *)
Definition atleast_Nd (T : layout) (N : nat) (e : xexp) (junk : list Z) : res sview :=
  let d := length (x_shape e) in
  let sv := repeat (Pick UAll) (Nat.max d N) in
  let* sv :=
    if (d <? N)%nat then
      let end_ := if (N <=? 2 * (N - d))%nat then 1%nat else 0%nat in
      let* sv := for_up (fun i sv => wr sv i (Pick UNewaxis)) 0 end_ sv in
      for_up (fun i sv => wr sv i (Pick UNewaxis)) (end_ + d) (N - (end_ + d)) sv
    else Ok sv in
  strided_view T e sv junk.

(** 733-758: split. *)
Definition split (T : layout) (e : xexp) (n axis : nat) (junk : nat -> list Z) : res (list sview) :=
  if (length (x_shape e) <=? axis)%nat then Throw runtime_error else
  let* ax_sz := rd (x_shape e) axis in
  let sv := repeat (Pick UAll) (length (x_shape e)) in
  let* step := cdiv ax_sz (Z.of_nat n) in
  let* rest := crem ax_sz (Z.of_nat n) in
  if negb (rest =? 0) then Throw runtime_error else
  let* '(_, result) :=
    for_up (fun i '(sv, result) =>
      let* sv := wr sv axis (Pick (URange (Some (Z.of_nat i * step)) (Some ((Z.of_nat i + 1) * step)) None)) in
      let* v := strided_view T e sv (junk i) in
      Ok (sv, result ++ [v])) 0 n (sv, []) in
  Ok result.

(** 824-844: flip(e, axis). It uses e.data_offset(), so the expression has a data
    interface. The default layout argument is dynamic (views/xstrided_view.hpp 345-346). *)
Definition flip (T : layout) (e : xexp) (axis : nat) : res sview :=
  let* s := rd (x_strides e) axis in
  let* st := wr (x_strides e) axis (s * -1) in
  let* n := rd (x_shape e) axis in
  make_view T e (x_shape e) st (x_offset e + s * (n - 1)) dynamic.

(** 850-907: rot90_impl. For n = 0 the expression itself is returned, here as the
    view with its shape, strides and layout. *)
Definition rot90_impl (T : layout) (n : Z) (e : xexp) (ax0 ax1 : Z) : res sview :=
  let swapped :=
    let l := iota (length (x_shape e)) in
    let* a := rdz l ax0 in
    let* b := rdz l ax1 in
    let* l := wrz l ax0 b in
    wrz l ax1 a in
  if n =? 0 then make_view T e (x_shape e) (x_strides e) (x_offset e) (x_layout e)
  else if n =? 1 then
    let* perm := swapped in
    let* f := flip T e (Z.to_nat ax1) in
    transpose_none T (as_exp f) perm
  else if n =? 2 then
    let* f := flip T e (Z.to_nat ax0) in
    flip T (as_exp f) (Z.to_nat ax1)
  else
    let* perm := swapped in
    let* t := transpose_none T e perm in
    flip T (as_exp t) (Z.to_nat ax1).

(** 920-934: rot90<N>(e, axes). N is a compile-time constant; N % 4 has the sign of
    N. forward_normalize (utils/xutils.hpp 427-454) only asserts that the axes are
    within the dimension. *)
Definition rot90 (T : layout) (N : Z) (e : xexp) (axis0 axis1 : Z) : res sview :=
  let ndim := length (x_shape e) in
  if (axis0 =? axis1) || (Z.abs (axis0 - axis1) =? Z.of_nat ndim) then Throw runtime_error else
  rot90_impl T (Z.rem (4 + Z.rem N 4) 4) e (normalize_axis ndim axis0) (normalize_axis ndim axis1).

(** 801-811: flip(e) without an axis, on an expression e whose buffer is [data]. The
    loop assigns flip(r, d), whose type differs from that of r, to the view r:
    xview_semantic::operator= (core/xsemantic.hpp 658-735) evaluates it into a
    temporary, because both sides overlap, and writes the values through r into the
    buffer of e. The order of the writes is immaterial and here row-major. The view
    r itself stays flip(e, 0). *)
Fixpoint indices (sh : list Z) : list (list Z) :=
  match sh with
  | [] => [[]]
  | n :: sh => flat_map (fun i => map (cons (Z.of_nat i)) (indices sh)) (seq 0 (Z.to_nat n))
  end.
Definition read_cell {V} (data : list V) (c : res cell) : res V :=
  match c with Ok (Slot p) => rdz data p | Throw x => Throw x | _ => UB end.
Definition write_cell {V} (data : list V) (c : res cell) (x : V) : res (list V) :=
  match c with Ok (Slot p) => wrz data p x | Throw x => Throw x | _ => UB end.
Definition view_assign {V} (r f : sview) (data : list V) : res (list V) :=
  let* tmp := for_each (fun ix tmp => let* x := read_cell data (w_element f ix) in Ok (tmp ++ [x])) (indices (w_shape f)) [] in
  for_each (fun '(ix, x) data => write_cell data (w_element r ix) x) (combine (indices (w_shape r)) tmp) data.
Definition flip_all {V} (T : layout) (e : xexp) (data : list V) : res (sview * list V) :=
  let* r := flip T e 0 in
  let* data := for_up (fun d data => let* f := flip T (as_exp r) d in view_assign r f data) 1 (length (x_shape e) - 1) data in
  Ok (r, data).
