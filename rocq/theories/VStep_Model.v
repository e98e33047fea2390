(** Model of xview_stepper, /repo/include/xtensor/views/xview.hpp 782-840 and
    1996-2292: the stepper of the views that are not strided, that is views of
    expressions without a buffer and views with keep or drop slices
    (xview.hpp 332-340). It drives a stepper of the viewed expression.
    Step sizes are std::size_t in the code and integers here: a negative step size
    wraps around, and so does the pointer or index it is added to. *)
From Coq Require Import List ZArith Bool.
From Verif Require Import Prelude Strides_Model Slice_Model SView_Model XView_Model Stepper_Model.
Import ListNotations.
Open Scope Z_scope.

(** m_it and m_index_keeper, lines 836-839. *)
Record vst (S : Type) : Type := mk_vst { vt_it : S; vt_keep : list Z }.
Arguments mk_vst {S}. Arguments vt_it {S}. Arguments vt_keep {S}.

(** is_newaxis_slice, lines 2114-2119. *)
Definition is_newaxis_slice (ss : list slice) (index : nat) : bool :=
  negb (newaxis_count_before ss (index + 1) =? newaxis_count_before ss index)%nat.

Section ViewStepper.
(** The stepper of the viewed expression, the shape of that expression, the
    slices, the shape of the view and m_offset. *)
Context {S : Type} (sub : stepper_ops S) (esh : list Z) (ss : list slice) (vsh : list Z) (off : nat).

(** common_step_forward(dim, f) and common_step_forward(dim, n, f), lines
    2173-2216; the first one is the second one with n = 1. *)
Definition vs_step (dim : nat) (n : Z) (st : vst S) : res (vst S) :=
  if (off <=? dim)%nat then
    let index := integral_skip ss dim in
    if is_newaxis_slice ss index then Ok st
    else
      let axis := (index - newaxis_count_before ss index)%nat in
      if (index <? length ss)%nat then
        let* s := rd ss index in
        let* k := rd (vt_keep st) dim in
        let* size := slice_step s k n in
        let* keep := wr (vt_keep st) dim (k + n) in
        let* it := s_step sub axis size (vt_it st) in
        Ok (mk_vst it keep)
      else
        let* it := s_step sub axis n (vt_it st) in
        Ok (mk_vst it (vt_keep st))
  else Ok st.

(** common_step_backward, lines 2218-2261: the keeper is moved first. *)
Definition vs_step_back (dim : nat) (n : Z) (st : vst S) : res (vst S) :=
  if (off <=? dim)%nat then
    let index := integral_skip ss dim in
    if is_newaxis_slice ss index then Ok st
    else
      let axis := (index - newaxis_count_before ss index)%nat in
      if (index <? length ss)%nat then
        let* s := rd ss index in
        let* k := rd (vt_keep st) dim in
        let* keep := wr (vt_keep st) dim (k - n) in
        let* size := slice_step s (k - n) n in
        let* it := s_step_back sub axis size (vt_it st) in
        Ok (mk_vst it keep)
      else
        let* it := s_step_back sub axis n (vt_it st) in
        Ok (mk_vst it (vt_keep st))
  else Ok st.

(** common_reset, lines 2263-2291; no test of m_offset. [backwards] also selects
    the function applied to the stepper (reset and reset_back, lines 2080-2098). *)
Definition vs_common_reset (backwards : bool) (dim : nat) (st : vst S) : res (vst S) :=
  let index := integral_skip ss dim in
  if is_newaxis_slice ss index then Ok st
  else
    let* keep :=
      (if (dim <? length (vt_keep st))%nat then
         let* size := (if (index <? length ss)%nat then let* s := rd ss index in Ok (slice_size s)
                       else rd vsh dim) in
         wr (vt_keep st) dim (if backwards then size - 1 else 0)
       else Ok (vt_keep st)) in
    let* n := (if (index <? length ss)%nat then
                 let* s := rd ss index in
                 let* b := slice_at s (slice_size s - 1) in
                 let* a := slice_at s 0 in
                 Ok (b - a)
               else let* d := rd vsh dim in Ok (d - 1)) in
    let axis := (index - newaxis_count_before ss index)%nat in
    let* it := (if backwards then s_step sub axis n (vt_it st) else s_step_back sub axis n (vt_it st)) in
    Ok (mk_vst it keep).

(** Constructor with end = false, lines 1999-2029: from the first element of the
    viewed expression to the first element of every slice. *)
Definition vs_start (it : S) : res (vst S) :=
  let* it := for_up (fun i it =>
    if is_newaxis_slice ss i then Ok it
    else
      let* s := rd ss i in
      let* v := slice_at s 0 in
      s_step sub (i - newaxis_count_before ss i) v it) 0 (length ss) it in
  Ok (mk_vst it (repeat 0 (length ss))).

(** to_begin, lines 2100-2105. *)
Definition vs_to_begin (st : vst S) : res (vst S) :=
  let* it := s_to_begin sub (vt_it st) in
  Ok (mk_vst it (map (fun _ => 0) (vt_keep st))).

(** The loops at the end of to_end_impl, lines 2146-2170: the keeper of the last
    (row major) or first (column major) slice that is not a newaxis. *)
Fixpoint last_axis_slice (i : nat) : option nat :=
  match i with
  | O => None
  | Datatypes.S i' => if is_newaxis_slice ss i' then last_axis_slice i' else Some i'
  end.
Definition first_axis_slice : option nat :=
  find (fun i => negb (is_newaxis_slice ss i)) (seq 0 (length ss)).

(** to_end_impl, lines 2121-2171. The keeper is indexed by the number of the slice
    here and by the axis of the view everywhere else. *)
Definition vs_to_end_impl (l : layout) (st : vst S) : res (vst S) :=
  let* st := for_up (fun i st =>
    if is_newaxis_slice ss i then Ok st
    else
      let* s := rd ss i in
      let* v := slice_at s (slice_size s - 1) in
      let* keep := wr (vt_keep st) i (slice_size s - 1) in
      let axis := (i - newaxis_count_before ss i)%nat in
      let* d := rd esh axis in
      let* it := s_step_back sub axis (d - 1 - v) (vt_it st) in
      Ok (mk_vst it keep)) 0 (length ss) st in
  match l with
  | row_major | column_major =>
      match (match l with row_major => last_axis_slice (length ss) | _ => first_axis_slice end) with
      | Some i => let* k := rd (vt_keep st) i in
                  let* keep := wr (vt_keep st) i (k + 1) in
                  Ok (mk_vst (vt_it st) keep)
      | None => Ok st
      end
  | _ => Throw runtime_error
  end.

(** to_end, lines 2107-2112. *)
Definition vs_to_end (l : layout) (st : vst S) : res (vst S) :=
  let* it := s_to_end sub l (vt_it st) in
  vs_to_end_impl l (mk_vst it (vt_keep st)).

(** Lines 2040-2112. *)
Definition vs_ops : stepper_ops (vst S) :=
  mk_ops vs_step vs_step_back (vs_common_reset false) (vs_common_reset true) vs_to_begin vs_to_end.
End ViewStepper.

(** ** Views of expressions, iterated *)

(** view(e, slices...) where e has shape [esh]: the slices and the shape of the
    view (XView_Model). *)
Definition view_of (esh : list Z) (us : list user_slice) : res (list slice * list Z) :=
  let* v := view (mk_xexp false esh [] 0 dynamic) us in
  Ok (v_slices v, v_shape v).

(** stepper_begin(dst), lines 1933-1946 and 1967-1979. *)
Definition view_stepper_begin {V} (e : sexp V) (esh : list Z) (ss : list slice) : res (vst sstate) :=
  vs_start (x_ops esh e) ss (x_begin e).
(** stepper_end(dst, l), lines 1948-1963 and 1981-1994, with the constructor, lines
    2028-2031. The keeper is not initialised: [junk] is what it holds. *)
Definition view_stepper_end {V} (e : sexp V) (esh : list Z) (ss : list slice) (junk : list Z) (l : layout)
  : res (vst sstate) :=
  let* it := x_end esh l e in
  vs_to_end_impl (x_ops esh e) esh ss l (mk_vst it junk).

(** begin and end of the view (core/xiterable.hpp). *)
Definition view_it_begin {V} (e : sexp V) (esh : list Z) (ss : list slice) (vsh : list Z) (l : layout)
  : res (@iter (vst sstate)) :=
  let* st := view_stepper_begin e esh ss in it_make vsh l st false.
Definition view_it_end {V} (e : sexp V) (esh : list Z) (ss : list slice) (vsh : list Z) (junk : list Z) (l : layout)
  : res (@iter (vst sstate)) :=
  let* st := view_stepper_end e esh ss junk l in it_make vsh l st true.

(** operator*, lines 2034-2038, and that of the iterator. *)
Definition view_it_deref {V} (e : sexp V) (it : @iter (vst sstate)) : res V :=
  let '(st, _, _) := it in x_deref e (vt_it st).

(** The value read by the assignment loop (core/xassign.hpp 651-665) after k steps
    over the destination shape [dst]. *)
Definition view_walk {V} (e : sexp V) (esh : list Z) (ss : list slice) (vsh : list Z) (dst : list Z) (l : layout) (k : nat)
  : res V :=
  let* st := view_stepper_begin e esh ss in
  let* '(_, st) := walk (vs_ops (x_ops esh e) esh ss vsh (length dst - length vsh)) dst l k (map (fun _ => 0) dst) st in
  x_deref e (vt_it st).

(** *(view.rbegin() + n): the n-th element backwards from end(). *)
Definition view_reverse {V} (e : sexp V) (esh : list Z) (us : list user_slice) (junk : list Z) (l : layout) (n : nat) : res V :=
  let* '(ss, vsh) := view_of esh us in
  let* en := view_it_end e esh ss vsh junk l in
  let* it := it_dec_k (vs_ops (x_ops esh e) esh ss vsh 0) vsh l (S n) en in
  view_it_deref e it.
