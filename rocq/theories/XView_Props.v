(** Property C19 for view(e, slices...): views alias the selected elements. *)
From Coq Require Import List ZArith Lia.
From Verif Require Import Prelude Strides_Model Strides_Spec Slice_Model Slice_Spec Container_Model Container_Spec Container_Proofs
  View_Spec SView_Model SView_Spec Manip_Spec XView_Model XView_Spec XView4_Proofs XView2_Proofs.
Import ListNotations.
Open Scope Z_scope.

(** C19, view(e, slices...) of any expression with any slices that may be applied
    to it, lists of kept or dropped positions included: the shape is the one the
    slices give; element() with an in-bounds index, possibly after leading indices
    in excess, is access to the element the slices select provided no integer
    comes after a newaxis; so are operator() and unchecked provided, besides, there
    is at most one newaxis. Missing from the full statement: the other
    combinations of newaxis and integers (see the refutations), ranges that run
    backwards (C17), dropped positions that are not increasing (C18). *)
Theorem C19_view_partial : forall (e : xexp) (us : list user_slice),
  wf_exp e -> valid true us (x_shape e) ->
  exists v, view e us = Ok v /\ view_shape us (x_shape e) (v_shape v) /\ is_shape (v_shape v) /\
    forall ix, in_bounds (v_shape v) ix ->
      exists jx, source_index us (x_shape e) ix jx /\ in_bounds (x_shape e) jx /\
        (no_int_after_newaxis us -> forall extra, v_element v (extra ++ ix) = Ok (x_elem e jx)) /\
        (one_newaxis us -> v_unchecked v ix = Ok (x_elem e jx) /\
           forall extra, v_call v (extra ++ ix) = Ok (x_elem e jx)).
Proof. exact view_element_lemma. Qed.
Print Assumptions C19_view_partial.

(** view(e, -1, newaxis(), drop(1), range(_, _, -2)) on a 2x3x4 lazy expression. *)
Example C19_case_view :
  let us := [UInt (-1); UNewaxis; UDrop [1]; URange None None (Some (-2))] in
  let e := mk_xexp false [2;3;4] [] 0 dynamic in
  valid true us [2;3;4] /\ wf_exp e /\ one_newaxis us /\ no_int_after_newaxis us /\
  (let* v := view e us in Ok (v_shape v)) = Ok [1;2;2] /\
  (let* v := view e us in v_call v [7;0;1;0]) = Ok (Elem [1;2;3]) /\
  (let* v := view e us in v_element v [7;0;1;0]) = Ok (Elem [1;2;3]).
Proof.
  cbn zeta. split.
  { apply va_int; [cbn; lia|]. apply va_new, va_drop; [reflexivity|cbn; auto|repeat constructor; cbn; lia|].
    apply va_range; [discriminate|right; left; vm_compute; discriminate|apply va_rest]. }
  split; [split; [repeat constructor; lia|discriminate]|].
  split; [cbn; repeat constructor|]. split; [cbn; repeat constructor|].
  repeat split; vm_compute; reflexivity.
Qed.

(** C19: a view without kept or dropped positions of an expression with a buffer
    reports strides, an offset and a layout that locate its elements in that
    buffer; when the layout is row or column major the linear iterators run over
    the elements in that order. [sl] is the static layout of the expression
    ([layout_true]: the expression itself reports its layout correctly). Missing:
    more slices, newaxis included, than axes (see the refutation), and what
    C19_view_partial misses. *)
Theorem C19_view_data_partial : forall (e : xexp) (us : list user_slice) (sl : layout) (fixed : bool),
  wf_exp e -> x_direct e = true -> layout_true e -> (is_order sl -> x_layout e = sl) ->
  valid true us (x_shape e) -> Forall no_list us -> (length us <= length (x_shape e))%nat ->
  exists v st o l, view e us = Ok v /\ is_strided_view v = true /\
    v_strides sl fixed v = Ok st /\ v_data_offset v = Ok o /\ v_layout sl fixed v = Ok l /\
    length st = length (v_shape v) /\
    (l <> dynamic -> is_order l) /\
    forall ix, in_bounds (v_shape v) ix ->
      exists jx, source_index us (x_shape e) ix jx /\ in_bounds (x_shape e) jx /\
        x_elem e jx = Slot (o + element_offset st ix) /\
        (l <> dynamic -> element_offset st ix = rank l (v_shape v) ix /\
           linear_at v (rank l (v_shape v) ix) = Ok (x_elem e jx)).
Proof. exact view_data_lemma. Qed.
Print Assumptions C19_view_data_partial.

(** view(a, 1, range(1, 3), all()) of a row major 2x4x5 container is contiguous;
    view(a, all(), 2) is not. *)
Example C19_case_data :
  let a := mk_xexp true [2;4;5] [20;5;1] 0 row_major in
  let us := [UInt 1; URange (Some 1) (Some 3) None; UAll] in
  wf_exp a /\ layout_true a /\ valid true us [2;4;5] /\ Forall no_list us /\
  (let* v := view a us in let* s := v_strides row_major true v in let* o := v_data_offset v in
   let* l := v_layout row_major true v in Ok (v_shape v, s, o, l)) = Ok ([2;5], [5;1], 25, row_major) /\
  (let* v := view a [UAll; UInt 2] in let* s := v_strides row_major true v in let* o := v_data_offset v in
   let* l := v_layout row_major true v in Ok (v_shape v, s, o, l)) = Ok ([2;5], [20;1], 10, dynamic).
Proof.
  cbn zeta. split; [split; [repeat constructor; lia|reflexivity]|].
  split. { intros _ ix H. cbn in H.
    inversion H as [|d1 i1 ds1 is1 B1 T1]; subst. inversion T1 as [|d2 i2 ds2 is2 B2 T2]; subst.
    inversion T2 as [|d3 i3 ds3 is3 B3 T3]; subst. inversion T3; subst.
    unfold element_offset, inner_product. cbn. unfold prod. cbn. lia. }
  split. { apply va_int; [cbn; lia|]. apply va_range; [discriminate|left; reflexivity|]. repeat constructor. }
  split; [repeat constructor|]. split; vm_compute; reflexivity.
Qed.

(** C19: assigning to an element of a view of a container changes the selected
    element of the container and no other. *)
Theorem C19_view_write_partial : forall (V : Type) (c : cont V) (us : list user_slice) (v : xview) (ix : list Z) (x : V),
  consistent c -> valid true us (ct_shape c) -> one_newaxis us ->
  view (of_cont c) us = Ok v -> in_bounds (v_shape v) ix ->
  exists jx c', source_index us (ct_shape c) ix jx /\ in_bounds (ct_shape c) jx /\
    v_assign v ix x c = Ok c' /\
    ct_shape c' = ct_shape c /\ ct_strides c' = ct_strides c /\ ct_layout c' = ct_layout c /\
    elt c' jx = Ok x /\
    forall jx', in_bounds (ct_shape c) jx' -> jx' <> jx -> elt c' jx' = elt c jx'.
Proof. exact view_write_lemma. Qed.
Print Assumptions C19_view_write_partial.

Example C19_case_view_write :
  let c := ck [2;3] column_major [1;2;3;4;5;6] in
  let us := [UKeep [1;-2]; UInt (-1)] in
  consistent c /\ valid true us [2;3] /\
  (let* v := view (of_cont c) us in let* c' := v_assign v [1] 50 c in Ok (v_shape v, ct_data c')) = Ok ([2], [1;2;3;4;50;6]).
Proof.
  cbn zeta. split; [apply ck_consistent; [repeat constructor; lia|right; reflexivity|reflexivity]|].
  split; [|vm_compute; reflexivity].
  apply va_keep; [reflexivity|repeat constructor; lia|]. apply va_int; [cbn; lia|apply va_rest].
Qed.

(** C19: row and col of a matrix; anything else is reported by an exception. *)
Theorem C19_row : forall (e : xexp) (i n m : Z), wf_exp e -> x_shape e = [n; m] -> - n <= i < n ->
  exists v, row e i = Ok v /\ v_shape v = [m] /\ forall k, 0 <= k < m -> v_call v [k] = Ok (x_elem e [from_end n i; k]).
Proof. exact row_lemma. Qed.
Print Assumptions C19_row.

Theorem C19_col : forall (e : xexp) (i n m : Z), wf_exp e -> x_shape e = [n; m] -> - m <= i < m ->
  exists v, col e i = Ok v /\ v_shape v = [n] /\ forall k, 0 <= k < n -> v_call v [k] = Ok (x_elem e [k; from_end m i]).
Proof. exact col_lemma. Qed.
Print Assumptions C19_col.

Theorem C19_row_col_throw : forall (e : xexp) (i : Z), length (x_shape e) <> 2%nat ->
  row e i = Throw invalid_argument /\ col e i = Throw invalid_argument.
Proof. exact row_throws_lemma. Qed.
Print Assumptions C19_row_col_throw.

Example C19_case_row :
  let a := mk_xexp true [3;4] [4;1] 0 row_major in
  wf_exp a /\ (let* v := row a (-1) in v_call v [2]) = Ok (Slot 10) /\ (let* v := col a 1 in v_call v [2]) = Ok (Slot 9) /\
  row (mk_xexp true [3] [1] 0 row_major) 0 = Throw invalid_argument.
Proof. cbn zeta. split; [split; [repeat constructor; lia|reflexivity]|]. repeat split; vm_compute; reflexivity. Qed.

(** C19 fails for operator() when two newaxis precede an axis: a wrong slice is
    applied, silently. *)
Theorem C19_two_newaxis_refuted :
  exists e us v ix jx, wf_exp e /\ valid true us (x_shape e) /\ no_int_after_newaxis us /\ view e us = Ok v /\
    in_bounds (v_shape v) ix /\ source_index us (x_shape e) ix jx /\
    v_element v ix = Ok (x_elem e jx) /\ v_call v ix <> Ok (x_elem e jx) /\ is_ok (v_call v ix) = true.
Proof. exact two_newaxis_lemma. Qed.
Print Assumptions C19_two_newaxis_refuted.

(** C19 fails for operator() and element() when an integer comes after a newaxis. *)
Theorem C19_int_after_newaxis_refuted :
  exists e us v ix jx, wf_exp e /\ valid true us (x_shape e) /\ view e us = Ok v /\
    in_bounds (v_shape v) ix /\ source_index us (x_shape e) ix jx /\
    v_call v ix <> Ok (x_elem e jx) /\ is_ok (v_call v ix) = true /\
    v_element v ix <> Ok (x_elem e jx) /\ is_ok (v_element v ix) = true.
Proof. exact int_after_newaxis_lemma. Qed.
Print Assumptions C19_int_after_newaxis_refuted.

(** C19: with more slices than axes data_offset() is wrong. *)
Theorem C19_view_offset_refuted :
  exists e us v st o ix jx, wf_exp e /\ x_direct e = true /\ layout_true e /\ valid true us (x_shape e) /\
    Forall no_list us /\ view e us = Ok v /\ v_strides dynamic false v = Ok st /\ v_data_offset v = Ok o /\
    in_bounds (v_shape v) ix /\ source_index us (x_shape e) ix jx /\
    x_elem e jx <> Slot (o + element_offset st ix).
Proof. exact data_offset_lemma. Qed.
Print Assumptions C19_view_offset_refuted.

(** C19 and C04: a call with fewer indices than dimensions, which elsewhere reads
    the missing leading indices as 0, applies the slices to the wrong axes. *)
Theorem C19_short_call_refuted :
  exists e us v i jx, wf_exp e /\ valid true us (x_shape e) /\ view e us = Ok v /\
    length (v_shape v) = 2%nat /\ in_bounds (v_shape v) [0; i] /\ source_index us (x_shape e) [0; i] jx /\
    v_call v [0; i] = Ok (x_elem e jx) /\ v_call v [i] <> v_call v [0; i] /\ is_ok (v_call v [i]) = true.
Proof. exact short_call_lemma. Qed.
Print Assumptions C19_short_call_refuted.

(** C19 and C04: element() of a view reads missing indices as trailing zeros,
    element() of the container it views as leading zeros. *)
Theorem C19_short_element_refuted :
  exists e us v i, wf_exp e /\ valid true us (x_shape e) /\ view e us = Ok v /\
    us = [UAll; UAll] /\ in_bounds (v_shape v) [0; i] /\
    v_element v [0; i] = Ok (x_elem e [i]) /\ v_element v [i] <> Ok (x_elem e [i]) /\ is_ok (v_element v [i]) = true.
Proof. exact short_element_lemma. Qed.
Print Assumptions C19_short_element_refuted.

(** C19 and C04: a view of one dimension called without arguments gives an element
    that is not in the view. *)
Theorem C19_no_argument_refuted :
  exists e us v c, wf_exp e /\ valid true us (x_shape e) /\ view e us = Ok v /\ v_shape v = [2] /\
    v_call v [] = Ok c /\ forall i, in_bounds (v_shape v) [i] -> v_call v [i] <> Ok c /\ is_ok (v_call v [i]) = true.
Proof. exact no_argument_lemma. Qed.
Print Assumptions C19_no_argument_refuted.
