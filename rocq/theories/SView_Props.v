(** Property C19 for strided_view(e, slices): views alias the selected elements. *)
From Coq Require Import List ZArith Lia.
From Verif Require Import Prelude Strides_Model Strides_Spec Slice_Model Slice_Spec Container_Model Container_Spec Container_Proofs
  View_Spec SView_Model SView_Spec SView4_Proofs.
Import ListNotations.
Open Scope Z_scope.

(** C19, strided views of any expression, with any slices that may be applied to
    it and an ellipsis anywhere: the shape is the one the slices give, every
    access to an in-bounds index is access to the element the slices select, and a
    reported row or column major layout is that of the strides. Whatever the
    uninitialised strides of new axes hold ([junk]). Missing from the full
    statement: negative integers (see the refutation) and ranges that run
    backwards (C17). *)
Theorem C19_strided_view_partial : forall (T : layout) (e : xexp) (ss : list item) (junk : list Z),
  T = row_major \/ T = column_major -> wf_exp e -> (ellipses ss <= 1)%nat ->
  valid false (expand (length (x_shape e)) ss) (x_shape e) ->
  exists v, strided_view T e ss junk = Ok v /\
    view_shape (expand (length (x_shape e)) ss) (x_shape e) (w_shape v) /\
    wf_exp (as_exp v) /\ x_shape (as_exp v) = w_shape v /\
    (forall ix, in_bounds (w_shape v) ix ->
      exists jx, source_index (expand (length (x_shape e)) ss) (x_shape e) ix jx /\
        in_bounds (x_shape e) jx /\ reads v ix (x_elem e jx)) /\
    (w_layout v <> dynamic -> w_layout v = x_layout e /\ is_order (w_layout v) /\
      forall ix, in_bounds (w_shape v) ix -> element_offset (w_strides v) ix = rank (w_layout v) (w_shape v) ix).
Proof. exact strided_view_lemma. Qed.
Print Assumptions C19_strided_view_partial.

(** strided_view(a, {1, ellipsis(), newaxis(), range(4, _, -2)}) on a 2x3x5 container
    and on a lazy expression of that shape. *)
Example C19_case_strided :
  let ss := [Pick (UInt 1); Ellipsis; Pick UNewaxis; Pick (URange (Some 4) None (Some (-2)))] in
  let a := mk_xexp true [2;3;5] [15;5;1] 0 row_major in
  let f := mk_xexp false [2;3;5] [] 0 dynamic in
  valid false (expand 3 ss) [2;3;5] /\ ellipses ss = 1%nat /\ wf_exp a /\ wf_exp f /\
  expand 3 ss = [UInt 1; UAll; UNewaxis; URange (Some 4) None (Some (-2))] /\
  (let* v := strided_view row_major a ss [7;7;7] in Ok (w_shape v)) = Ok [3;1;3] /\
  (let* v := strided_view row_major a ss [7;7;7] in w_call v [2;0;1]) = Ok (x_elem a [1;2;2]) /\
  (let* v := strided_view row_major f ss [7;7;7] in w_call v [2;0;1]) = Ok (Elem [1;2;2]) /\
  (let* v := strided_view column_major f ss [7;7;7] in w_call v [2;0;1]) = Ok (Elem [1;2;2]).
Proof.
  cbn zeta. split.
  { apply va_int; [cbn; lia|]. apply va_all, va_new, va_range; [discriminate| |apply va_rest].
    right. left. vm_compute. discriminate. }
  split; [reflexivity|]. split; [split; [repeat constructor; lia|reflexivity]|].
  split; [split; [repeat constructor; lia|discriminate]|].
  repeat split; vm_compute; reflexivity.
Qed.

(** C19: two ellipses, or more slices than axes, are reported by an exception. *)
Theorem C19_strided_view_throws : forall (T : layout) (e : xexp) (ss : list item) (junk : list Z),
  T = row_major \/ T = column_major -> wf_exp e ->
  (2 <= ellipses ss)%nat \/ (length (x_shape e) < consumed ss)%nat ->
  strided_view T e ss junk = Throw runtime_error.
Proof. exact strided_view_throws_lemma. Qed.
Print Assumptions C19_strided_view_throws.

Example C19_case_throws :
  strided_view row_major (mk_xexp true [2;3] [3;1] 0 row_major) [Pick UAll; Pick UNewaxis; Pick UAll; Pick (UInt 0)] []
    = Throw runtime_error /\
  strided_view row_major (mk_xexp true [2;3] [3;1] 0 row_major) [Ellipsis; Pick UAll; Ellipsis] [] = Throw runtime_error.
Proof. split; vm_compute; reflexivity. Qed.

(** C19: distinct elements of the view are distinct elements of the expression. *)
Theorem C19_strided_view_injective : forall (us : list user_slice) (sh ix ix' jx : list Z),
  valid false us sh -> source_index us sh ix jx -> source_index us sh ix' jx -> ix = ix'.
Proof. intros us sh ix ix' jx Hv H1 H2. exact (source_inj us sh ix jx H1 ix' Hv H2). Qed.
Print Assumptions C19_strided_view_injective.

(** C19: assigning to an element of a view of a container changes the selected
    element of the container and no other. *)
Theorem C19_strided_view_write_partial :
  forall (V : Type) (T : layout) (c : cont V) (ss : list item) (junk : list Z) (v : sview) (ix : list Z) (x : V),
  T = row_major \/ T = column_major -> consistent c -> (ellipses ss <= 1)%nat ->
  valid false (expand (length (ct_shape c)) ss) (ct_shape c) ->
  strided_view T (of_cont c) ss junk = Ok v -> in_bounds (w_shape v) ix ->
  exists jx c', source_index (expand (length (ct_shape c)) ss) (ct_shape c) ix jx /\ in_bounds (ct_shape c) jx /\
    w_assign v ix x c = Ok c' /\
    ct_shape c' = ct_shape c /\ ct_strides c' = ct_strides c /\ ct_layout c' = ct_layout c /\
    elt c' jx = Ok x /\
    forall jx', in_bounds (ct_shape c) jx' -> jx' <> jx -> elt c' jx' = elt c jx'.
Proof. exact write_lemma. Qed.
Print Assumptions C19_strided_view_write_partial.

Example C19_case_write :
  let c := ck [2;3] column_major [1;2;3;4;5;6] in
  let ss := [Pick UAll; Pick (URange (Some 2) None (Some (-2)))] in
  consistent c /\ valid false (expand 2 ss) [2;3] /\
  (let* v := strided_view row_major (of_cont c) ss [] in
   let* c' := w_assign v [1;0] 60 c in Ok (ct_data c')) = Ok [1;2;3;4;5;60].
Proof.
  cbn zeta. split; [apply ck_consistent; [repeat constructor; lia|right; reflexivity|reflexivity]|].
  split; [|vm_compute; reflexivity].
  apply va_all, va_range; [discriminate| |apply va_rest]. right. left. vm_compute. discriminate.
Qed.

(** C19: a view of a view gives access to the elements selected by both. *)
Theorem C19_strided_view_of_view_partial :
  forall (T : layout) (e : xexp) (ss1 ss2 : list item) (junk1 junk2 : list Z) (v1 : sview),
  T = row_major \/ T = column_major -> wf_exp e -> x_direct e = true ->
  (ellipses ss1 <= 1)%nat -> (ellipses ss2 <= 1)%nat ->
  valid false (expand (length (x_shape e)) ss1) (x_shape e) ->
  strided_view T e ss1 junk1 = Ok v1 ->
  valid false (expand (length (w_shape v1)) ss2) (w_shape v1) ->
  exists v2, strided_view T (as_exp v1) ss2 junk2 = Ok v2 /\
    view_shape (expand (length (w_shape v1)) ss2) (w_shape v1) (w_shape v2) /\
    forall ix, in_bounds (w_shape v2) ix ->
      exists jx kx, source_index (expand (length (w_shape v1)) ss2) (w_shape v1) ix jx /\
        source_index (expand (length (x_shape e)) ss1) (x_shape e) jx kx /\ in_bounds (x_shape e) kx /\
        reads v2 ix (x_elem e kx).
Proof. exact compose_lemma. Qed.
Print Assumptions C19_strided_view_of_view_partial.

Example C19_case_of_view :
  let a := mk_xexp true [4;5] [5;1] 0 row_major in
  (let* v1 := strided_view row_major a [Pick (URange (Some 1) None None); Pick UNewaxis] [9;9;9] in
   let* v2 := strided_view row_major (as_exp v1) [Pick (UInt 2); Ellipsis; Pick (URange None None (Some 2))] [] in
   let* c := w_call v2 [0;2] in Ok (w_shape v2, c)) = Ok ([1;3], x_elem a [3;4]).
Proof. vm_compute. reflexivity. Qed.

(** C19 fails for strided_view(a, {-1}): the element is before the beginning of the buffer. *)
Theorem C19_strided_view_negative_integer_refuted :
  let e := mk_xexp true [3] [1] 0 row_major in
  exists v, wf_exp e /\ strided_view row_major e [Pick (UInt (-1))] [] = Ok v /\ w_shape v = [] /\
    source_index [UInt (-1)] [3] [] [2] /\ x_elem e [2] = Slot 2 /\ w_call v [] = Ok (Slot (-1)).
Proof. exact negative_int_lemma. Qed.
Print Assumptions C19_strided_view_negative_integer_refuted.

(** The reported layout of a view with a new axis depends on uninitialised memory. *)
Theorem C19_newaxis_layout_refuted :
  let e := mk_xexp true [3] [1] 0 row_major in
  exists j1 j2 v1 v2, wf_exp e /\ valid false [UNewaxis; UAll] [3] /\
    strided_view row_major e [Pick UNewaxis; Pick UAll] j1 = Ok v1 /\
    strided_view row_major e [Pick UNewaxis; Pick UAll] j2 = Ok v2 /\ w_layout v1 <> w_layout v2.
Proof. exact newaxis_layout_lemma. Qed.
Print Assumptions C19_newaxis_layout_refuted.
