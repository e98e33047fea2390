(** Property C68: dynamic views. *)
From Coq Require Import List ZArith Bool Lia.
From Verif Require Import Prelude Strides_Model Strides_Spec Slice_Model Slice_Spec View_Spec SView_Model SView_Spec
  DView_Model DView_Spec DView2_Proofs.
Import ListNotations.
Open Scope Z_scope.

(** C68, for in-range slices with integers that are not negative and with at least one argument
    for operator(): dynamic_view(e, slices) has the shape numpy indexing gives, and v(ix...) and
    v.element(ix) at any index are the element of [e] that numpy indexing gives, whatever the
    freshly allocated strides contained. *)
Theorem C68_elements_partial : forall (T : layout) (e : xexp) (ss : list item) (junk junk' : list Z),
  T = row_major \/ T = column_major -> wf_exp e -> (ellipses ss <= 1)%nat ->
  valid true (expand (length (x_shape e)) ss) (x_shape e) -> plain_ints (expand (length (x_shape e)) ss) ->
  exists v, dynamic_view T e ss junk junk' = Ok v /\
    view_shape (expand (length (x_shape e)) ss) (x_shape e) (d_shape v) /\ is_shape (d_shape v) /\
    forall ix, in_bounds (d_shape v) ix ->
      exists jx, source_index (expand (length (x_shape e)) ss) (x_shape e) ix jx /\
        in_bounds (x_shape e) jx /\ d_reads v ix (x_elem e jx).
Proof.
  intros T e ss junk junk' HT He Hel Hv Hp.
  destruct (dynamic_view_lemma T e ss junk junk' HT He Hel Hv Hp) as (v & E & S1 & S2 & _ & R). exists v. auto.
Qed.
Print Assumptions C68_elements_partial.

(** dynamic_view(a, {keep(3, 0, -1), ellipsis(), newaxis(), drop(1), 1}) on a container of shape
    {4, 2, 3, 2} and on a lazy expression of that shape. *)
Example C68_case_elements :
  let ss := [Pick (UKeep [3; 0; -1]); Ellipsis; Pick UNewaxis; Pick (UDrop [1]); Pick (UInt 1)] in
  let a := mk_xexp true [4; 2; 3; 2] [12; 6; 2; 1] 0 row_major in
  let f := mk_xexp false [4; 2; 3; 2] [] 0 dynamic in
  valid true (expand 4 ss) [4; 2; 3; 2] /\ plain_ints (expand 4 ss) /\ ellipses ss = 1%nat /\ wf_exp a /\ wf_exp f /\
  (let* v := dynamic_view row_major a ss [7; 7; 7; 7] [8; 8; 8; 8] in Ok (d_shape v)) = Ok [3; 2; 1; 2] /\
  (let* v := dynamic_view row_major a ss [7; 7; 7; 7] [8; 8; 8; 8] in d_call v [0; 1; 0; 1]) = Ok (x_elem a [3; 1; 2; 1]) /\
  (let* v := dynamic_view row_major f ss [7; 7; 7; 7] [8; 8; 8; 8] in d_call v [9; 0; 1; 0; 1]) = Ok (Elem [3; 1; 2; 1]) /\
  (let* v := dynamic_view column_major f ss [7; 7; 7; 7] [8; 8; 8; 8] in d_element v [1; 1; 0; 1]) = Ok (Elem [0; 1; 2; 1]).
Proof.
  cbn zeta. split.
  { apply va_keep; [reflexivity|repeat constructor; lia|]. apply va_all, va_new, va_drop; [reflexivity| |repeat constructor; cbn; lia|].
    - repeat constructor.
    - apply va_int; [cbn; lia|]. apply va_rest. }
  split; [repeat constructor; lia|]. split; [reflexivity|]. split; [split; [repeat constructor; lia|reflexivity]|].
  split; [split; [repeat constructor; lia|discriminate]|].
  repeat split; vm_compute; reflexivity.
Qed.

(** C68: two ellipses, or more slices than axes, are reported by an exception. *)
Theorem C68_throws : forall (T : layout) (e : xexp) (ss : list item) (junk junk' : list Z),
  T = row_major \/ T = column_major -> wf_exp e ->
  (2 <= ellipses ss)%nat \/ (length (x_shape e) < consumed ss)%nat ->
  dynamic_view T e ss junk junk' = Throw runtime_error.
Proof. exact dynamic_view_throws_lemma. Qed.
Print Assumptions C68_throws.

Example C68_case_throws :
  dynamic_view row_major (mk_xexp true [2;3] [3;1] 0 row_major) [Pick (UKeep [0]); Pick UNewaxis; Pick UAll; Pick (UInt 0)] [] []
    = Throw runtime_error /\
  dynamic_view row_major (mk_xexp true [2;3] [3;1] 0 row_major) [Ellipsis; Pick (UDrop [0]); Ellipsis] [] [] = Throw runtime_error.
Proof. split; vm_compute; reflexivity. Qed.

(** C68, v() of a view without axes, fails for every such view: it reads the first of no slices.
    v.element() of the same view is right. *)
Theorem C68_scalar_refuted : forall (T : layout) (e : xexp) (ss : list item) (junk junk' : list Z),
  T = row_major \/ T = column_major -> wf_exp e -> (ellipses ss <= 1)%nat ->
  valid true (expand (length (x_shape e)) ss) (x_shape e) -> plain_ints (expand (length (x_shape e)) ss) ->
  view_shape (expand (length (x_shape e)) ss) (x_shape e) [] ->
  exists v, dynamic_view T e ss junk junk' = Ok v /\ d_call v [] = UB /\
    exists jx, source_index (expand (length (x_shape e)) ss) (x_shape e) [] jx /\ d_element v [] = Ok (x_elem e jx).
Proof. exact scalar_lemma. Qed.
Print Assumptions C68_scalar_refuted.

Example C68_case_scalar :
  let e := mk_xexp true [2; 3] [3; 1] 0 row_major in
  let ss := [Pick (UInt 1); Pick (UInt 2)] in
  valid true (expand 2 ss) [2; 3] /\ plain_ints (expand 2 ss) /\ view_shape (expand 2 ss) [2; 3] [] /\
  (let* v := dynamic_view row_major e ss [] [] in d_element v []) = Ok (x_elem e [1; 2]).
Proof.
  split; [repeat (apply va_int; [lia|]); apply va_rest|]. split; [repeat constructor; lia|].
  split; [apply vs_int, vs_int, vs_rest|vm_compute; reflexivity].
Qed.

(** C68 for unchecked(ix...) is false: v.unchecked(1, 1) is not v(1, 1); all the slices are all(). *)
Theorem C68_unchecked_refuted : exists (e : xexp) (ss : list item) (v : dview),
  wf_exp e /\ ellipses ss = 0%nat /\ valid true (expand (length (x_shape e)) ss) (x_shape e) /\
  dynamic_view row_major e ss [] [] = Ok v /\ in_bounds (d_shape v) [1; 1] /\
  d_call v [1; 1] = Ok (x_elem e [1; 1]) /\ d_unchecked v 1 [1] = Ok (x_elem e [0; 1]).
Proof. exact unchecked_lemma. Qed.
Print Assumptions C68_unchecked_refuted.

(** C68 with missing leading arguments, which elsewhere count as zeros, is false after a keep:
    v(1) and v.element({1}) are not v(0, 1). *)
Theorem C68_missing_refuted : exists (e : xexp) (ss : list item) (v : dview),
  wf_exp e /\ ellipses ss = 0%nat /\ valid true (expand (length (x_shape e)) ss) (x_shape e) /\
  dynamic_view row_major e ss [] [] = Ok v /\ in_bounds (d_shape v) [0; 1] /\
  d_call v [0; 1] = Ok (x_elem e [2; 1]) /\ d_call v [1] = Ok (x_elem e [0; 1]) /\ d_element v [1] = Ok (x_elem e [0; 1]).
Proof. exact missing_args_lemma. Qed.
Print Assumptions C68_missing_refuted.

(** C68 for flat(i) and data_offset() is false: they are adjusted by the first slice only. The
    first element of this view is not at data_offset(), and v.flat(0) is not v(0, 0). *)
Theorem C68_flat_refuted : exists (e : xexp) (ss : list item) (v : dview),
  wf_exp e /\ ellipses ss = 0%nat /\ valid true (expand (length (x_shape e)) ss) (x_shape e) /\
  dynamic_view row_major e ss [] [] = Ok v /\ in_bounds (d_shape v) [0; 0] /\
  d_call v [0; 0] = Ok (Slot 5) /\ d_data_offset v = Ok 3 /\ d_flat v 0 = Ok (Slot 3).
Proof. exact flat_lemma. Qed.
Print Assumptions C68_flat_refuted.

(** C68 with a negative integer is false: it is not counted from the end. *)
Theorem C68_negative_int_refuted : exists (e : xexp) (ss : list item) (v : dview),
  wf_exp e /\ ellipses ss = 0%nat /\ valid true (expand (length (x_shape e)) ss) (x_shape e) /\
  dynamic_view row_major e ss [] [] = Ok v /\ in_bounds (d_shape v) [0] /\
  source_index (expand (length (x_shape e)) ss) (x_shape e) [0] [1; 0] /\ x_elem e [1; 0] = Slot 3 /\
  d_call v [0] = Ok (Slot (-3)).
Proof. exact negative_lemma. Qed.
Print Assumptions C68_negative_int_refuted.
