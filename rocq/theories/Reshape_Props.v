(** Property C67: reshape_view, ravel and flatten. *)
From Coq Require Import List ZArith Bool Lia.
From Verif Require Import Prelude Strides_Model Strides_Spec Access_Model Slice_Model Container_Spec SView_Model SView_Spec
  Stepper_Model Stepper_Spec Reshape_Model Reshape_Spec Reshape_Proofs.
Import ListNotations.
Open Scope Z_scope.

(** C67: reshape_view<L>(e, shape) for any expression [e] and any shape with as many elements:
    the element at an index of the view is the element of [e] with the same rank in the order L. *)
Theorem C67_elements : forall (L : layout) (e : xexp) (shape : list Z),
  is_order L -> is_shape (x_shape e) -> is_shape shape -> Forall (fun n => n < 2 ^ 64) shape -> prod shape = prod (x_shape e) ->
  exists v, reshape_view L None e shape = Ok v /\ rearranges L v shape (x_shape e).
Proof. exact elements_lemma. Qed.
Print Assumptions C67_elements.

Example C67_case_elements :
  let e := mk_xexp true [2; 6] [1; 2] 0 column_major in
  (let* v := reshape_view row_major None e [3; 1; 4] in w_element v [1; 0; 3]) = Ok (Elem [1; 1]) /\
  (let* v := reshape_view column_major None e [3; 1; 4] in w_element v [1; 0; 3]) = Ok (Elem [0; 5]).
Proof. split; vm_compute; reflexivity. Qed.

(** C67: one extent of a shape of signed numbers may be -1: when the other extents are positive,
    have a product that is an int and leave a whole number [m] of elements for that axis, the
    view is the one of the shape with [m] there. [b] is the number of bits of the extents. *)
Theorem C67_missing : forall (L : layout) (b : Z) (e : xexp) (pre post : list Z) (m : Z),
  1 <= b -> Forall (fun n => 0 < n) pre -> Forall (fun n => 0 < n) post -> prod (pre ++ post) < 2 ^ 31 ->
  0 <= m < 2 ^ (b - 1) -> prod (pre ++ m :: post) = prod (x_shape e) ->
  reshape_view L (Some b) e (pre ++ -1 :: post) = reshape_view L None e (pre ++ m :: post).
Proof. exact missing_lemma. Qed.
Print Assumptions C67_missing.

Example C67_case_missing : exists v, reshape_view row_major (Some 32) (mk_xexp false [4; 6] [] 0 row_major) [3; -1; 2] = Ok v /\
  w_shape v = [3; 4; 2] /\ prod ([3] ++ 4 :: [2]) = prod [4; 6] /\ w_element v [2; 1; 1] = Ok (Elem [3; 1]).
Proof. eexists. split; [vm_compute; reflexivity|]. repeat split; vm_compute; reflexivity. Qed.

(** C67 as documented, "the shape with one extent -1", fails when the product of the other
    extents is not an int: signed overflow, although the new shape has the right size. *)
Theorem C67_missing_overflow_refuted : exists (e : xexp) (pre post : list Z) (m : Z),
  Forall (fun n => 0 < n) pre /\ Forall (fun n => 0 < n) post /\ 0 <= m < 2 ^ 31 /\ prod (pre ++ m :: post) = prod (x_shape e) /\
  reshape_view row_major (Some 64) e (pre ++ -1 :: post) = UB.
Proof.
  exists (mk_xexp false [2; 65536; 65536] [] 0 row_major), [], [65536; 65536], 2.
  split; [constructor|]. split; [repeat constructor; lia|]. split; [lia|]. split; vm_compute; reflexivity.
Qed.
Print Assumptions C67_missing_overflow_refuted.

(** An extent 0 beside the -1 divides by zero. *)
Theorem C67_missing_zero_refuted : forall (L : layout) (e : xexp) (b : Z), reshape_view L (Some b) e [0; -1] = UB.
Proof. reflexivity. Qed.
Print Assumptions C67_missing_zero_refuted.

(** Two extents -1 are accepted: the first becomes 0 and the second 2^64 - 1, whatever the expression. *)
Theorem C67_missing_twice_refuted : forall (L : layout) (e : xexp), is_order L -> 0 <= compute_size (x_shape e) < 2 ^ 64 - 1 ->
  exists v, reshape_view L (Some 64) e [-1; -1] = Ok v /\ w_shape v = [0; 2 ^ 64 - 1].
Proof. exact missing_twice_lemma. Qed.
Print Assumptions C67_missing_twice_refuted.

Example C67_case_missing_twice : 0 <= compute_size (x_shape (mk_xexp false [4; 6] [] 0 row_major)) < 2 ^ 64 - 1.
Proof. vm_compute. split; [discriminate|reflexivity]. Qed.

(** Sizes are never checked. When the other extents do not divide the number of elements,
    the last elements are silently not in the view. *)
Theorem C67_missing_rest_refuted : exists (e : xexp) (v : sview) (jx : list Z),
  reshape_view row_major (Some 64) e [-1; 3] = Ok v /\ in_bounds (x_shape e) jx /\
  forall ix, in_bounds (w_shape v) ix -> w_element v ix <> Ok (Elem jx).
Proof.
  exists (mk_xexp false [7] [] 0 row_major). eexists. exists [6]. split; [vm_compute; reflexivity|].
  split; [repeat constructor; lia|]. intros ix H. cbn [w_shape] in H. inversion H as [|n1 i sh1 ix1 Hi H1]; subst.
  inversion H1 as [|n2 j sh2 ix2 Hj H2]; subst. inversion H2; subst.
  assert (i = 0 \/ i = 1) as [ -> | -> ] by lia; assert (j = 0 \/ j = 1 \/ j = 2) as [ -> | [ -> | -> ] ] by lia; vm_compute; discriminate.
Qed.
Print Assumptions C67_missing_rest_refuted.

(** And a shape with more elements than the expression gives a view whose indices lead
    outside the expression. *)
Theorem C67_size_refuted : exists (e : xexp) (v : sview) (ix jx : list Z),
  reshape_view row_major None e [3; 3] = Ok v /\ in_bounds (w_shape v) ix /\ w_element v ix = Ok (Elem jx) /\ ~ in_bounds (x_shape e) jx.
Proof.
  exists (mk_xexp false [2; 3] [] 0 row_major). eexists. exists [2; 2], [2; 2]. split; [vm_compute; reflexivity|].
  split; [repeat constructor; lia|]. split; [vm_compute; reflexivity|]. intros H. inversion H; subst. cbn in *. lia.
Qed.
Print Assumptions C67_size_refuted.

(** The overload with an order does not know -1: the extent becomes 2^64 - 1. *)
Theorem C67_order_refuted : exists (e : xexp) (v w : sview), let shape := [-1; 3] in
  reshape_view row_major (Some 32) e shape = Ok v /\ w_shape v = [2; 3] /\
  reshape_view_order row_major e shape row_major = Ok w /\ w_shape w = [2 ^ 64 - 1; 3].
Proof.
  exists (mk_xexp false [6] [] 0 row_major). eexists. eexists. cbn zeta. split; [vm_compute; reflexivity|]. split; [reflexivity|].
  split; [vm_compute; reflexivity|]. reflexivity.
Qed.
Print Assumptions C67_order_refuted.

(** C67: flat(k) and the k-th element from begin<L>() to end<L>(), when [e] has the static layout
    L, are the k-th element of [e] in the order L, and there are as many as elements in [shape]. *)
Theorem C67_position : forall (L : layout) (e : xexp) (shape : list Z) (v : sview),
  is_order L -> is_shape (x_shape e) -> is_shape shape -> Forall (fun n => n < 2 ^ 64) shape ->
  reshape_view L None e shape = Ok v ->
  linear_end v - linear_begin v = prod shape /\
  forall k jx, in_bounds (x_shape e) jx -> rank L (x_shape e) jx = Z.of_nat k ->
    w_flat_at v (Z.of_nat k) = Ok (Elem jx) /\ forward v k = Ok (Elem jx).
Proof.
  intros L e shape v HL He Hs Hb E. split; [exact (size_lemma L e shape v HL Hs Hb E)|].
  intros k jx. exact (position_lemma L e shape v k jx HL He Hs Hb E).
Qed.
Print Assumptions C67_position.

Example C67_case_position :
  let v := reshape_view column_major None (mk_xexp false [2; 3] [] 0 column_major) [3; 2] in
  map (fun k => let* v := v in forward v k) [0; 1; 2; 3; 4; 5; 6]%nat =
  [Ok (Elem [0; 0]); Ok (Elem [1; 0]); Ok (Elem [0; 1]); Ok (Elem [1; 1]); Ok (Elem [0; 2]); Ok (Elem [1; 2]); UB].
Proof. vm_compute. reflexivity. Qed.

(** Backwards it never works: rbegin() and rend() are exchanged, so that every element from
    rbegin() on is before the first one and rend() is never reached. *)
Theorem C67_reverse_refuted : forall (L : layout) (e : xexp) (shape : list Z) (v : sview),
  is_order L -> is_shape shape -> Forall (fun n => n < 2 ^ 64) shape -> reshape_view L None e shape = Ok v -> 0 < prod shape ->
  forall k, backward v k = UB /\ linear_rbegin v - Z.of_nat k <> linear_rend v.
Proof. exact backward_lemma. Qed.
Print Assumptions C67_reverse_refuted.

Example C67_case_reverse : exists v, reshape_view row_major None (mk_xexp false [2; 3] [] 0 row_major) [3; 2] = Ok v /\ 0 < prod [3; 2] /\
  backward v 0 = UB.
Proof. eexists. split; [vm_compute; reflexivity|]. split; vm_compute; reflexivity. Qed.

(** flat(i) of a strided view that does not start at the first element of its expression is
    not the element at position i of the view: the offset is left out. *)
Theorem C67_flat_refuted : exists (e : xexp) (v : sview), x_direct e = true /\ wf_exp e /\
  strided_view row_major e [Pick (UInt 1)] [] = Ok v /\ in_bounds (w_shape v) [0] /\
  w_element v [0] = Ok (x_elem e [1; 0]) /\ w_flat_at v 0 = Ok (x_elem e [0; 0]) /\ x_elem e [0; 0] <> x_elem e [1; 0].
Proof.
  exists (mk_xexp true [2; 3] [3; 1] 0 row_major). eexists. split; [reflexivity|].
  split; [split; [repeat constructor; lia|reflexivity]|]. split; [vm_compute; reflexivity|].
  split; [repeat constructor; lia|]. split; [reflexivity|]. split; [reflexivity|]. vm_compute. discriminate.
Qed.
Print Assumptions C67_flat_refuted.

(** C67: ravel<L>(e), or flatten<L>(e): element i is the i-th element of [e] in the order L.
    Missing: expressions that cannot be traversed backwards (C35), as the proof goes through
    the iterators that can. *)
Theorem C67_ravel_partial : forall (V : Type) (L : layout) (sh : list Z) (e : sexp V) (ix : list Z),
  is_order L -> operands_ok sh e -> sh = [] \/ reversible L e -> in_bounds sh ix ->
  ravel_at sh L e (rank L sh ix) = x_value ix e.
Proof. exact @ravel_lemma. Qed.
Print Assumptions C67_ravel_partial.

Example C67_case_ravel :
  let row := XStrided (mk_container [3] [1] [2] 0) [1; 2; 3] in
  let col := XStrided (mk_container [2; 1] [1; 0] [1; 0] 0) [10; 20] in
  let e := XFun (fun vs => fold_right Z.add 0 vs) [row; col] in
  map (ravel_at [2; 3] column_major e) [0; 1; 2; 3; 4; 5] = [Ok 11; Ok 21; Ok 12; Ok 22; Ok 13; Ok 23].
Proof. vm_compute. reflexivity. Qed.
