(** C61: the iterators over the slices of a tensor. C62: fill of strided views. *)
From Coq Require Import List ZArith Lia.
From Verif Require Import Prelude Strides_Model Strides_Spec Access_Model Slice_Model Container_Model Container_Spec View_Spec
  SView_Model SView_Spec AxisIt_Model AxisIt_Spec AxisIt_Proofs AxisIt2_Proofs AxisIt3_Proofs.
Import ListNotations.
Open Scope Z_scope.

(** C61. After k increments of axis_begin(e, axis), k smaller than the extent of the
    axis, the iterator gives the view of the elements of e with index k on that
    axis. For all strides, negative ones included; the elements of e have positions
    that fit a std::size_t. *)
Theorem C61_axis_slices : forall (e : xexp) (axis : nat) (n s : Z) (k : nat),
  wf_exp e -> x_direct e = true ->
  nth_error (x_shape e) axis = Some n -> nth_error (x_strides e) axis = Some s ->
  (forall i, 0 <= i < n -> 0 <= x_offset e + i * s < 2 ^ 64) ->
  Z.of_nat k < n ->
  exists b, axis_begin e axis = Ok b /\
    w_shape (axis_deref (axis_nexts k b)) = without axis (x_shape e) /\
    forall rest, in_bounds (without axis (x_shape e)) rest ->
      reads (axis_deref (axis_nexts k b)) rest (x_elem e (insert_at axis (Z.of_nat k) rest)).
Proof. intros e axis n s k We De En Es. exact (axis_lemma e axis n s We De En Es k). Qed.
Print Assumptions C61_axis_slices.

(** A view of the rows 1 and 2 of a 3x4 container, backwards along the columns. *)
Example C61_case_axis :
  let e := mk_xexp true [2;4] [4;-1] 7 dynamic in
  wf_exp e /\ (forall i, 0 <= i < 4 -> 0 <= x_offset e + i * -1 < 2 ^ 64) /\
  (let* b := axis_begin e 1 in w_call (axis_deref (axis_nexts 3 b)) [1]) = Ok (Slot 8) /\
  x_elem e (insert_at 1 3 [1]) = Slot 8.
Proof.
  cbn zeta. split; [split; [repeat constructor; lia|reflexivity]|]. split; [cbn [x_offset]; lia|].
  split; vm_compute; reflexivity.
Qed.

(** C61. An iterator over e equals axis_end(e, axis) when it has been incremented as
    many times as the axis has elements, and at no other time. Missing from the full
    statement: expressions that do not start at the beginning of their buffer (see the
    refutation). *)
Theorem C61_axis_end_partial : forall (e : xexp) (axis : nat) (n s : Z),
  wf_exp e -> x_direct e = true ->
  nth_error (x_shape e) axis = Some n -> nth_error (x_strides e) axis = Some s -> 0 <= n ->
  x_offset e = 0 ->
  exists b en, axis_begin e axis = Ok b /\ axis_end e axis = Ok en /\
    forall k, axis_equal (axis_nexts k b) en = true <-> Z.of_nat k = n.
Proof.
  intros e axis n s We De En Es Hn H0.
  destruct (axis_end_lemma e axis n s We De En Es ltac:(rewrite H0; lia) Hn) as (b & en & H1 & H2 & H3).
  exists b, en. split; [exact H1|]. split; [exact H2|]. intros k. rewrite H3. tauto.
Qed.
Print Assumptions C61_axis_end_partial.

Example C61_case_axis_end :
  let e := mk_xexp true [2;3;4] [12;4;1] 0 row_major in
  wf_exp e /\
  (let* b := axis_begin e 1 in let* en := axis_end e 1 in
   Ok (axis_equal (axis_nexts 2 b) en, axis_equal (axis_nexts 3 b) en)) = Ok (false, true).
Proof. split; [split; [repeat constructor; lia|reflexivity]|]. vm_compute. reflexivity. Qed.

(** The iterators over a view that does not start at the beginning of its buffer never
    become equal to axis_end: a loop up to it does not stop. *)
Theorem C61_axis_end_refuted : forall (e : xexp) (axis : nat) (n s : Z),
  wf_exp e -> x_direct e = true ->
  nth_error (x_shape e) axis = Some n -> nth_error (x_strides e) axis = Some s -> 0 <= n ->
  0 < x_offset e < 2 ^ 64 ->
  exists b en, axis_begin e axis = Ok b /\ axis_end e axis = Ok en /\
    forall k, axis_equal (axis_nexts k b) en = false.
Proof.
  intros e axis n s We De En Es Hn H0.
  destruct (axis_end_lemma e axis n s We De En Es ltac:(lia) Hn) as (b & en & H1 & H2 & H3).
  exists b, en. split; [exact H1|]. split; [exact H2|]. intros k.
  destruct (axis_equal (axis_nexts k b) en) eqn:E; [|reflexivity]. apply H3 in E. lia.
Qed.
Print Assumptions C61_axis_end_refuted.

(** strided_view(a, {range(1, 3), all()}) of a 3x4 container is such a view. *)
Example C61_case_axis_end_view :
  (let* v := strided_view row_major (mk_xexp true [3;4] [4;1] 0 row_major) [Pick (URange (Some 1) (Some 3) None); Pick UAll] [] in
   Ok (as_exp v)) = Ok (mk_xexp true [2;4] [4;1] 4 row_major) /\
  wf_exp (mk_xexp true [2;4] [4;1] 4 row_major).
Proof. split; [vm_compute; reflexivity|]. split; [repeat constructor; lia|reflexivity]. Qed.

(** C61. For a container in row or column major order, axis_slice_begin(e, axis)
    incremented as many times as there are indices of the other axes before [rest], in the
    order of the container, gives the elements of e with those indices on the other axes.
    Missing from the full statement: the axes of which slices_ok is not true (see
    C61_slices_refuted), tensors of dimension fixed at compile time, extents 0 and
    other strides. *)
Theorem C61_slices_partial : forall (l : layout) (e : xexp) (axis : nat) (n : Z) (rest : list Z),
  l = row_major \/ l = column_major -> packed l e ->
  Forall (fun d => 0 < d) (x_shape e) -> prod (x_shape e) < 2 ^ 64 ->
  nth_error (x_shape e) axis = Some n -> slices_ok l (x_shape e) axis ->
  in_bounds (without axis (x_shape e)) rest ->
  exists b it, slice_begin false e axis = Ok b /\
    slice_nexts (Z.to_nat (rank l (without axis (x_shape e)) rest)) b = Ok it /\
    w_shape (slice_deref it) = [n] /\
    forall j, 0 <= j < n -> reads (slice_deref it) [j] (x_elem e (insert_at axis j rest)).
Proof. intros l e axis n rest Hl Pe Pos Sz En. exact (slices_lemma l e axis n Hl Pe Pos Sz En rest). Qed.
Print Assumptions C61_slices_partial.

(** Whenever slices_ok is not true, a slice is not the right one: the condition is exact. *)
Theorem C61_slices_refuted : forall (l : layout) (e : xexp) (axis : nat) (n : Z),
  l = row_major \/ l = column_major -> packed l e ->
  Forall (fun d => 0 < d) (x_shape e) -> prod (x_shape e) < 2 ^ 64 ->
  nth_error (x_shape e) axis = Some n -> ~ slices_ok l (x_shape e) axis ->
  exists b it rest, in_bounds (without axis (x_shape e)) rest /\ slice_begin false e axis = Ok b /\
    slice_nexts (Z.to_nat (rank l (without axis (x_shape e)) rest)) b = Ok it /\
    ~ reads (slice_deref it) [0] (x_elem e (insert_at axis 0 rest)).
Proof. intros l e axis n Hl Pe Pos Sz En. exact (slices_wrong l e axis n Hl Pe Pos Sz En). Qed.
Print Assumptions C61_slices_refuted.

(** Axis 1 of a 2x3x4 container (C61_slices_partial), and axis 2 of a 2x2x2x2 container
    (C61_slices_refuted): slice number 4 should start at element (1,0,0,0), number 8. *)
Example C61_case_slices :
  let e := mk_xexp true [2;3;4] [12;4;1] 0 row_major in
  let e4 := mk_xexp true [2;2;2;2] [8;4;2;1] 0 row_major in
  packed row_major e /\ slices_ok row_major [2;3;4] 1 /\
  rank row_major [2;4] [1;2] = 6 /\
  (let* b := slice_begin false e 1 in let* it := slice_nexts 6 b in w_call (slice_deref it) [2]) = Ok (Slot 22) /\
  x_elem e [1;2;2] = Slot 22 /\
  packed row_major e4 /\ ~ slices_ok row_major [2;2;2;2] 2 /\
  rank row_major [2;2;2] [1;0;0] = 4 /\
  (let* b := slice_begin false e4 2 in let* it := slice_nexts 4 b in w_call (slice_deref it) [0]) = Ok (Slot 6) /\
  x_elem e4 [1;0;0;0] = Slot 8.
Proof.
  cbn zeta. repeat split; try (vm_compute; reflexivity).
  - intros k Hk. cbn in Hk. destruct k as [|[|[|k]]]; [reflexivity..|lia].
  - right. right. left. reflexivity.
  - intros k Hk. cbn in Hk. destruct k as [|[|[|[|k]]]]; [reflexivity..|lia].
  - intros [H|[H|[H|H]]]; [discriminate|discriminate|discriminate|]. vm_compute in H. apply H. reflexivity.
Qed.

(** Column major order: axis 1 of a 2x3x2 container. *)
Example C61_case_slices_column :
  let e := mk_xexp true [2;3;2] [1;2;6] 0 column_major in
  packed column_major e /\ slices_ok column_major [2;3;2] 1 /\ rank column_major [2;2] [1;1] = 3 /\
  (let* b := slice_begin false e 1 in let* it := slice_nexts 3 b in w_call (slice_deref it) [2]) = Ok (Slot 11) /\
  x_elem e [1;2;1] = Slot 11.
Proof.
  cbn zeta. repeat split; try (vm_compute; reflexivity).
  - intros k Hk. cbn in Hk. destruct k as [|[|[|k]]]; [reflexivity..|lia].
  - right. right. left. reflexivity.
Qed.

(** C61. The iterator equals axis_slice_end(e, axis) after as many increments as there
    are indices of the other axes, and at no other time. *)
Theorem C61_slice_end_partial : forall (l : layout) (e : xexp) (axis : nat) (n : Z),
  l = row_major \/ l = column_major -> packed l e ->
  Forall (fun d => 0 < d) (x_shape e) -> prod (x_shape e) < 2 ^ 64 ->
  nth_error (x_shape e) axis = Some n ->
  exists b en, slice_begin false e axis = Ok b /\ slice_end false e axis = Ok en /\
    forall k, exists it, slice_nexts k b = Ok it /\
      (slice_equal it en = true <-> Z.of_nat k = prod (without axis (x_shape e))).
Proof. intros l e axis n Hl Pe Pos Sz En. exact (slice_end_lemma l e axis n Hl Pe Pos Sz En). Qed.
Print Assumptions C61_slice_end_partial.

Example C61_case_slice_end :
  let e := mk_xexp true [2;3;4] [12;4;1] 0 row_major in
  packed row_major e /\ prod (without 1 (x_shape e)) = 8 /\
  (let* b := slice_begin false e 1 in let* en := slice_end false e 1 in
   let* i7 := slice_nexts 7 b in let* i8 := slice_nexts 8 b in Ok (slice_equal i7 en, slice_equal i8 en)) = Ok (false, true).
Proof.
  cbn zeta. repeat split; try (vm_compute; reflexivity).
  intros k Hk. cbn in Hk. destruct k as [|[|[|k]]]; [reflexivity..|lia].
Qed.

(** The slices along an axis of extent 0 cannot be visited: the increment divides by 0. *)
Theorem C61_slices_empty_refuted :
  let e := mk_xexp true [2;0] [0;1] 0 row_major in
  exists b en, packed row_major e /\ slice_begin false e 1 = Ok b /\ slice_end false e 1 = Ok en /\
    slice_equal b en = false /\ slice_next b = UB.
Proof.
  cbn zeta. do 2 eexists. split; [|repeat split; vm_compute; reflexivity]. repeat split.
  intros k Hk. cbn in Hk. destruct k as [|[|k]]; [reflexivity..|lia].
Qed.
Print Assumptions C61_slices_empty_refuted.

(** The slices of an xtensor, whose dimension is fixed, have extents 0 beside the
    extent of the axis: they have no elements. *)
Theorem C61_slices_fixed_refuted : forall (l : layout) (e : xexp) (axis : nat) (n s : Z),
  packed l e -> nth_error (x_shape e) axis = Some n -> nth_error (x_strides e) axis = Some s ->
  (2 <= length (x_shape e))%nat ->
  exists b, slice_begin true e axis = Ok b /\ forall ix, ~ in_bounds (w_shape (slice_deref b)) ix.
Proof. exact fixed_lemma. Qed.
Print Assumptions C61_slices_fixed_refuted.

(** The slices of a view with other strides: in the view of every second row of a 4x3
    container, without its last column, the second slice along axis 0 starts at position
    7 instead of 1. *)
Theorem C61_slices_strides_refuted :
  let a := mk_xexp true [4;3] [3;1] 0 row_major in
  let ss := [Pick (URange None None (Some 2)); Pick (URange None (Some 2) None)] in
  exists v b it, strided_view row_major a ss [] = Ok v /\ slice_begin false (as_exp v) 0 = Ok b /\
    slice_nexts 1 b = Ok it /\ w_shape (slice_deref it) = [2] /\
    w_call (slice_deref it) [0] = Ok (Slot 7) /\ x_elem (as_exp v) (insert_at 0 0 [1]) = Slot 1.
Proof. cbn zeta. do 3 eexists. repeat split; vm_compute; reflexivity. Qed.
Print Assumptions C61_slices_strides_refuted.

(** C62. v.fill(x), or v = x, on a view v = strided_view(e, slices) of an expression with a
    buffer sets the elements of v to x and changes nothing else. *)
Theorem C62_fill : forall (V : Type) (T : layout) (e : xexp) (ss : list item) (junk : list Z) (v : sview) (x : V) (buf : list V),
  T = row_major \/ T = column_major -> wf_exp e -> x_direct e = true -> (ellipses ss <= 1)%nat ->
  View_Spec.valid false (expand (length (x_shape e)) ss) (x_shape e) ->
  inside e (length buf) ->
  strided_view T e ss junk = Ok v ->
  exists buf', fill T v x buf = Ok buf' /\ filled_with v x buf buf'.
Proof. exact strided_view_fill_lemma. Qed.
Print Assumptions C62_fill.

(** A row, contiguous, and a column of a 2x3 container. *)
Example C62_case :
  let a := mk_xexp true [2;3] [3;1] 0 row_major in
  let row := [Pick (UInt 1); Pick UAll] in
  let col := [Pick UAll; Pick (UInt 1)] in
  wf_exp a /\ View_Spec.valid false (expand 2 row) [2;3] /\ View_Spec.valid false (expand 2 col) [2;3] /\ inside a 6 /\
  (let* v := strided_view row_major a row [] in Ok (w_layout v)) = Ok row_major /\
  (let* v := strided_view row_major a row [] in fill row_major v 9 [0;1;2;3;4;5]) = Ok [0;1;2;9;9;9] /\
  (let* v := strided_view row_major a col [] in Ok (w_layout v)) = Ok dynamic /\
  (let* v := strided_view row_major a col [] in fill row_major v 9 [0;1;2;3;4;5]) = Ok [0;9;2;3;9;5].
Proof.
  cbn zeta. split; [split; [repeat constructor; lia|reflexivity]|].
  split; [apply va_int; [cbn; lia|]; apply va_all, va_rest|].
  split; [apply va_all, va_int; [cbn; lia|]; apply va_rest|].
  split.
  - intros ix H. eexists. split; [reflexivity|]. cbn [x_offset x_strides x_shape] in *.
    inversion H as [|d i sh r Hi Hr]; subst. inversion Hr as [|d2 j sh2 r2 Hj Hr2]; subst. inversion Hr2; subst.
    unfold element_offset. cbn. lia.
  - repeat split; vm_compute; reflexivity.
Qed.

(** The views given by the slice iterators report the layout of the whole tensor, which
    they do not have: *it = x writes to other elements. In a 2x3 container the first slice
    along axis 0 has the elements 0 and 3 and fill writes 0 and 1. *)
Theorem C62_slice_fill_refuted :
  let e := mk_xexp true [2;3] [3;1] 0 row_major in
  exists b, packed row_major e /\ slices_ok row_major [2;3] 0 /\ slice_begin false e 0 = Ok b /\
    w_element (slice_deref b) [0] = Ok (Slot 0) /\ w_element (slice_deref b) [1] = Ok (Slot 3) /\
    fill row_major (slice_deref b) 9 [0;1;2;3;4;5] = Ok [9;9;2;3;4;5].
Proof.
  cbn zeta. eexists. split; [|split; [right; right; left; reflexivity|repeat split; vm_compute; reflexivity]]. repeat split.
  intros k Hk. cbn in Hk. destruct k as [|[|k]]; [reflexivity..|lia].
Qed.
Print Assumptions C62_slice_fill_refuted.

(** The same for axis_begin(e, 1): a column of a 2x3 container. *)
Theorem C62_axis_fill_refuted :
  let e := mk_xexp true [2;3] [3;1] 0 row_major in
  exists b, axis_begin e 1 = Ok b /\
    w_element (axis_deref b) [0] = Ok (Slot 0) /\ w_element (axis_deref b) [1] = Ok (Slot 3) /\
    fill row_major (axis_deref b) 9 [0;1;2;3;4;5] = Ok [9;9;2;3;4;5].
Proof. cbn zeta. eexists. repeat split; vm_compute; reflexivity. Qed.
Print Assumptions C62_axis_fill_refuted.
