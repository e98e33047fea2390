(** Property C59: xt::repeat. *)
From Coq Require Import List ZArith.
From Verif Require Import Prelude Strides_Model Strides_Spec Stepper_Model Stepper_Spec Repeat_Model Repeat_Spec
  Repeat3_Proofs.
Import ListNotations.
Open Scope Z_scope.

(** Shape of the result: that of the argument, with the sum of the counts along
    the axis. *)
Theorem C59_shape :
  forall esh r axis, repeatable esh r axis ->
  make_xrepeat false esh r axis = Ok (at_axis esh axis (total r)).
Proof. exact shape_lemma. Qed.
Print Assumptions C59_shape.

(** One count per position along the axis, or std::invalid_argument. *)
Theorem C59_mismatch :
  forall moved esh r axis d, nth_error esh axis = Some d -> Z.of_nat (length r) <> d ->
  make_xrepeat moved esh r axis = Throw invalid_argument.
Proof. exact mismatch_lemma. Qed.
Print Assumptions C59_mismatch.

(** A single count n stands for n at every position: position i of the result
    comes from position i / n. *)
Theorem C59_single_count :
  forall esh axis d n, is_shape esh -> nth_error esh axis = Some d -> 0 <= n ->
  exists r, repeat_n esh n axis = Ok r /\ repeatable esh r axis /\ total r = n * d /\
    forall i, 0 <= i < n * d -> source r i (Z.to_nat (i / n)).
Proof. exact scalar_lemma. Qed.
Print Assumptions C59_single_count.

(** Element access, for any expression, any counts (also 0): operator(), with any
    number of extra leading arguments, and element() read the argument at the same
    index with the position along the axis replaced by its source. Missing: the
    very first position when the first count is 0, and fewer arguments than
    axes; both really fail, see below. *)
Theorem C59_element_partial :
  forall (V : Type) (e : sexp V) esh r axis extra ix j,
  repeatable esh r axis -> operands_ok esh e -> storage_ok e ->
  in_bounds (at_axis esh axis (total r)) ix -> source r (nth axis ix 0) j ->
  0 < nth axis ix 0 \/ 0 < nth 0 r 0 ->
  exists v, x_value (at_axis ix axis (Z.of_nat j)) e = Ok v /\
    repeat_at e esh r axis (extra ++ ix) = Ok v /\ repeat_element e esh r axis ix = Ok v.
Proof. exact (@element_lemma). Qed.
Print Assumptions C59_element_partial.

Example C59_case_element :
  repeatable [2;3] [2;0;3] 1 /\ source [2;0;3] 4 2 /\ in_bounds (at_axis [2;3] 1 5) [1;4] /\
  repeat_at grid23 [2;3] [2;0;3] 1 [7;1;4] = Ok 6 /\
  map (fun i => repeat_at row3 [3] [2;0;3] 0 [i]) [0;1;2;3;4] = [Ok 10; Ok 10; Ok 30; Ok 30; Ok 30].
Proof. repeat split; try reflexivity; repeat constructor; discriminate. Qed.

(** Forward iteration in either order: after k < size increments the iterator
    differs from end() and reads the k-th element; after size increments it
    equals end(). Missing: a first or last count of 0 (see below). *)
Theorem C59_iteration_partial :
  forall (V : Type) (l : layout) (e : sexp V) esh r axis,
  l = row_major \/ l = column_major ->
  repeatable esh r axis -> operands_ok esh e -> storage_ok e ->
  0 < nth 0 r 0 -> 0 < nth (length r - 1) r 0 ->
  let sh := at_axis esh axis (total r) in
  let ops := rp_ops (x_ops esh e) sh r axis in
  exists b en,
    rp_it_begin sh l (x_begin e) = Ok b /\ rp_it_end (x_ops esh e) sh r l (x_begin e) = Ok en /\
    (forall k, Z.of_nat k < prod sh ->
       exists it, it_inc_k ops sh l k b = Ok it /\ it_equal it en = false /\
         forall ix j, in_bounds sh ix -> order_pos l sh ix = Z.of_nat k -> source r (nth axis ix 0) j ->
           exists v, x_value (at_axis ix axis (Z.of_nat j)) e = Ok v /\ rp_it_deref e it = Ok v) /\
    (exists it, it_inc_k ops sh l (Z.to_nat (prod sh)) b = Ok it /\ it_equal it en = true).
Proof. exact (@iteration_lemma). Qed.
Print Assumptions C59_iteration_partial.

(** Assigning the repeated expression to a container: the value read by the
    assignment loop for each index of the destination. *)
Theorem C59_assign_partial :
  forall (V : Type) (l : layout) (e : sexp V) esh r axis ix j,
  l = row_major \/ l = column_major ->
  repeatable esh r axis -> operands_ok esh e -> storage_ok e ->
  0 < nth 0 r 0 -> 0 < nth (length r - 1) r 0 ->
  let sh := at_axis esh axis (total r) in
  in_bounds sh ix -> source r (nth axis ix 0) j ->
  exists v, x_value (at_axis ix axis (Z.of_nat j)) e = Ok v /\
    repeat_walk e esh r axis sh l (Z.to_nat (order_pos l sh ix)) = Ok v.
Proof. exact (@assign_lemma). Qed.
Print Assumptions C59_assign_partial.

Example C59_case_assign :
  map (repeat_walk grid23 [2;3] [2;1;3] 1 [2;6] row_major) (seq 0 12) = map Ok [1;1;2;3;3;3;4;4;5;6;6;6] /\
  map (repeat_walk grid23 [2;3] [2;0;1] 1 [2;3] column_major) (seq 0 6) = map Ok [1;4;1;4;3;6].
Proof. split; vm_compute; reflexivity. Qed.

(** Iterators over a repeated 1-dimensional expression, moved in any way by ++, --,
    += and -= from begin() or end(). *)
Theorem C59_moves_1d_partial :
  forall (V : Type) (l : layout) (e : sexp V) n r,
  l = row_major \/ l = column_major ->
  repeatable [n] r 0 -> operands_ok [n] e -> storage_ok e -> reversible l e ->
  0 < nth 0 r 0 -> 0 < nth (length r - 1) r 0 ->
  let ops := rp_ops (x_ops [n] e) [total r] r 0 in
  exists b en,
    rp_it_begin [total r] l (x_begin e) = Ok b /\ rp_it_end (x_ops [n] e) [total r] r l (x_begin e) = Ok en /\
    forall (from_end : bool) (ms : list move),
    let start := if from_end then total r else 0 in
    stays (total r) start ms ->
    exists it, do_moves ops [total r] l ms (if from_end then en else b) = Ok it /\ snd it = final start ms /\
      forall j, source r (final start ms) j ->
        exists v, x_value [Z.of_nat j] e = Ok v /\ rp_it_deref e it = Ok v.
Proof. exact (@moves_1d_lemma). Qed.
Print Assumptions C59_moves_1d_partial.

Example C59_case_moves :
  map (reversed row3 [3] [2;1;3] 0 row_major) (seq 1 6) = map Ok [30;30;30;20;10;10].
Proof. vm_compute. reflexivity. Qed.

(** The first count is 0: the first element of {10, 20, 30} repeated {0, 2, 1}
    times is read as 10, which should not appear at all, by call and in an
    assignment. *)
Theorem C59_first_zero_refuted :
  repeatable [3] [0;2;1] 0 /\ source [0;2;1] 0 1 /\ x_value [1] row3 = Ok 20 /\
  repeat_at row3 [3] [0;2;1] 0 [0] = Ok 10 /\ repeat_walk row3 [3] [0;2;1] 0 [3] row_major 0 = Ok 10.
Proof. repeat split; try reflexivity; repeat constructor; discriminate. Qed.
Print Assumptions C59_first_zero_refuted.

(** The last count is 0: the second row of the assignment starts with the last
    element of the first row. *)
Theorem C59_last_zero_refuted :
  repeatable [2;3] [2;1;0] 1 /\ source [2;1;0] 0 0 /\ x_value [1;0] grid23 = Ok 4 /\
  repeat_walk grid23 [2;3] [2;1;0] 1 [2;3] row_major 3 = Ok 3.
Proof. repeat split; try reflexivity; repeat constructor; discriminate. Qed.
Print Assumptions C59_last_zero_refuted.

(** Fewer arguments than axes: missing leading indices are 0 everywhere else in
    the library, here the arguments apply to the first axes. Repeating every row
    once, (1) should be (0, 1), which is 2, but is (1, 0). *)
Theorem C59_few_arguments_refuted :
  x_value [0;1] grid23 = Ok 2 /\ repeat_at grid23 [2;3] [1;1] 0 [0;1] = Ok 2 /\
  repeat_at grid23 [2;3] [1;1] 0 [1] = Ok 4.
Proof. repeat split; reflexivity. Qed.
Print Assumptions C59_few_arguments_refuted.

(** element() with more indices than axes reads outside the positions. *)
Theorem C59_many_indices_refuted :
  repeat_at grid23 [2;3] [1;1] 0 [0;1;1] = Ok 5 /\ repeat_element grid23 [2;3] [1;1] 0 [0;1;1] = UB.
Proof. split; reflexivity. Qed.
Print Assumptions C59_many_indices_refuted.

(** Backward iteration over two axes leaves the repeats. *)
Theorem C59_reverse_refuted :
  repeatable [2;3] [2;1;3] 1 /\
  map (reversed grid23 [2;3] [2;1;3] 1 row_major) (seq 1 6) = [Ok 6; Ok 6; Ok 6; Ok 5; Ok 4; UB].
Proof. split; [repeat split; repeat constructor; discriminate|vm_compute; reflexivity]. Qed.
Print Assumptions C59_reverse_refuted.

(** A repeated expression cannot be broadcast: the second element read through a
    larger shape is outside the positions. *)
Theorem C59_broadcast_refuted :
  repeatable [3] [1;1;1] 0 /\
  map (repeat_walk row3 [3] [1;1;1] 0 [2;3] row_major) (seq 0 2) = [Ok 10; UB].
Proof. split; [repeat split; repeat constructor; discriminate|vm_compute; reflexivity]. Qed.
Print Assumptions C59_broadcast_refuted.

(** Repeating a temporary xarray: the shape is read after the move. *)
Theorem C59_temporary_refuted :
  repeatable [2;3] [2;1] 0 /\ make_xrepeat true [2;3] [2;1] 0 = Ok [] /\
  make_xrepeat false [2;3] [2;1] 0 = Ok [3;3].
Proof. repeat split; repeat constructor; discriminate. Qed.
Print Assumptions C59_temporary_refuted.
