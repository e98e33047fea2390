(** Properties C17 and C18: slices. *)
From Coq Require Import List ZArith.
From Verif Require Import Prelude Slice_Model Slice_Spec Slice_Proofs.
Import ListNotations.
Open Scope Z_scope.

(** C17. range(start, stop, step), any of them omitted, selects the positions
    Python selects, all of them inside the axis. What is missing from the full
    property: when an explicit step points away from stop by at least one whole
    step (Python selects nothing) the slice is broken, see
    C17_wrong_direction_refuted and C17_wrong_direction_always. *)
Theorem C17_range_is_python_partial :
  forall (n : Z) (start stop step : option Z),
  0 <= n -> py_step step <> 0 ->
  (step = None \/
   ~ before (py_step step) (py_stop n (py_step step) stop) (py_start n (py_step step) start) \/
   Z.abs (py_stop n (py_step step) stop - py_start n (py_step step) start) < Z.abs (py_step step)) ->
  exists r f, range_get start stop step n = Ok r /\
    (forall k, slice_at r k = Ok (f k)) /\
    py_selects n start stop (py_step step) (slice_size r) f /\
    (forall k, 0 <= k < slice_size r -> 0 <= f k < n).
Proof. exact range_python_lemma. Qed.
Print Assumptions C17_range_is_python_partial.

Example C17_case :
  range_get (Some 7) (Some (-9)) (Some (-3)) 10 = Ok (SStep 7 2 (-3)) /\
  py_start 10 (-3) (Some 7) = 7 /\ py_stop 10 (-3) (Some (-9)) = 1 /\
  ~ before (-3) 1 7 /\
  range_get (Some 8) (Some 3) None 10 = Ok (SRange 8 0).
Proof. repeat split. unfold before. cbn. discriminate. Qed.

(** C17. range(5, 2, 1) on an axis of 10: Python selects nothing, the slice
    reports size -3 (as std::size_t, 2^64 - 3). *)
Theorem C17_wrong_direction_refuted :
  exists n a b s r, 0 < n /\ s <> 0 /\ range_get (Some a) (Some b) (Some s) n = Ok r /\ slice_size r = -3.
Proof. exact range_wrong_direction_lemma. Qed.
Print Assumptions C17_wrong_direction_refuted.

(** C17. It does so for every range outside the hypothesis of
    C17_range_is_python_partial, so that hypothesis is exact. *)
Theorem C17_wrong_direction_always :
  forall (n : Z) (start stop step : option Z),
  0 <= n -> py_step step <> 0 ->
  ~ (step = None \/
     ~ before (py_step step) (py_stop n (py_step step) stop) (py_start n (py_step step) start) \/
     Z.abs (py_stop n (py_step step) stop - py_start n (py_step step) start) < Z.abs (py_step step)) ->
  exists r, range_get start stop step n = Ok r /\ slice_size r < 0.
Proof. exact range_backward_lemma. Qed.
Print Assumptions C17_wrong_direction_always.

(** C17. A zero step divides by zero. *)
Theorem C17_zero_step_undefined : forall a b n, range_get a b (Some 0) n = UB.
Proof. exact range_step0_lemma. Qed.
Print Assumptions C17_zero_step_undefined.

(** C17. With a positive (or omitted) step the other queries agree with the
    selection: step_size is the distance between selected positions, contains
    decides membership, revert_index inverts the selection. *)
Theorem C17_range_queries :
  forall (n : Z) (start stop step : option Z) r,
  0 <= n <= 2 ^ 63 -> 0 < py_step step <= 2 ^ 63 ->
  (step = None \/
   ~ before (py_step step) (py_stop n (py_step step) stop) (py_start n (py_step step) start) \/
   Z.abs (py_stop n (py_step step) stop - py_start n (py_step step) start) < Z.abs (py_step step)) ->
  range_get start stop step n = Ok r ->
  (forall k m x y, 0 <= k -> 0 <= m -> slice_at r k = Ok x -> slice_at r (k + m) = Ok y ->
      slice_step r k m = Ok (y - x)) /\
  (forall x, 0 <= x < n -> exists c, slice_contains r x = Ok c /\
      (c = true <-> exists k, 0 <= k < slice_size r /\ slice_at r k = Ok x)) /\
  (forall k x, 0 <= k < slice_size r -> slice_at r k = Ok x -> slice_revert r x = Ok k).
Proof. exact range_members_lemma. Qed.
Print Assumptions C17_range_queries.

Example C17_queries_case :
  range_get (Some 1) (Some 9) (Some 3) 10 = Ok (SStep 1 3 3) /\
  slice_contains (SStep 1 3 3) 7 = Ok true /\ slice_contains (SStep 1 3 3) 8 = Ok false /\
  slice_revert (SStep 1 3 3) 7 = Ok 2 /\ slice_step (SStep 1 3 3) 0 2 = Ok 6.
Proof. vm_compute. auto. Qed.

(** C17. With a negative step they do not: a[::-2] on 5 elements selects 4, 2,
    0 but contains(0) is false and revert_index(0) is 0 instead of 2. *)
Theorem C17_negative_step_queries_refuted :
  exists r, range_get None None (Some (-2)) 5 = Ok r /\
    slice_at r 2 = Ok 0 /\ slice_size r = 3 /\
    slice_contains r 0 = Ok false /\ slice_revert r 0 = Ok 0.
Proof. exact range_negative_members_lemma. Qed.
Print Assumptions C17_negative_step_queries_refuted.

(** C17. Slices other than drop compare equal exactly when they are the same. *)
Theorem C17_slice_comparison :
  forall a b : slice, (forall i inc n, a <> SDrop i inc n) ->
  (slice_eq a b = true <-> a = b) /\ (a <> SNewaxis -> slice_neq a b = negb (slice_eq a b)).
Proof. exact slice_equality_lemma. Qed.
Print Assumptions C17_slice_comparison.

(** C17. Two newaxis slices compare both equal and different. *)
Theorem C17_newaxis_comparison_refuted :
  slice_eq SNewaxis SNewaxis = true /\ slice_neq SNewaxis SNewaxis = true.
Proof. exact newaxis_neq_lemma. Qed.
Print Assumptions C17_newaxis_comparison_refuted.

(** C18. keep(i...) selects the listed positions in order, negative ones
    counted from the end; step_size is the distance between two selected
    positions, contains decides membership, revert_index gives the first rank
    and throws for a position that is not kept. *)
Theorem C18_keep :
  forall (n : Z) (raw : list Z),
  Forall (fun v => - n <= v < n) raw ->
  exists r, resolve (UKeep raw) n = Ok r /\
    slice_size r = Z.of_nat (length raw) /\
    (forall k v, nth_error raw k = Some v ->
        slice_at r (Z.of_nat k) = Ok (from_end n v) /\ 0 <= from_end n v < n) /\
    (forall i j vi vj, nth_error raw i = Some vi -> nth_error raw (i + j) = Some vj ->
        slice_step r (Z.of_nat i) (Z.of_nat j) = Ok (from_end n vj - from_end n vi)) /\
    (forall x, exists c, slice_contains r x = Ok c /\ (c = true <-> In x (map (from_end n) raw))) /\
    (forall x, In x (map (from_end n) raw) ->
        exists p, slice_revert r x = Ok (Z.of_nat p) /\ nth_error (map (from_end n) raw) p = Some x /\
                  forall q, (q < p)%nat -> nth_error (map (from_end n) raw) q <> Some x) /\
    (forall x, ~ In x (map (from_end n) raw) -> slice_revert r x = Throw runtime_error).
Proof. exact keep_lemma. Qed.
Print Assumptions C18_keep.

Example C18_keep_case :
  exists r, resolve (UKeep [4;-4;0;4]) 5 = Ok r /\ slice_at r 1 = Ok 1 /\ slice_at r 2 = Ok 0 /\
    slice_step r 0 1 = Ok (-3) /\ slice_revert r 4 = Ok 0 /\ slice_revert r 2 = Throw runtime_error.
Proof. eexists. split; [reflexivity|]. vm_compute. auto. Qed.

(** C18. drop(i...), with the dropped positions (negative ones counted from the
    end) listed in increasing order, selects exactly the other positions in
    increasing order; step_size and contains agree with that. Missing from the
    full property: unsorted or repeated positions and revert_index, see the
    refutations below. *)
Theorem C18_drop_partial :
  forall (n : Z) (raw : list Z),
  let ds := map (from_end n) raw in
  0 <= n -> increasing ds -> Forall (fun d => 0 <= d < n) ds ->
  exists r, resolve (UDrop raw) n = Ok r /\
    slice_size r = Z.of_nat (length (survivors n ds)) /\
    (forall k x, nth_error (survivors n ds) k = Some x -> slice_at r (Z.of_nat k) = Ok x) /\
    (forall i j x y, nth_error (survivors n ds) i = Some x -> nth_error (survivors n ds) (i + j) = Some y ->
        slice_step r (Z.of_nat i) (Z.of_nat j) = Ok (y - x)) /\
    (forall x, 0 <= x < n -> exists c, slice_contains r x = Ok c /\ (c = true <-> In x (survivors n ds))).
Proof. exact drop_lemma. Qed.
Print Assumptions C18_drop_partial.

Example C18_drop_case :
  map (from_end 9) [1;2;-4] = [1;2;5] /\ increasing [1;2;5] /\ survivors 9 [1;2;5] = [0;3;4;6;7;8] /\
  exists r, resolve (UDrop [1;2;-4]) 9 = Ok r /\ slice_size r = 6 /\ slice_at r 1 = Ok 3 /\
    slice_at r 3 = Ok 6 /\ slice_step r 1 2 = Ok 3.
Proof.
  split; [reflexivity|]. split; [cbn; auto with zarith|]. split; [reflexivity|].
  eexists. split; [reflexivity|]. vm_compute. auto.
Qed.

(** C18. drop(3, 1) on 5 elements: position 0 survives, the slice starts at 2. *)
Theorem C18_drop_unsorted_refuted :
  exists n raw r, Forall (fun d => 0 <= d < n) raw /\ NoDup raw /\ resolve (UDrop raw) n = Ok r /\
    nth_error (survivors n raw) 0 = Some 0 /\ slice_at r 0 = Ok 2.
Proof. exact drop_unsorted_lemma. Qed.
Print Assumptions C18_drop_unsorted_refuted.

(** C18. drop(1, 1) on 5 elements: four positions survive, the size is 3. *)
Theorem C18_drop_duplicate_refuted :
  exists n raw r, Forall (fun d => 0 <= d < n) raw /\ resolve (UDrop raw) n = Ok r /\
    length (survivors n raw) = 4%nat /\ slice_size r = 3.
Proof. exact drop_duplicate_lemma. Qed.
Print Assumptions C18_drop_duplicate_refuted.

(** C18. drop(1,3,5,7,9): the selected position 6 has rank 3, revert_index says 2. *)
Theorem C18_drop_revert_refuted :
  exists n raw r, increasing raw /\ Forall (fun d => 0 <= d < n) raw /\ resolve (UDrop raw) n = Ok r /\
    slice_at r 3 = Ok 6 /\ slice_revert r 6 = Ok 2.
Proof. exact drop_revert_lemma. Qed.
Print Assumptions C18_drop_revert_refuted.

(** C18. With nothing dropped revert_index dereferences the end of a map. *)
Theorem C18_drop_empty_revert_undefined :
  forall n, exists r, resolve (UDrop []) n = Ok r /\ slice_at r 0 = Ok 0 /\ slice_revert r 0 = UB.
Proof. exact drop_empty_revert_lemma. Qed.
Print Assumptions C18_drop_empty_revert_undefined.

(** C18. A drop slice applied first to an axis of 4 and then to one of 6 keeps
    increments of the first use: drop(-3) then skips position 1. *)
Theorem C18_drop_reuse_refuted :
  exists raw m, drop_normalize [] raw 4 = SDrop [1] m 3 /\
    slice_at (drop_normalize m raw 6) 1 = Ok 2 /\ nth_error (survivors 6 [3]) 1 = Some 1.
Proof. exact drop_reuse_lemma. Qed.
Print Assumptions C18_drop_reuse_refuted.
