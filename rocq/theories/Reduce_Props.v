(** Property C41: a lazy reduction is the fold of the elements along the axes. *)
From Coq Require Import List ZArith Lia Sorted.
From Verif Require Import Prelude Strides_Model Strides_Spec Broadcast_Spec Access_Model Stepper_Model Stepper_Spec Stepper_Proofs
  Reduce_Model Reduce_Spec Reduce7_Proofs.
Import ListNotations.
Open Scope Z_scope.

(** C41, elements. For every expression, all increasing axes in range, with and
    without keep_dims and an initial value: the reducer is built, has the shape of
    the expression without the axes (with extent 1 there if they are kept), and
    operator() / element() with an in-bounds index, possibly after leading indices
    in excess or without leading zeros, is the fold, from the initial value, of the
    elements of the expression that agree with the index, in row major order. The
    functors have to satisfy the law that makes merging a continuation of reducing,
    when several axes or an initial value are given. An expression without elements
    gives the initial value. *)
Theorem C41_elements : forall (T R : Type) (f : rfun T R) (dflt : R) (esh : list Z) (e : sexp T) (ev : list Z -> T)
    (axes : list Z) (keep : bool) (initial : option R),
  Z.of_nat (length esh) < 2 ^ 64 -> is_shape esh -> valid_axes (length esh) axes ->
  has_elements esh e ev -> law_if_needed f axes initial ->
  exists r, make_reducer esh axes keep initial = Ok r /\ r_shape r = red_shape keep axes esh /\
    (forall extra ix, in_bounds (red_shape keep axes esh) ix ->
       rs_element f dflt esh (x_ops esh e) (x_deref e) r (x_begin e) (extra ++ ix) =
       Ok (reduced f initial row_major keep axes esh ev ix)) /\
    (forall n ix, in_bounds (red_shape keep axes esh) (repeat 0 n ++ ix) ->
       rs_element f dflt esh (x_ops esh e) (x_deref e) r (x_begin e) ix =
       Ok (reduced f initial row_major keep axes esh ev (repeat 0 n ++ ix))).
Proof. exact (@lazy_elements_lemma). Qed.
Print Assumptions C41_elements.

(** The sums of the columns of a 2x3 array; with an initial value and kept dims,
    the sum of all. *)
Example C41_case_elements :
  valid_axes 2 [0] /\ has_elements [2;3] six six_ev /\ law_if_needed plus_fun [0;1] (Some 100) /\
  red_shape false [0] [2;3] = [3] /\
  map (reduced plus_fun None row_major false [0] [2;3] six_ev) (row_indices [3]) = [5;7;9] /\
  (let* r := make_reducer [2;3] [0;1] true (Some 100) in
   rs_element plus_fun 0 [2;3] (x_ops [2;3] six) (x_deref six) r (x_begin six) [0;0]) = Ok 121 /\
  reduced plus_fun (Some 100) row_major true [0;1] [2;3] six_ev [0;0] = 121.
Proof.
  split; [exact six_axes|]. split; [exact six_elements|]. split; [right; exact plus_law|].
  repeat split; vm_compute; reflexivity.
Qed.

(** C41, iteration: reading all the elements one after the other through an
    iterator, in row or column major order, over the shape of the reducer or any
    shape it is broadcast to, gives the reduced values of the successive indices.
    Missing from the full statement: kept axes that are broadcast, and going
    backwards from the end (see the refutations). *)
Theorem C41_iteration_partial : forall (T R : Type) (f : rfun T R) (dflt : R) (esh : list Z) (e : sexp T) (ev : list Z -> T)
    (axes : list Z) (keep : bool) (initial : option R) (l : layout) (sh : list Z),
  Z.of_nat (length esh) < 2 ^ 64 -> is_shape esh -> valid_axes (length esh) axes ->
  has_elements esh e ev -> law_if_needed f axes initial ->
  l = row_major \/ l = column_major -> is_shape sh -> iterable keep axes esh sh ->
  exists r, make_reducer esh axes keep initial = Ok r /\
    rs_read_all f dflt esh (x_ops esh e) (x_deref e) r (length sh - length (r_shape r)) sh l
      (Z.to_nat (prod sh)) (repeat 0 (length sh)) (x_begin e) =
    Ok (map (fun ix => reduced f initial row_major keep axes esh ev (bc_index (red_shape keep axes esh) ix)) (indices_of l sh)).
Proof. exact (@lazy_iteration_lemma). Qed.
Print Assumptions C41_iteration_partial.

(** The sums of the columns broadcast to a 2x3 result. *)
Example C41_case_iteration :
  iterable false [0] [2;3] [2;3] /\
  (let* r := make_reducer [2;3] [0] false None in
   rs_read_all plus_fun 0 [2;3] (x_ops [2;3] six) (x_deref six) r 1 [2;3] column_major 6 [0;0] (x_begin six)) = Ok [5;5;7;7;9;9].
Proof.
  split; [|vm_compute; reflexivity].
  split; [|discriminate]. change (red_shape false [0] [2;3]) with [3].
  split; [cbn; lia|]. intros [|[|k]]; [right; reflexivity|left; reflexivity|left; destruct k; reflexivity].
Qed.

(** C41, invalid axes: on an expression of one dimension or more, axes that are not
    increasing, or repeated, or out of range, are reported by std::runtime_error.
    Missing: more axes than dimensions without keep_dims, 0-dimensional
    expressions (see the refutations). *)
Theorem C41_bad_axes_partial : forall (R : Type) (esh axes : list Z) (keep : bool) (initial : option R),
  Z.of_nat (length esh) < 2 ^ 64 -> esh <> [] -> Forall (fun a => 0 <= a) axes -> ~ valid_axes (length esh) axes ->
  (length axes <= length esh)%nat \/ keep = true ->
  make_reducer esh axes keep initial = Throw runtime_error.
Proof. exact (@bad_axes_lemma). Qed.
Print Assumptions C41_bad_axes_partial.

Example C41_case_bad_axes : ~ valid_axes 3 [1;1] /\ make_reducer (R := Z) [2;3;4] [1;1] false None = Throw runtime_error.
Proof.
  split; [|reflexivity]. intros [H _]. inversion H as [|? ? _ HF]; subst. inversion HF; subst. lia.
Qed.

(** C41, negative axes count from the last one. *)
Theorem C41_negative_axis : forall (dim : nat) (a : Z),
  - Z.of_nat dim <= a < Z.of_nat dim -> Z.of_nat dim < 2 ^ 64 -> normalize_axis dim a = a mod Z.of_nat dim.
Proof. exact normalize_axis_lemma. Qed.
Print Assumptions C41_negative_axis.

Example C41_case_negative_axis : normalize_axis 3 (-1) = 2 /\ normalize_axis 3 1 = 1.
Proof. split; reflexivity. Qed.

(** Refuted: a reduction with keep_dims iterated over a shape it is broadcast to
    along the reduced axis leaves the storage of the expression. *)
Theorem C41_keep_broadcast_refuted :
  exists (esh : list Z) (e : sexp Z) ev axes sh, has_elements esh e ev /\ valid_axes (length esh) axes /\
    fits (red_shape true axes esh) sh /\
    exists r, make_reducer esh axes true None = Ok r /\
      rs_read_all plus_fun 0 esh (x_ops esh e) (x_deref e) r (length sh - length (r_shape r)) sh row_major (Z.to_nat (prod sh))
        (repeat 0 (length sh)) (x_begin e) = UB.
Proof. exact keep_broadcast_refuted_lemma. Qed.
Print Assumptions C41_keep_broadcast_refuted.

(** Refuted: the last element, reached by decrementing the end iterator. *)
Theorem C41_reverse_refuted :
  exists (esh : list Z) (e : sexp Z) ev axes, has_elements esh e ev /\ valid_axes (length esh) axes /\
    exists r en it, make_reducer esh axes false None = Ok r /\
      s_to_end (rs_ops (x_ops esh e) r 0) row_major (x_begin e) = Ok en /\
      row_decrement (rs_ops (x_ops esh e) r 0) (r_shape r) (endx row_major (r_shape r)) en = Ok it /\
      fst it = map (fun d => d - 1) (r_shape r) /\
      rs_deref plus_fun 0 esh (x_ops esh e) (x_deref e) r (snd it) = UB.
Proof. exact reverse_refuted_lemma. Qed.
Print Assumptions C41_reverse_refuted.

(** Refuted: invalid axes not reported as such. *)
Theorem C41_many_axes_refuted :
  exists esh axes, esh <> [] /\ ~ valid_axes (length esh) axes /\ make_reducer (R := Z) esh axes false None = Throw bad_alloc.
Proof. exact many_axes_refuted_lemma. Qed.
Print Assumptions C41_many_axes_refuted.

Theorem C41_axis_0d_refuted :
  exists axes r, ~ valid_axes 0 axes /\ make_reducer (R := Z) [] axes true None = Ok r.
Proof. exact axis_0d_refuted_lemma. Qed.
Print Assumptions C41_axis_0d_refuted.
