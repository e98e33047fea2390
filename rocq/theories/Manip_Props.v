(** Properties C23, C24, C26 and the split half of C27: transpose, swapaxes, moveaxis,
    flip, rot90, squeeze, expand_dims, atleast_Nd and split. *)
From Coq Require Import List ZArith Bool Lia Permutation.
From Verif Require Import Prelude Strides_Model Strides_Spec Slice_Model Container_Spec SView_Model SView_Spec
  Manip_Model Manip_Spec Manip_Proofs Manip2_Proofs Manip3_Proofs Manip4_Proofs Manip5_Proofs.
Import ListNotations.
Open Scope Z_scope.

(** C23: transpose(e) reverses the axes, of any expression. *)
Theorem C23_transpose : forall (T : layout) (e : xexp), T = row_major \/ T = column_major -> wf_exp e ->
  exists v, transpose T e = Ok v /\ rearranges e v (rev (x_shape e)) (@rev Z) /\
    wf_exp (as_exp v) /\
    (x_direct e = true -> layout_true e -> view_layout_true v).
Proof. exact transpose_lemma. Qed.
Print Assumptions C23_transpose.

(** The layout reported for a lazy expression may be wrong. *)
Theorem C23_lazy_layout_refuted :
  exists v, let e := mk_xexp false [2; 3] [] 0 column_major in
    transpose row_major e = Ok v /\ w_layout v = row_major /\ ~ view_layout_true v.
Proof. exact lazy_layout_lemma. Qed.
Print Assumptions C23_lazy_layout_refuted.

(** C23: transpose(e, p, check_policy::full()) permutes the axes by p, and throws
    exactly when p is not a permutation of them. *)
Theorem C23_transpose_full : forall (T : layout) (e : xexp) (perm : list Z),
  T = row_major \/ T = column_major -> wf_exp e -> x_direct e = true ->
  (Permutation perm (iota (length (x_shape e))) ->
    exists v, transpose_full T e perm = Ok v /\
      rearranges e v (permute (map Z.to_nat perm) (x_shape e)) (permute (map Z.to_nat perm)) /\
      wf_exp (as_exp v) /\ (layout_true e -> view_layout_true v)) /\
  (~ Permutation perm (iota (length (x_shape e))) -> transpose_full T e perm = Throw transpose_error).
Proof. exact transpose_full_lemma. Qed.
Print Assumptions C23_transpose_full.

(** C23: without the policy it does the same for a permutation, and still rejects a
    wrong length and entries out of range ... *)
Theorem C23_transpose_none : forall (T : layout) (e : xexp) (perm : list Z),
  T = row_major \/ T = column_major -> wf_exp e -> x_direct e = true ->
  (Permutation perm (iota (length (x_shape e))) ->
    exists v, transpose_none T e perm = Ok v /\
      rearranges e v (permute (map Z.to_nat perm) (x_shape e)) (permute (map Z.to_nat perm)) /\
      wf_exp (as_exp v) /\ (layout_true e -> view_layout_true v)) /\
  (length perm <> length (x_shape e) \/ Exists (fun p => ~ 0 <= p < Z.of_nat (length (x_shape e))) perm ->
    transpose_none T e perm = Throw transpose_error).
Proof. exact transpose_perm_lemma. Qed.
Print Assumptions C23_transpose_none.

(** ... but a repeated axis gives a view that reaches outside the array (slot 4 of 3). *)
Theorem C23_repeated_axis_refuted :
  exists v, let a := plain [3; 1] [1; 0] in transpose_none row_major a [0; 0] = Ok v /\ w_shape v = [3; 3] /\
    in_bounds (w_shape v) [2; 2] /\ reads v [2; 2] (Slot 4).
Proof. exact duplicate_lemma. Qed.
Print Assumptions C23_repeated_axis_refuted.

(** C23: transposing twice, and transposing with a permutation and then with its
    inverse, gives e back. *)
Theorem C23_transpose_twice : forall (T : layout) (e : xexp),
  T = row_major \/ T = column_major -> wf_exp e -> x_direct e = true ->
  exists v w, transpose T e = Ok v /\ transpose T (as_exp v) = Ok w /\ rearranges e w (x_shape e) (fun ix => ix).
Proof. exact transpose_twice_lemma. Qed.
Print Assumptions C23_transpose_twice.

Theorem C23_transpose_inverse : forall (T : layout) (e : xexp) (p q : list Z),
  T = row_major \/ T = column_major -> wf_exp e -> x_direct e = true ->
  Permutation p (iota (length (x_shape e))) -> Permutation q (iota (length (x_shape e))) ->
  (forall i, 0 <= i < Z.of_nat (length (x_shape e)) -> nth (Z.to_nat (nth (Z.to_nat i) q 0)) p 0 = i) ->
  exists v w, transpose_full T e p = Ok v /\ transpose_full T (as_exp v) q = Ok w /\ rearranges e w (x_shape e) (fun ix => ix).
Proof. exact transpose_inverse_lemma. Qed.
Print Assumptions C23_transpose_inverse.

(** C23: swapaxes and moveaxis are the permutations of their names, for axes counted
    from the front or (negative) from the back, and throw for any other axis. *)
Theorem C23_swapaxes : forall (T : layout) (e : xexp) (a1 a2 : Z),
  T = row_major \/ T = column_major -> wf_exp e -> x_direct e = true ->
  let n := length (x_shape e) in
  (forall k1 k2, axis_of n a1 k1 -> axis_of n a2 k2 ->
    exists v, swapaxes T e a1 a2 = Ok v /\
      rearranges e v (swap_at k1 k2 (x_shape e)) (swap_at k1 k2) /\ (layout_true e -> view_layout_true v)) /\
  (~ (- Z.of_nat n <= a1 < Z.of_nat n) \/ ~ (- Z.of_nat n <= a2 < Z.of_nat n) ->
    swapaxes T e a1 a2 = Throw out_of_range).
Proof. exact swapaxes_lemma. Qed.
Print Assumptions C23_swapaxes.

Theorem C23_moveaxis : forall (T : layout) (e : xexp) (a1 a2 : Z),
  T = row_major \/ T = column_major -> wf_exp e -> x_direct e = true ->
  let n := length (x_shape e) in
  (forall s d, axis_of n a1 s -> axis_of n a2 d ->
    exists v, moveaxis T e a1 a2 = Ok v /\
      rearranges e v (move_at s d (x_shape e)) (move_at s d) /\ (layout_true e -> view_layout_true v)) /\
  (~ (- Z.of_nat n <= a1 < Z.of_nat n) \/ ~ (- Z.of_nat n <= a2 < Z.of_nat n) ->
    moveaxis T e a1 a2 = Throw out_of_range).
Proof. exact moveaxis_lemma. Qed.
Print Assumptions C23_moveaxis.

Example C23_case :
  let a := plain [2; 3; 4] [12; 4; 1] in
  wf_exp a /\ Permutation [1; 2; 0] (iota 3) /\ axis_of 3 (-1) 2 /\ axis_of 3 0 0 /\
  (let* v := transpose_full row_major a [1; 2; 0] in
   let* c := w_call v [2; 3; 1] in Ok (w_shape v, w_layout v, c)) = Ok ([3; 4; 2], dynamic, x_elem a [1; 2; 3]) /\
  (let* v := transpose_full row_major a [2; 1; 0] in Ok (w_layout v)) = Ok column_major /\
  (let* v := moveaxis row_major a (-1) 0 in
   let* c := w_call v [3; 1; 2] in Ok (w_shape v, c)) = Ok ([4; 2; 3], x_elem a [1; 2; 3]) /\
  transpose_full row_major a [1; 1; 0] = Throw transpose_error /\
  transpose_full row_major a [1; 0] = Throw transpose_error /\
  swapaxes row_major a 3 0 = Throw out_of_range.
Proof.
  cbn zeta. split; [split; [repeat constructor; lia|reflexivity]|].
  split.
  { change (iota 3) with [0; 1; 2]. apply Permutation_sym. apply Permutation_cons_app with (l1 := [1; 2]). apply Permutation_refl. }
  split; [split; [lia|reflexivity]|]. split; [split; [lia|reflexivity]|].
  repeat split; vm_compute; reflexivity.
Qed.

(** C24: flip(e, axis) mirrors the axis; flipping twice gives e back. *)
Theorem C24_flip : forall (T : layout) (e : xexp) (axis : nat),
  T = row_major \/ T = column_major -> wf_exp e -> x_direct e = true -> (axis < length (x_shape e))%nat ->
  exists v, flip T e axis = Ok v /\ rearranges e v (x_shape e) (mirror axis (x_shape e)) /\
    wf_exp (as_exp v) /\ w_base v = e /\ w_layout v = dynamic.
Proof. exact flip_lemma. Qed.
Print Assumptions C24_flip.

Theorem C24_flip_twice : forall (T : layout) (e : xexp) (axis : nat),
  T = row_major \/ T = column_major -> wf_exp e -> x_direct e = true -> (axis < length (x_shape e))%nat ->
  exists v w, flip T e axis = Ok v /\ flip T (as_exp v) axis = Ok w /\ rearranges e w (x_shape e) (fun ix => ix).
Proof. exact flip_twice_lemma. Qed.
Print Assumptions C24_flip_twice.

(** C24: rot90<N>(e, {a0, a1}) makes N mod 4 quarter turns (N negative too) from axis a0
    towards axis a1, and throws when both name the same axis. *)
Theorem C24_rot90 : forall (T : layout) (N : Z) (e : xexp) (a0 a1 : Z) (k0 k1 : nat),
  T = row_major \/ T = column_major -> wf_exp e -> x_direct e = true ->
  axis_of (length (x_shape e)) a0 k0 -> axis_of (length (x_shape e)) a1 k1 ->
  (k0 = k1 -> rot90 T N e a0 a1 = Throw runtime_error) /\
  (k0 <> k1 -> exists v, rot90 T N e a0 a1 = Ok v /\
     rearranges e v (turned_shape (Z.to_nat (N mod 4)) k0 k1 (x_shape e)) (turns (Z.to_nat (N mod 4)) k0 k1 (x_shape e)) /\
     wf_exp (as_exp v) /\ x_direct (as_exp v) = true).
Proof. exact rot90_lemma. Qed.
Print Assumptions C24_rot90.

(** C24: rot90<M> of rot90<N> is rot90<N + M>. *)
Theorem C24_rot90_compose : forall (T : layout) (N M : Z) (e : xexp) (a0 a1 : Z) (k0 k1 : nat),
  T = row_major \/ T = column_major -> wf_exp e -> x_direct e = true ->
  axis_of (length (x_shape e)) a0 k0 -> axis_of (length (x_shape e)) a1 k1 -> k0 <> k1 ->
  exists v w u, rot90 T N e a0 a1 = Ok v /\ rot90 T M (as_exp v) a0 a1 = Ok w /\ rot90 T (N + M) e a0 a1 = Ok u /\
    w_shape w = w_shape u /\
    forall jx, in_bounds (x_shape e) jx -> exists ix, in_bounds (w_shape w) ix /\
      reads w ix (x_elem e jx) /\ reads u ix (x_elem e jx).
Proof. exact rot90_compose_lemma. Qed.
Print Assumptions C24_rot90_compose.

(** Four quarter turns are none. *)
Theorem C24_four_turns : forall (a b : nat) (sh ix : list Z), a <> b -> (a < length ix)%nat -> (b < length ix)%nat ->
  length sh = length ix -> turned_shape 4 a b sh = sh /\ turns 4 a b sh ix = ix.
Proof. exact turns_four. Qed.
Print Assumptions C24_four_turns.

(** As numpy.rot90: rot90({{1,2,3},{4,5,6}}) = {{3,6},{2,5},{1,4}}. *)
Example C24_case :
  let a := plain [2; 3] [3; 1] in
  let data := [1; 2; 3; 4; 5; 6] in
  axis_of 2 0 0 /\ axis_of 2 (-1) 1 /\
  (let* v := rot90 row_major 1 a 0 (-1) in
   Ok (w_shape v, map (fun ix => read_cell data (w_element v ix)) (indices (w_shape v))))
    = Ok ([3; 2], [Ok 3; Ok 6; Ok 2; Ok 5; Ok 1; Ok 4]) /\
  (let* v := rot90 row_major (-1) a 0 1 in
   Ok (w_shape v, map (fun ix => read_cell data (w_element v ix)) (indices (w_shape v))))
    = Ok ([3; 2], [Ok 4; Ok 1; Ok 5; Ok 2; Ok 6; Ok 3]) /\
  (let* v := flip row_major a 1 in
   Ok (w_shape v, map (fun ix => read_cell data (w_element v ix)) (indices (w_shape v))))
    = Ok ([2; 3], [Ok 3; Ok 2; Ok 1; Ok 6; Ok 5; Ok 4]) /\
  rot90 row_major 1 a 1 (-1) = Throw runtime_error.
Proof. cbn zeta. split; [split; [lia|reflexivity]|]. split; [split; [lia|reflexivity]|]. repeat split; vm_compute; reflexivity. Qed.

(** flip(e) without an axis changes its argument: flip of {{1,2},{3,4}} gives
    {{4,3},{2,1}} and leaves {{2,1},{4,3}} in the array. *)
Theorem C24_flip_all_refuted :
  exists r d, let a := plain [2; 2] [2; 1] in flip_all row_major a [1; 2; 3; 4] = Ok (r, d) /\
    map (fun ix => read_cell d (w_element r ix)) (indices [2; 2]) = [Ok 4; Ok 3; Ok 2; Ok 1] /\ d = [2; 1; 4; 3].
Proof. exact flip_all_lemma. Qed.
Print Assumptions C24_flip_all_refuted.

(** C26: squeeze(e) is e without its axes of extent 1. Partial: the stride is 0 on
    exactly these axes and the offset of e is 0. *)
Theorem C26_squeeze_partial : forall (D T : layout) (e : xexp) (st : list Z),
  T = row_major \/ T = column_major -> wf_exp e -> (x_direct e = false -> D = T) ->
  (x_direct e = true -> x_offset e = 0) ->
  get_strides D e = Ok st -> Forall2 (fun n s => n = 1 <-> s = 0) (x_shape e) st ->
  exists v, squeeze D T e = Ok v /\
    rearranges e v (drop_unit (x_shape e) (x_shape e)) (drop_unit (x_shape e)) /\
    (x_direct e = true -> layout_true e -> view_layout_true v).
Proof. exact squeeze_lemma. Qed.
Print Assumptions C26_squeeze_partial.

(** squeeze of a view ignores its offset: squeezing the second row of a 2x3 array
    gives the first. *)
Theorem C26_squeeze_offset_refuted :
  exists v w, let a := plain [2; 3] [3; 1] in
    strided_view row_major a [Pick (URange (Some 1) (Some 2) None)] [] = Ok v /\ w_shape v = [1; 3] /\
    squeeze row_major row_major (as_exp v) = Ok w /\ w_shape w = [3] /\
    reads v [0; 2] (x_elem a [1; 2]) /\ reads w [2] (x_elem a [0; 2]) /\ x_elem a [0; 2] <> x_elem a [1; 2].
Proof. exact squeeze_offset_lemma. Qed.
Print Assumptions C26_squeeze_offset_refuted.

(** squeeze of an empty 2x0 array: one stride for two axes. *)
Theorem C26_squeeze_empty_refuted :
  wf_exp (plain [2; 0] [0; 1]) /\ compute_strides dynamic [2; 0] row_major [0; 0] None = Ok ([0; 1], None, 0) /\
  squeeze row_major row_major (plain [2; 0] [0; 1]) = UB.
Proof. exact squeeze_empty_lemma. Qed.
Print Assumptions C26_squeeze_empty_refuted.

(** C26: squeeze(e, axes) removes the axes given, when they are distinct and have
    extent 1. Partial: the offset of e is 0. *)
Theorem C26_squeeze_axes_partial : forall (D T : layout) (e : xexp) (axes : list Z),
  T = row_major \/ T = column_major -> wf_exp e -> (x_direct e = false -> D = T) ->
  (x_direct e = true -> x_offset e = 0) -> unit_axes e axes ->
  exists v, squeeze_none D T e axes = Ok v /\
    rearranges e v (drop_axes axes 0 (x_shape e)) (drop_axes axes 0) /\
    (x_direct e = true -> layout_true e -> view_layout_true v).
Proof. exact squeeze_none_lemma. Qed.
Print Assumptions C26_squeeze_axes_partial.

(** C26: with check_policy::full() it throws when an axis is out of range or has
    another extent. Partial: an axis equal to the dimension is excluded ... *)
Theorem C26_squeeze_full_partial : forall (D T : layout) (e : xexp) (axes : list Z),
  Forall (fun a => a <> Z.of_nat (length (x_shape e))) axes ->
  (Forall (fun a => 0 <= a < Z.of_nat (length (x_shape e)) /\ nth (Z.to_nat a) (x_shape e) 0 = 1) axes ->
    squeeze_full D T e axes = squeeze_none D T e axes) /\
  (~ Forall (fun a => 0 <= a < Z.of_nat (length (x_shape e)) /\ nth (Z.to_nat a) (x_shape e) 0 = 1) axes ->
    squeeze_full D T e axes = Throw runtime_error).
Proof. exact squeeze_full_lemma. Qed.
Print Assumptions C26_squeeze_full_partial.

(** ... because it is accepted by the check and read outside the shape. *)
Theorem C26_squeeze_axis_refuted : squeeze_full row_major row_major (plain [2; 1] [1; 0]) [2] = UB.
Proof. exact squeeze_axis_lemma. Qed.
Print Assumptions C26_squeeze_axis_refuted.

(** C26: expand_dims inserts an axis of extent 1; squeezing it gives e back (e
    without offset, as above). *)
Theorem C26_expand_dims : forall (T : layout) (e : xexp) (axis : nat) (junk : list Z),
  T = row_major \/ T = column_major -> wf_exp e -> (axis <= length (x_shape e))%nat ->
  exists v, expand_dims T e axis junk = Ok v /\
    rearranges e v (insert_at axis 1 (x_shape e)) (insert_at axis 0) /\ view_layout_true v.
Proof. exact expand_dims_lemma. Qed.
Print Assumptions C26_expand_dims.

Theorem C26_squeeze_expand_partial : forall (D T : layout) (e : xexp) (axis : nat) (junk : list Z),
  T = row_major \/ T = column_major -> wf_exp e -> x_direct e = true -> x_offset e = 0 -> (axis <= length (x_shape e))%nat ->
  exists v w, expand_dims T e axis junk = Ok v /\ squeeze_full D T (as_exp v) [Z.of_nat axis] = Ok w /\
    rearranges e w (x_shape e) (fun ix => ix).
Proof. exact squeeze_expand_lemma. Qed.
Print Assumptions C26_squeeze_expand_partial.

(** C26: atleast_Nd<N> adds the missing axes, one in front when at least half of the
    axes are missing and the others behind (as numpy.atleast_1d, 2d and 3d). *)
Theorem C26_atleast : forall (T : layout) (N : nat) (e : xexp) (junk : list Z),
  T = row_major \/ T = column_major -> wf_exp e ->
  let d := length (x_shape e) in
  let missing := (N - d)%nat in
  exists front v, atleast_Nd T N e junk = Ok v /\
    (front <= missing)%nat /\ (front = if (0 <? missing)%nat && (N <=? 2 * missing)%nat then 1 else 0)%nat /\
    rearranges e v (repeat 1 front ++ x_shape e ++ repeat 1 (missing - front))
      (fun ix => repeat 0 front ++ ix ++ repeat 0 (missing - front)) /\
    view_layout_true v.
Proof. exact atleast_lemma. Qed.
Print Assumptions C26_atleast.

Example C26_case :
  let a := plain [1; 2; 1; 3] [0; 3; 0; 1] in
  wf_exp a /\ unit_axes a [2; 0] /\ Forall2 (fun n s => n = 1 <-> s = 0) (x_shape a) (x_strides a) /\
  (let* v := squeeze row_major row_major a in
   let* c := w_call v [1; 2] in Ok (w_shape v, w_layout v, c)) = Ok ([2; 3], row_major, x_elem a [0; 1; 0; 2]) /\
  (let* v := squeeze_full row_major row_major a [2] in
   let* c := w_call v [0; 1; 2] in Ok (w_shape v, c)) = Ok ([1; 2; 3], x_elem a [0; 1; 0; 2]) /\
  squeeze_full row_major row_major a [1] = Throw runtime_error /\
  squeeze_full row_major row_major a [5] = Throw runtime_error /\
  (let* v := expand_dims row_major (plain [2; 3] [3; 1]) 1 [8; 8; 8] in Ok (w_shape v)) = Ok [2; 1; 3] /\
  (let* v := atleast_Nd row_major 3 (plain [5] [1]) [8; 8; 8] in Ok (w_shape v)) = Ok [1; 5; 1] /\
  (let* v := atleast_Nd row_major 3 (plain [2; 3] [3; 1]) [8; 8; 8] in Ok (w_shape v)) = Ok [2; 3; 1].
Proof.
  cbn zeta. split; [split; [repeat constructor; lia|reflexivity]|].
  split.
  { split; [constructor; [intros [H|[]]; discriminate|constructor; [intros []|constructor]]|].
    repeat constructor; cbn; lia. }
  split; [repeat constructor; cbn; lia|]. repeat split; vm_compute; reflexivity.
Qed.

(** C27, split: n views of equal extent along the axis, the i-th showing the elements
    from i * step on; it throws exactly when the axis is out of range or n does not
    divide the extent. *)
Theorem C27_split : forall (T : layout) (e : xexp) (n axis : nat) (junk : nat -> list Z),
  T = row_major \/ T = column_major -> wf_exp e -> (0 < n)%nat ->
  (((axis < length (x_shape e))%nat /\ exists step, nth axis (x_shape e) 0 = Z.of_nat n * step) ->
    exists vs step, split T e n axis junk = Ok vs /\ length vs = n /\ nth axis (x_shape e) 0 = Z.of_nat n * step /\
      forall i v, nth_error vs i = Some v ->
        w_shape v = upd (x_shape e) axis step /\ view_layout_true v /\
        forall ix, in_bounds (w_shape v) ix ->
          in_bounds (x_shape e) (upd ix axis (Z.of_nat i * step + nth axis ix 0)) /\
          reads v ix (x_elem e (upd ix axis (Z.of_nat i * step + nth axis ix 0)))) /\
  (~ ((axis < length (x_shape e))%nat /\ exists step, nth axis (x_shape e) 0 = Z.of_nat n * step) ->
    split T e n axis junk = Throw runtime_error).
Proof. exact split_lemma. Qed.
Print Assumptions C27_split.

Example C27_case_split :
  let a := plain [2; 6] [6; 1] in
  (let* vs := split row_major a 3 1 (fun _ => []) in
   match vs with [_; v; _] => let* c := w_call v [1; 0] in Ok (w_shape v, c) | _ => UB end) = Ok ([2; 2], x_elem a [1; 2]) /\
  split row_major a 4 1 (fun _ => []) = Throw runtime_error /\
  split row_major a 2 2 (fun _ => []) = Throw runtime_error.
Proof. repeat split; vm_compute; reflexivity. Qed.
