(** Property C60: iterating over and assigning views that are not strided. *)
From Coq Require Import List ZArith Bool Lia.
From Verif Require Import Prelude Strides_Model Strides_Spec Slice_Model Slice_Spec View_Spec SView_Model XView_Model
  Stepper_Model Stepper_Spec VStep_Model VStep_Spec VStep5_Proofs.
Import ListNotations.
Open Scope Z_scope.

(** C60. For any slices (but an empty keep()) of any expression, in row or column
    major order, also when the view has an extent 0 or no axis: after k < size
    increments of begin() the iterator differs from end() and reads the element
    the k-th index of the view stands for; after size increments it equals end(). *)
Theorem C60_iteration :
  forall (V : Type) (l : layout) (e : sexp V) (esh : list Z) (us : list user_slice),
  l = row_major \/ l = column_major -> is_shape esh -> operands_ok esh e ->
  valid true us esh -> ~ In (UKeep []) us ->
  exists ss vsh, view_of esh us = Ok (ss, vsh) /\ view_shape us esh vsh /\
  forall junk, length junk = length ss ->
  exists b en,
    view_it_begin e esh ss vsh l = Ok b /\ view_it_end e esh ss vsh junk l = Ok en /\
    (forall k, Z.of_nat k < prod vsh ->
       exists it, it_inc_k (vs_ops (x_ops esh e) esh ss vsh 0) vsh l k b = Ok it /\ it_equal it en = false /\
         forall ix, in_bounds vsh ix -> order_pos l vsh ix = Z.of_nat k ->
           exists jx, source_index us esh ix jx /\ in_bounds esh jx /\ view_it_deref e it = x_value jx e) /\
    (exists it, it_inc_k (vs_ops (x_ops esh e) esh ss vsh 0) vsh l (Z.to_nat (prod vsh)) b = Ok it /\ it_equal it en = true).
Proof. exact (@view_iteration_lemma). Qed.
Print Assumptions C60_iteration.

(** The slots of view(-g, drop(1), range(2, _, -1)) on a 4x3 array g. *)
Example C60_case_iteration :
  let us := [UDrop [1]; URange (Some 2) None (Some (-1))] in
  is_shape [4;3] /\ operands_ok [4;3] (neg grid43) /\ valid true us [4;3] /\ ~ In (UKeep []) us /\
  map (fun k => let* '(ss, vsh) := view_of [4;3] us in
                let* b := view_it_begin (neg grid43) [4;3] ss vsh row_major in
                let* it := it_inc_k (vs_ops (x_ops [4;3] (neg grid43)) [4;3] ss vsh 0) vsh row_major k b in
                view_it_deref (neg grid43) it) (seq 0 9) =
  [Ok (-2); Ok (-1); Ok 0; Ok (-22); Ok (-21); Ok (-20); Ok (-32); Ok (-31); Ok (-30)].
Proof.
  cbn zeta. split; [repeat constructor; lia|]. split; [apply neg_ok, grid43_ok|]. split.
  { apply va_drop; [reflexivity|cbn; auto|repeat constructor; cbn; lia|].
    apply va_range; [discriminate|right; left; vm_compute; discriminate|apply va_rest]. }
  split; [intros [H|[H|[]]]; discriminate|]. vm_compute. reflexivity.
Qed.

(** C60, assigned to a container of the shape of the view: the assignment loop reads,
    for the index it has reached, the element the view stands for. *)
Theorem C60_assigned :
  forall (V : Type) (l : layout) (e : sexp V) (esh : list Z) (us : list user_slice),
  l = row_major \/ l = column_major -> is_shape esh -> operands_ok esh e ->
  valid true us esh -> ~ In (UKeep []) us ->
  exists ss vsh, view_of esh us = Ok (ss, vsh) /\ view_shape us esh vsh /\
  forall ix, in_bounds vsh ix -> exists jx, source_index us esh ix jx /\ in_bounds esh jx /\
    view_walk e esh ss vsh vsh l (Z.to_nat (order_pos l vsh ix)) = x_value jx e.
Proof.
  intros V l e esh us H1 H2 H3 H4 H5.
  destruct (view_walk_lemma l e esh us H1 H2 H3 H4 H5) as (ss & vsh & E & S & W).
  exists ss, vsh. split; [exact E|]. split; [exact S|]. intros ix Hb. destruct (W ix Hb) as (jx & J1 & J2 & J3 & _). eauto.
Qed.
Print Assumptions C60_assigned.

(** view(g, keep(3, 0), newaxis(), 1) assigned in column major order. *)
Example C60_case_assigned :
  let us := [UKeep [3;0]; UNewaxis; UInt 1] in
  valid true us [4;3] /\ ~ In (UKeep []) us /\
  map (fun k => let* '(ss, vsh) := view_of [4;3] us in view_walk grid43 [4;3] ss vsh vsh column_major k) (seq 0 2) = [Ok 31; Ok 1].
Proof.
  cbn zeta. split.
  { apply va_keep; [reflexivity|repeat constructor; lia|]. apply va_new. apply va_int; [cbn; lia|apply va_rest]. }
  split; [intros [H|[H|[H|[]]]]; discriminate|]. vm_compute. reflexivity.
Qed.

(** C60, assigned to: when the assignment loop over a view of a container has
    reached an index of the view, the stepper it writes through points to the
    place of the element the index stands for. *)
Theorem C60_target :
  forall (V : Type) (l : layout) (c : container) (buf : list V) (us : list user_slice),
  l = row_major \/ l = column_major -> is_shape (k_shape c) -> strided_ok c ->
  valid true us (k_shape c) -> ~ In (UKeep []) us ->
  let e := XStrided c buf in let esh := k_shape c in
  exists ss vsh, view_of esh us = Ok (ss, vsh) /\ view_shape us esh vsh /\
  exists st0, view_stepper_begin e esh ss = Ok st0 /\
  forall ix, in_bounds vsh ix -> exists jx st, source_index us esh ix jx /\ in_bounds esh jx /\
    walk (vs_ops (x_ops esh e) esh ss vsh 0) vsh l (Z.to_nat (order_pos l vsh ix)) (map (fun _ => 0) vsh) st0 = Ok (ix, st) /\
    vt_it st = TPtr (k_begin c + dot jx (k_strides c)).
Proof. exact (@view_target_lemma). Qed.
Print Assumptions C60_target.

(** The fourth place written by view(g, keep(3, 1), drop(1)) = ... is that of g(1, 2). *)
Example C60_case_target :
  let us := [UKeep [3;1]; UDrop [1]] in
  strided_ok (mk_container [4;3] [3;1] [9;2] 0) /\ valid true us [4;3] /\
  (let* '(ss, vsh) := view_of [4;3] us in
   let* st0 := view_stepper_begin grid43 [4;3] ss in
   let* '(ix, st) := walk (vs_ops (x_ops [4;3] grid43) [4;3] ss vsh 0) vsh row_major 3 [0;0] st0 in
   Ok (ix, vt_it st)) = Ok ([1;1], TPtr 5).
Proof.
  cbn zeta. split; [apply grid43_ok|]. split; [|vm_compute; reflexivity].
  apply va_keep; [reflexivity|repeat constructor; lia|]. apply va_drop; [reflexivity|cbn; auto|repeat constructor; cbn; lia|apply va_rest].
Qed.

(** C60, any moves of two iterators from begin() or end(), backwards too. Missing:
    views without axis and the slices excluded by [reverse_ok], for which moving
    backwards from end() is wrong as shown below. *)
Theorem C60_moves_partial :
  forall (V : Type) (l : layout) (e : sexp V) (esh : list Z) (us : list user_slice),
  l = row_major \/ l = column_major -> is_shape esh -> operands_ok esh e ->
  valid true us esh -> ~ In (UKeep []) us ->
  exists ss vsh, view_of esh us = Ok (ss, vsh) /\ view_shape us esh vsh /\
  (vsh <> [] -> Forall (fun d => 0 < d) vsh -> reversible l e -> reverse_ok l ss esh = true ->
   forall junk, length junk = length ss ->
   let ops := vs_ops (x_ops esh e) esh ss vsh 0 in
   exists b en,
    view_it_begin e esh ss vsh l = Ok b /\ view_it_end e esh ss vsh junk l = Ok en /\
    forall (from_end1 from_end2 : bool) (ms1 ms2 : list move),
    let start1 := if from_end1 then prod vsh else 0 in
    let start2 := if from_end2 then prod vsh else 0 in
    stays (prod vsh) start1 ms1 -> stays (prod vsh) start2 ms2 ->
    exists it1 it2,
      do_moves ops vsh l ms1 (if from_end1 then en else b) = Ok it1 /\
      do_moves ops vsh l ms2 (if from_end2 then en else b) = Ok it2 /\
      (forall ix, in_bounds vsh ix -> order_pos l vsh ix = final start1 ms1 ->
         exists jx, source_index us esh ix jx /\ in_bounds esh jx /\ view_it_deref e it1 = x_value jx e) /\
      it_diff it1 it2 = final start1 ms1 - final start2 ms2 /\
      it_equal it1 it2 = (final start1 ms1 =? final start2 ms2) /\
      it_less it1 it2 = (final start1 ms1 <? final start2 ms2)).
Proof. exact (@view_moves_lemma). Qed.
Print Assumptions C60_moves_partial.

(** view(g, keep(0, 2), drop(0)) backwards, whatever the keeper held. *)
Example C60_case_moves :
  let us := [UKeep [0;2]; UDrop [0]] in
  valid true us [4;3] /\ reversible row_major grid43 /\
  (let* '(ss, _) := view_of [4;3] us in Ok (reverse_ok row_major ss [4;3])) = Ok true /\
  map (view_reverse grid43 [4;3] us [77;-5] row_major) (seq 0 4) = [Ok 22; Ok 21; Ok 2; Ok 1].
Proof.
  cbn zeta. split.
  { apply va_keep; [reflexivity|repeat constructor; lia|]. apply va_drop; [reflexivity|cbn; auto|repeat constructor; cbn; lia|apply va_rest]. }
  split; [split; [discriminate|exact I]|]. split; vm_compute; reflexivity.
Qed.

(** ** Backwards, what fails *)

(** view(-a, range(0, 6, 2)): the last element is -4, *rbegin() is -3. *)
Theorem C60_reverse_step_refuted :
  let us := [URange (Some 0) (Some 6) (Some 2)] in
  (forall j, view_reverse (neg row6) [6] us [j] row_major 0 = Ok (-3)) /\
  source_index us [6] [2] [4] /\ x_value [4] (neg row6) = Ok (-4).
Proof.
  cbn zeta. split; [intros; vm_compute; reflexivity|]. split; [|reflexivity].
  exact (si_range 2 (Some 0) (Some 6) (Some 2) 6 [] [] [] [] (si_rest [] [])).
Qed.
Print Assumptions C60_reverse_step_refuted.

(** view(g, keep(0, 2)), the second axis without slice: after the three elements of
    the last row, g(1, 2) is read instead of g(0, 2). *)
Theorem C60_reverse_keep_refuted :
  let us := [UKeep [0;2]] in
  (forall j, view_reverse grid43 [4;3] us [j] row_major 3 = Ok 12) /\
  source_index us [4;3] [0;2] [0;2] /\ x_value [0;2] grid43 = Ok 2.
Proof.
  cbn zeta. split; [intros; vm_compute; reflexivity|]. split; [|reflexivity].
  exact (si_keep 0 0 [0;2] 4 [] [3] [2] [2] eq_refl (si_rest [3] [2])).
Qed.
Print Assumptions C60_reverse_keep_refuted.

(** view(-g, all(), 1): the last element is g(3, 1), g(2, 2) is read. *)
Theorem C60_reverse_integer_refuted :
  let us := [UAll; UInt 1] in
  (forall j k, view_reverse (neg grid43) [4;3] us [j;k] row_major 0 = Ok (-22)) /\
  source_index us [4;3] [3] [3;1] /\ x_value [3;1] (neg grid43) = Ok (-31).
Proof.
  cbn zeta. split; [intros; vm_compute; reflexivity|]. split; [|reflexivity].
  exact (si_all 3 4 _ _ _ _ (si_int 1 3 [] [] [] [] (si_rest [] []))).
Qed.
Print Assumptions C60_reverse_integer_refuted.

(** view(g, 1, keep(0, 2)): the position of the kept indices is looked up at the
    number of the slice, and is outside of them. *)
Theorem C60_reverse_integer_keep_refuted :
  valid true [UInt 1; UKeep [0;2]] [4;3] /\
  (forall j k, view_reverse grid43 [4;3] [UInt 1; UKeep [0;2]] [j;k] row_major 0 = UB).
Proof.
  split; [|intros; vm_compute; reflexivity].
  apply va_int; [cbn; lia|]. apply va_keep; [reflexivity|repeat constructor; lia|apply va_rest].
Qed.
Print Assumptions C60_reverse_integer_keep_refuted.

(** view(-g, 1, 1): the only element is g(1, 1), g(0, 0) is read. *)
Theorem C60_reverse_scalar_refuted :
  (forall j k, view_reverse (neg grid43) [4;3] [UInt 1; UInt 1] [j;k] row_major 0 = Ok 0) /\
  source_index [UInt 1; UInt 1] [4;3] [] [1;1] /\ x_value [1;1] (neg grid43) = Ok (-11).
Proof.
  split; [intros; vm_compute; reflexivity|]. split; [|reflexivity].
  exact (si_int 1 4 _ _ _ _ (si_int 1 3 [] [] [] [] (si_rest [] []))).
Qed.
Print Assumptions C60_reverse_scalar_refuted.

(** view(-a, all(), newaxis()): a position past the buffer is read. *)
Theorem C60_reverse_newaxis_refuted :
  valid true [UAll; UNewaxis] [6] /\
  (forall j k, view_reverse (neg row6) [6] [UAll; UNewaxis] [j;k] row_major 0 = UB).
Proof. split; [apply va_all, va_new, va_rest|intros; vm_compute; reflexivity]. Qed.
Print Assumptions C60_reverse_newaxis_refuted.

(** view(a, keep(2)): 3 is read instead of 2. *)
Theorem C60_reverse_single_refuted :
  (forall j, view_reverse row6 [6] [UKeep [2]] [j] row_major 0 = Ok 3) /\
  source_index [UKeep [2]] [6] [0] [2] /\ x_value [2] row6 = Ok 2.
Proof.
  split; [intros; vm_compute; reflexivity|]. split; [|reflexivity].
  exact (si_keep 0 2 [2] 6 [] [] [] [] eq_refl (si_rest [] [])).
Qed.
Print Assumptions C60_reverse_single_refuted.

(** ** Broadcasting and empty keep() *)

(** view(a, keep(1, 3)) assigned to a 2x2 array: the second step is undefined. *)
Theorem C60_broadcast_refuted :
  valid true [UKeep [1;3]] [6] /\
  (let* '(ss, vsh) := view_of [6] [UKeep [1;3]] in view_walk row6 [6] ss vsh [2;2] row_major 1) = UB.
Proof.
  split; [|vm_compute; reflexivity]. apply va_keep; [reflexivity|repeat constructor; lia|apply va_rest].
Qed.
Print Assumptions C60_broadcast_refuted.

(** begin() and end() of view(a, keep()) look up a kept index. *)
Theorem C60_empty_keep_refuted :
  valid true [UKeep []] [6] /\
  (let* '(ss, vsh) := view_of [6] [UKeep []] in view_it_begin row6 [6] ss vsh row_major) = UB /\
  (forall j, (let* '(ss, vsh) := view_of [6] [UKeep []] in view_it_end row6 [6] ss vsh [j] row_major) = UB).
Proof.
  split; [apply va_keep; [reflexivity|constructor|apply va_rest]|]. split; [|intros]; vm_compute; reflexivity.
Qed.
Print Assumptions C60_empty_keep_refuted.
