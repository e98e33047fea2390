(** C97: linear iterators of functions. *)
From Coq Require Import List ZArith Bool Lia.
From Verif Require Import Prelude PreludeFacts LinIter_Model LinIter_Spec LinIter_Proofs.
Import ListNotations.
Open Scope Z_scope.

(** Moving an iterator of any expression is addition: the moves compose, ++, --, += and -= agree, and end is as many moves from begin as there are elements. *)
Theorem C97_moves : forall V (e : lexp V) n, arrays_of n e ->
  l_end e = i_plus (Z.of_nat n) (l_begin e) /\
  forall i, i_plus 0 i = i /\ i_next i = i_plus 1 i /\ i_prev i = i_plus (-1) i /\
    (forall a, i_minus a i = i_plus (- a) i) /\ (forall a b, i_plus b (i_plus a i) = i_plus (a + b) (i : lit V)).
Proof.
  intros V e n A. split; [now apply end_at|]. intros i. split; [apply plus_0|]. split; [apply next_plus|]. split; [apply prev_plus|].
  split; intros; [apply minus_plus|apply plus_plus].
Qed.
Print Assumptions C97_moves.

(** The iterator [k] moves from begin refers to element [k]: there is one, and dereferencing yields it. *)
Theorem C97_element : forall V (e : lexp V) n k, arrays_of n e -> (k < n)%nat ->
  (exists v, element e k v) /\ forall v, element e k v <-> i_deref (i_plus (Z.of_nat k) (l_begin e)) = Ok v.
Proof.
  intros V e n k A L. split; [now apply (element_exists n)|]. intros v. split; [apply deref_at|]. intros H.
  destruct (element_exists n e A k L) as (w & W). pose proof (deref_at e k w W) as Q. unfold at_pos in Q. rewrite H in Q. now injection Q as ->.
Qed.
Print Assumptions C97_element.

(** When an array comes before any function of scalars only, iterators compare as their positions. *)
Theorem C97_compare_partial : forall V (e : lexp V) a b, array_first e ->
  i_equal (i_plus a (l_begin e)) (i_plus b (l_begin e)) = (a =? b) /\ i_less (i_plus a (l_begin e)) (i_plus b (l_begin e)) = (a <? b).
Proof. intros V e a b F. split; [now apply equal_at|now apply less_at]. Qed.
Print Assumptions C97_compare_partial.

(** And a loop from begin to end visits every element once and in order; one from end to begin, in the opposite order. *)
Theorem C97_loop_partial : forall V (e : lexp V) n, arrays_of n e -> array_first e ->
  exists l r, l_walk n (l_begin e) (l_end e) = Ok l /\ l_walk_back n (l_end e) (l_begin e) = Ok r /\ r = rev l /\
    length l = n /\ forall k v, nth_error l k = Some v -> element e k v.
Proof. intros V e n A F. now apply loops. Qed.
Print Assumptions C97_loop_partial.

(** The difference of two iterators of a function of arrays is the number of moves from the second to the first, when that is not negative. *)
Theorem C97_difference_partial : forall V f (args : list (lexp V)) a b, has_array (LF f args) ->
  i_diff (i_plus a (l_begin (LF f args))) (i_plus b (l_begin (LF f args))) = Z.max 0 (a - b).
Proof. intros V f args a b H. now apply (proj2 (proj2 (diff_at (LF f args) a b)) f args eq_refl). Qed.
Print Assumptions C97_difference_partial.

(** So begin - end of a function is 0 and not minus the number of elements. *)
Theorem C97_negative_difference_refuted : exists (e : lexp Z), arrays_of 2 e /\ array_first e /\ i_diff (l_begin e) (l_end e) = 0 /\ i_diff (l_end e) (l_begin e) = 2.
Proof. exists (LF (fold_right Z.add 0) [LArr [1; 2]; LArr [3; 4]]). cbn. repeat split. Qed.
Print Assumptions C97_negative_difference_refuted.

(** Whenever the first operand that is no scalar is a function of scalars only, begin equals end and every position: a loop visits nothing. *)
Theorem C97_scalars_first : forall V (e : lexp V) n fuel a b, arrays_of n e -> ~ array_first e ->
  i_equal (i_plus a (l_begin e)) (i_plus b (l_begin e)) = true /\ l_walk fuel (l_begin e) (l_end e) = Ok [].
Proof. intros V e n fuel a b A F. split; [now apply equal_no|now apply (walk_none n)]. Qed.
Print Assumptions C97_scalars_first.

(** Such is (s + t) + a, with s and t xscalars and a an array of three elements. *)
Theorem C97_loop_refuted : exists (e : lexp Z), arrays_of 3 e /\ has_array e /\ l_walk 3 (l_begin e) (l_end e) = Ok [] /\
  element e 0 13 /\ element e 1 23 /\ element e 2 33.
Proof.
  exists (LF (fold_right Z.add 0) [LF (fold_right Z.add 0) [LSc 1; LSc 2]; LArr [10; 20; 30]]).
  split; [cbn; tauto|]. split; [cbn; tauto|]. split; [reflexivity|]. now apply three.
Qed.
Print Assumptions C97_loop_refuted.

(** 2 * a + (a - b) over arrays of three elements. *)
Definition c97_e : lexp Z := LF (fold_right Z.add 0) [LF (fold_right Z.mul 1) [LSc 2; LArr [5; 6; 7]]; LF (fun l => nth 0 l 0 - nth 1 l 0) [LArr [5; 6; 7]; LArr [1; 1; 3]]].
Example C97_case : arrays_of 3 c97_e /\ array_first c97_e /\ has_array c97_e /\ l_walk 3 (l_begin c97_e) (l_end c97_e) = Ok [14; 17; 18] /\ l_walk_back 3 (l_end c97_e) (l_begin c97_e) = Ok [18; 17; 14] /\ i_diff (l_end c97_e) (l_begin c97_e) = 3.
Proof. cbn. repeat split; auto. Qed.
