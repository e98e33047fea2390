(** C96: what isin keeps of its test elements. *)
From Coq Require Import List Bool Arith.
From Verif Require Import Prelude Isin_Model Isin_Spec Isin_Proofs.
Import ListNotations.
Open Scope nat_scope.

(** isin(e, container()) keeps the elements: the result is the same after any program. *)
Theorem C96_temporary : forall V (eqb : V -> V -> bool) (m m1 m2 : @memory V) l c p es,
  isin_temporary m l = Ok (c, m1) -> run m1 p = Ok m2 -> exists bs, results eqb m2 c es = Ok bs /\ marks eqb l es bs.
Proof. intros V eqb m m1 m2 l c p es E _. injection E as <- _. apply results_marks. reflexivity. Qed.
Print Assumptions C96_temporary.
(** isin(e, variable) looks at the variable each time: after any program the result is that for its present elements, and undefined if the variable has ended. *)
Theorem C96_variable : forall V (eqb : V -> V -> bool) (m m1 m2 : @memory V) o c p es, isin_variable m o = Ok (c, m1) -> run m1 p = Ok m2 ->
  (forall l, sequence m2 o l -> exists bs, results eqb m2 c es = Ok bs /\ marks eqb l es bs) /\ (ended m2 o -> es <> [] -> results eqb m2 c es = UB).
Proof.
  intros V eqb m m1 m2 o c p es E _. unfold isin_variable in E. destruct (contents m o); cbn [bind] in E; try discriminate. injection E as <- _.
  split; [intros l; apply variable_ok|apply variable_ended].
Qed.
Print Assumptions C96_variable.
(** isin(e, it1, it2) with iterator variables: the result is that for the present elements between the iterators, after every program that keeps the three variables, the block and the iterators. *)
Theorem C96_iterators : forall V (eqb : V -> V -> bool) (m m1 m2 : @memory V) b e o i j l c p es, range_of m b e o i j l -> isin_iterators m b e = Ok (c, m1) ->
  Forall (leaves b e o) p -> run m1 p = Ok m2 ->
  exists l' bs, sequence m2 o l' /\ length l' = length l /\ results eqb m2 c es = Ok bs /\ marks eqb (firstn (j - i) (skipn i l')) es bs.
Proof.
  intros V eqb m m1 m2 b e o i j l c p es R E F H. injection E as <- <-. destruct (run_range b e o i j p m m2 l R F H) as (l' & R' & L).
  destruct (iters_ok eqb m2 b e o i j l' es R') as (bs & Er & Mk). exists l', bs. destruct R' as (g & Eo & _). repeat split; auto. exists g. exact Eo.
Qed.
Print Assumptions C96_iterators.
(** Used within the full expression, lists and begin(), end() work. *)
Theorem C96_at_once : forall V (eqb : V -> V -> bool) (m : @memory V) l es,
  (exists bs, isin_list_now eqb m l es = Ok bs /\ marks eqb l es bs) /\ (forall o, sequence m o l -> exists bs, isin_begin_end_now eqb m o es = Ok bs /\ marks eqb l es bs).
Proof. intros V eqb m l es. split; [apply list_now_ok|]. intros o. apply begin_end_now_ok. Qed.
Print Assumptions C96_at_once.

(** But not later: auto r = isin(e, {1, 2}) refers to an array that has ended, whatever the program does next. *)
Theorem C96_list_refuted : forall V (eqb : V -> V -> bool) (m m1 m2 : @memory V) l c p es, isin_list m l = Ok (c, m1) -> run m1 p = Ok m2 -> es <> [] -> results eqb m2 c es = UB.
Proof.
  intros V eqb m m1 m2 l c p es E H. injection E as <- <-. apply list_ended. refine (run_ended (length m) p _ _ _ H).
  unfold ended. rewrite nth_error_app2, Nat.sub_diag by apply le_n. reflexivity.
Qed.
Print Assumptions C96_list_refuted.
(** auto r = isin(e, v.begin(), v.end()) refers to two iterators that have ended. *)
Theorem C96_begin_end_refuted : forall V (eqb : V -> V -> bool) (m m1 m2 : @memory V) o c p es, isin_begin_end m o = Ok (c, m1) -> run m1 p = Ok m2 -> es <> [] -> results eqb m2 c es = UB.
Proof.
  intros V eqb m m1 m2 o c p es E H. unfold isin_begin_end in E. destruct (contents m o) as [[l g]| |]; cbn [bind] in E; try discriminate. injection E as <- <-. apply iters_ended.
  refine (run_ended (length m) p _ _ _ H). unfold ended. rewrite nth_error_app2, Nat.sub_diag by apply le_n. reflexivity.
Qed.
Print Assumptions C96_begin_end_refuted.
(** isin(e, it1, it2) does not keep the positions: moving it1 afterwards changes the result. *)
Theorem C96_moved_refuted : exists (m m1 m2 : @memory nat) c, range_of m 1 2 0 0 2 [5; 6] /\ isin_iterators m 1 2 = Ok (c, m1) /\ results Nat.eqb m1 c [5] = Ok [true] /\
  run m1 [Move 1 0 1] = Ok m2 /\ results Nat.eqb m2 c [5] = Ok [false].
Proof.
  exists [Some (Seq [5; 6] 0); Some (Pos 0 0 0); Some (Pos 0 2 0)]. do 3 eexists. split; [exists 0; cbn; repeat split; auto|]. repeat split.
Qed.
Print Assumptions C96_moved_refuted.

Example C96_case_variable : exists m1 m2 c, isin_variable [Some (Seq [1; 2] 0)] 0 = Ok (c, m1) /\ results Nat.eqb m1 c [2; 3] = Ok [true; false] /\
  run m1 [Change 0 1 3; Make (Seq [9] 0); End 1] = Ok m2 /\ sequence m2 0 [1; 3] /\ results Nat.eqb m2 c [2; 3] = Ok [false; true].
Proof. do 3 eexists. split; [reflexivity|]. split; [reflexivity|]. split; [reflexivity|]. split; [exists 0; reflexivity|reflexivity]. Qed.
Example C96_case_iterators : let m := [Some (Seq [5; 6; 7] 0); Some (Pos 0 1 0); Some (Pos 0 3 0)] in
  range_of m 1 2 0 1 3 [5; 6; 7] /\ Forall (leaves 1 2 0) [Change 0 2 5; Make (Seq [] 0); End 3] /\
  exists m2, run m [Change 0 2 5; Make (Seq [] 0); End 3] = Ok m2 /\ results Nat.eqb m2 (ByIters 1 2) [5; 6; 7] = Ok [true; true; false].
Proof.
  split; [exists 0; cbn; repeat split; auto|]. split; [repeat constructor; cbn; intuition discriminate|]. eexists. split; reflexivity.
Qed.
Example C96_case_temporary : exists m1, isin_temporary [] [1; 2] = Ok (ByCopy [1; 2], m1) /\ results Nat.eqb m1 (ByCopy [1; 2]) [2; 3] = Ok [true; false].
Proof. eexists. split; reflexivity. Qed.
