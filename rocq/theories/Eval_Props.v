(** C99: eval and as_strided. *)
From Coq Require Import List Bool Arith Lia.
From Verif Require Import Prelude Strides_Model Layout_Model Eval_Model Eval_Spec Eval_Proofs.
Import ListNotations.
Open Scope nat_scope.

Definition sums (ls : list (list nat)) : list nat := match ls with [a; b] => map (fun p => fst p + snd p) (combine a b) | _ => [] end.
Definition start : @memory (list nat) := [Some (Arr row_major [1; 2; 3]); Some (View row_major 0 (skipn 1) (fun old new => firstn 1 old ++ new)); Some (Lazy row_major sums [0; 0])].

(** eval of anything but a container is a new container with the elements at the call: no later statement that does not name the new container changes it,
    whatever becomes of the containers the expression was made of, and no earlier object is changed by the call. *)
Theorem C99_eval_copy : forall (X : Type) (tmp : layout -> layout) (m : @memory X) a b x,
  closed m -> closed_arg m a -> arg_is m a b -> (forall L y, b <> Arr L y) -> shows m a x ->
  forall L, of_layout b L -> exists r m', eval tmp m a = Ok (r, m') /\ length m <= r /\ alive m' r (Arr (tmp L) x) /\ (forall o, o < length m -> nth_error m' o = nth_error m o) /\
    forall p m2, Forall (apart r) p -> run m' p = Ok m2 -> value m2 r = Ok x.
Proof. intros X tmp m a b x C Ca B N S L0 HL. apply of_layout_ok in HL. subst L0. rewrite eval_either. apply (copy_ok is_container (fun b => tmp (static_layout b)) m a b x C Ca B); [destruct b; [exfalso; now apply (N L x0)|reflexivity|reflexivity]|exact S]. Qed.
Print Assumptions C99_eval_copy.
Example C99_case_copy : exists r m', eval (fun L => L) start (Named 2) = Ok (r, m') /\ value m' r = Ok [2; 4; 6] /\
  (let* m2 := run m' [Write 0 [7; 7; 7]] in value m2 2) = Ok [14; 14; 14] /\ (let* m2 := run m' [Write 0 [7; 7; 7]; End 0] in value m2 r) = Ok [2; 4; 6] /\
  (let* m2 := run m' [End 0] in value m2 2) = UB.
Proof. eexists. eexists. split; [reflexivity|]. repeat split. Qed.
Example C99_case_closed : closed start.
Proof. intros o L v look back H. destruct o as [|[|[|[|o]]]]; cbn in H; try discriminate. injection H as _ <- _ _. cbn. lia. Qed.

(** eval of a container variable is that variable: nothing is copied, and what is written to either is seen in both. *)
Theorem C99_eval_reference : forall (X : Type) (tmp : layout -> layout) (m : @memory X) o L x, alive m o (Arr L x) ->
  exists r, eval tmp m (Named o) = Ok (r, m) /\ value m r = Ok x /\
    forall y, exists m2, exec m (Write r y) = Ok m2 /\ value m2 o = Ok y /\ exec m (Write o y) = Ok m2 /\ value m2 r = Ok y.
Proof.
  intros X tmp m o L x A. exists o. rewrite eval_either. split; [now apply (same_ok is_container _ m o _ A)|]. split; [unfold value; now rewrite (get_ok _ _ _ A)|].
  intros y. exists (upd m o (Some (Arr L y))). cbn [exec]. rewrite (get_ok _ _ _ A). cbn [bind].
  assert (V : value (upd m o (Some (Arr L y))) o = Ok y) by (unfold value; rewrite (get_ok _ _ (Arr L y)); [reflexivity|]; apply upd_here; now apply nth_lt in A). now repeat split.
Qed.
Print Assumptions C99_eval_reference.
Example C99_case_reference : eval (fun L => L) start (Named 0) = Ok (0, start).
Proof. reflexivity. Qed.

(** as_strided<L>: an expression without data interface, or one of another layout, is copied into a new container of layout L (of the default layout for "any"), as with eval. *)
Theorem C99_strided_copy : forall (X : Type) (def : layout) L (m : @memory X) a b x,
  closed m -> closed_arg m a -> arg_is m a b -> ~ offers_data b \/ (~ of_layout b L /\ L <> any) -> shows m a x ->
  exists r m', as_strided def L m a = Ok (r, m') /\ length m <= r /\ alive m' r (Arr (if layout_eqb L any then def else L) x) /\
    (forall o, o < length m -> nth_error m' o = nth_error m o) /\ forall p m2, Forall (apart r) p -> run m' p = Ok m2 -> value m2 r = Ok x.
Proof.
  intros X def L m a b x C Ca B N S. rewrite strided_either. assert (E : (if layout_eqb L any then def else L) = layout_remove_any def L) by (destruct L; reflexivity). rewrite E.
  apply (copy_ok (fun b => has_data b && same_layout L b) (fun _ => layout_remove_any def L) m a b x C Ca B); [|exact S].
  destruct N as [N|(N1 & N2)]; [now rewrite (data_no b N)|]. rewrite of_layout_ok in N1. unfold same_layout. destruct (layout_eqb (static_layout b) L) eqn:Q1; [now apply layout_eqb_ok in Q1|]. destruct (layout_eqb L any) eqn:Q2; [now apply layout_eqb_ok in Q2|]. now destruct (has_data b).
Qed.
Print Assumptions C99_strided_copy.
Example C99_case_strided : exists r m', as_strided row_major column_major start (Named 0) = Ok (r, m') /\ r <> 0 /\ alive m' r (Arr column_major [1; 2; 3]) /\
  (let* m2 := run m' [Write 0 [7; 7; 7]] in value m2 r) = Ok [1; 2; 3].
Proof. eexists. eexists. split; [reflexivity|]. split; [discriminate|]. split; reflexivity. Qed.

(** as_strided<L> of a variable with a data interface and layout L is that variable: also a view, through which its container is written. *)
Theorem C99_strided_reference : forall (X : Type) (def : layout) L (m : @memory X) o b, alive m o b -> offers_data b -> of_layout b L \/ L = any ->
  as_strided def L m (Named o) = Ok (o, m).
Proof.
  intros X def L m o b A D E. apply data_ok in D. rewrite of_layout_ok in E. rewrite strided_either. apply (same_ok (fun b => has_data b && same_layout L b) _ m o b A). rewrite D. unfold same_layout. destruct E as [ -> | -> ]; [destruct L; reflexivity|now rewrite orb_true_r].
Qed.
Print Assumptions C99_strided_reference.
Example C99_case_strided_view : (let* '(r, m) := as_strided row_major row_major start (Named 1) in let* m := run m [Write r [8; 9]] in value m 0) = Ok [1; 8; 9].
Proof. reflexivity. Qed.

(** as_strided<L> of a variable has a data interface and, unless L is "any", layout L, and shows the elements of the variable. *)
Theorem C99_layout : forall (X : Type) (def : layout) L (m : @memory X) o x, closed m -> value m o = Ok x ->
  exists r m' b, as_strided def L m (Named o) = Ok (r, m') /\ alive m' r b /\ offers_data b /\ (L <> any -> of_layout b L) /\ value m' r = Ok x.
Proof.
  intros X def L m o x C V. destruct (get m o) as [b| |] eqn:G; [|unfold value in V; rewrite G in V; discriminate|unfold value in V; rewrite G in V; discriminate]. apply get_alive in G.
  rewrite strided_either. set (keep := fun b : @obj X => has_data b && same_layout L b). destruct (keep b) eqn:K.
  - exists o, m, b. split; [now apply (same_ok keep _ m o b G)|]. split; [exact G|]. unfold keep in K. apply andb_true_iff in K. destruct K as (K1 & K2). split; [now apply data_ok|]. split; [|exact V].
    intros N. apply of_layout_ok. unfold same_layout in K2. apply orb_true_iff in K2. destruct K2 as [K2|K2]; apply layout_eqb_ok in K2; congruence.
  - destruct (copy_ok keep (fun _ => layout_remove_any def L) m (Named o) b x C I G K V) as (r & m' & E & _ & A & _ & P). exists r, m', (Arr (layout_remove_any def L) x).
    split; [exact E|]. split; [exact A|]. split; [now apply data_ok|]. split; [intros N; apply of_layout_ok; destruct L; now try reflexivity|]. apply (P []); [constructor|reflexivity].
Qed.
Print Assumptions C99_layout.
Example C99_case_layout : exists r m', as_strided row_major column_major start (Named 2) = Ok (r, m') /\ alive m' r (Arr column_major [2; 4; 6]).
Proof. eexists. eexists. split; reflexivity. Qed.

(** Refuted: that auto&& r = eval(...) can be read afterwards. When the argument is a temporary container, as the result of a function is, r refers to it after its end. *)
Theorem C99_temporary_refuted : forall (X : Type) (tmp : layout -> layout) (m : @memory X) L x,
  exists r m', eval tmp m (Temporary (Arr L x)) = Ok (r, m') /\ forall p m2, run m' p = Ok m2 -> value m2 r = UB.
Proof. intros X tmp m L x. rewrite eval_either. exists (length m). now apply (dangling is_container _ m (Arr L x)). Qed.
Print Assumptions C99_temporary_refuted.
(** The same for as_strided of a temporary container or view of the layout asked for. A temporary of another layout is copied: whether the program is correct depends on the layout. *)
Theorem C99_strided_temporary_refuted : forall (X : Type) (def : layout) L (m : @memory X) b, offers_data b -> of_layout b L \/ L = any ->
  exists r m', as_strided def L m (Temporary b) = Ok (r, m') /\ forall p m2, run m' p = Ok m2 -> value m2 r = UB.
Proof.
  intros X def L m b D E. apply data_ok in D. rewrite of_layout_ok in E. rewrite strided_either. exists (length m). apply (dangling (fun b => has_data b && same_layout L b) _ m b). rewrite D. unfold same_layout. destruct E as [ -> | -> ]; [destruct L; reflexivity|now rewrite orb_true_r].
Qed.
Print Assumptions C99_strided_temporary_refuted.
Example C99_case_temporary :
  (let* '(r, m) := eval (fun L => L) start (Temporary (Arr row_major [5])) in value m r) = UB /\
  (let* '(r, m) := as_strided row_major row_major start (Temporary (Arr row_major [5])) in value m r) = UB /\
  (let* '(r, m) := as_strided row_major column_major start (Temporary (Arr row_major [5])) in value m r) = Ok [5] /\
  (let* '(r, m) := eval (fun L => L) start (Temporary (Lazy row_major sums [0; 0])) in let* m := run m [End 0] in value m r) = Ok [2; 4; 6].
Proof. repeat split. Qed.
