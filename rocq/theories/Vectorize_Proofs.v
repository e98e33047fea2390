(** Proofs about vectorize. *)
From Coq Require Import List Bool Arith Lia.
From Verif Require Import Prelude Vectorize_Model Vectorize_Spec.
Import ListNotations.
Open Scope nat_scope.

Lemma upd_other {A} : forall (l : list A) i x k, k <> i -> nth_error (upd l i x) k = nth_error l k.
Proof. induction l as [|a l IH]; intros [|i] x [|k] N; cbn; try reflexivity; try lia. apply IH. lia. Qed.
Lemma upd_length {A} : forall (l : list A) i x, length (upd l i x) = length l.
Proof. induction l as [|a l IH]; intros [|i] x; cbn; try reflexivity. now rewrite IH. Qed.
Lemma nth_old {A} (l l' : list A) i x : nth_error l i = Some x -> nth_error (l ++ l') i = Some x.
Proof. intros H. rewrite nth_error_app1; [exact H|apply nth_error_Some; congruence]. Qed.
Lemma nth_new {A} (l : list A) x : nth_error (l ++ [x]) (length l) = Some x.
Proof. rewrite nth_error_app2, Nat.sub_diag by lia. reflexivity. Qed.

Section P.
Context {S X : Type} (app : S -> list X -> X).
Notation mem := (memory S X).
Lemma get_ok (m : mem) o b : alive m o b -> get m o = Ok b.
Proof. intros E. unfold get. now rewrite E. Qed.
Lemma get_alive (m : mem) o b : get m o = Ok b -> alive m o b.
Proof. unfold get, alive. destruct (nth_error m o) as [[y|]|]; congruence. Qed.
Lemma get_ended (m : mem) o : ended m o -> get m o = UB.
Proof. intros E. unfold get. now rewrite E. Qed.

(** Vectorized functions and lazy results only end. *)
Definition fixed (b : obj S X) : Prop := match b with Vec _ | Lazy _ _ => True | _ => False end.
Lemma exec_fixed o b (m m' : mem) c : fixed b -> alive m o b -> c <> End o -> exec m c = Ok m' -> alive m' o b.
Proof.
  unfold alive. intros F A N H. destruct c as [s|x|e|e s|e x|f|v ops]; cbn [exec] in H.
  - injection H as <-. now apply nth_old.
  - injection H as <-. now apply nth_old.
  - destruct (get m e); cbn [bind] in H; try discriminate. injection H as <-. rewrite upd_other; [exact A|congruence].
  - destruct (get m e) as [y| |] eqn:G; cbn [bind] in H; try discriminate. apply get_alive in G. destruct y; try discriminate. injection H as <-. rewrite upd_other; [exact A|]. intros ->. unfold alive in G. rewrite A in G. injection G as ->. exact F.
  - destruct (get m e) as [y| |] eqn:G; cbn [bind] in H; try discriminate. apply get_alive in G. destruct y; try discriminate. injection H as <-. rewrite upd_other; [exact A|]. intros ->. unfold alive in G. rewrite A in G. injection G as ->. exact F.
  - destruct (function_state m f); cbn [bind] in H; try discriminate. injection H as <-. now apply nth_old.
  - destruct (get m v) as [y| |]; cbn [bind] in H; try discriminate. destruct (operand_values m ops); cbn [bind] in H; try discriminate. destruct y; try discriminate. injection H as <-. now apply nth_old.
Qed.
Lemma run_fixed o b : fixed b -> forall p (m m' : mem), alive m o b -> ~ In (End o) p -> run m p = Ok m' -> alive m' o b.
Proof.
  intros F. induction p as [|c p IH]; intros m m' A N H; cbn [run] in H; [injection H as <-; exact A|].
  destruct (exec m c) as [m1| |] eqn:E; cbn [bind] in H; try discriminate. apply (IH m1); [|intros Q; apply N; now right|exact H].
  eapply exec_fixed; [exact F|exact A| |exact E]. intros ->. apply N. now left.
Qed.
Lemma exec_ended o (m m' : mem) c : ended m o -> exec m c = Ok m' -> ended m' o.
Proof.
  unfold ended. intros A H. destruct c as [s|x|e|e s|e x|f|v ops]; cbn [exec] in H.
  - injection H as <-. now apply nth_old.
  - injection H as <-. now apply nth_old.
  - destruct (get m e) as [y| |] eqn:G; cbn [bind] in H; try discriminate. apply get_alive in G. injection H as <-. rewrite upd_other; [exact A|intros ->; unfold alive in G; congruence].
  - destruct (get m e) as [y| |] eqn:G; cbn [bind] in H; try discriminate. apply get_alive in G. destruct y; try discriminate. injection H as <-. rewrite upd_other; [exact A|intros ->; unfold alive in G; congruence].
  - destruct (get m e) as [y| |] eqn:G; cbn [bind] in H; try discriminate. apply get_alive in G. destruct y; try discriminate. injection H as <-. rewrite upd_other; [exact A|intros ->; unfold alive in G; congruence].
  - destruct (function_state m f); cbn [bind] in H; try discriminate. injection H as <-. now apply nth_old.
  - destruct (get m v) as [y| |]; cbn [bind] in H; try discriminate. destruct (operand_values m ops); cbn [bind] in H; try discriminate. destruct y; try discriminate. injection H as <-. now apply nth_old.
Qed.
Lemma run_ended o : forall p (m m' : mem), ended m o -> run m p = Ok m' -> ended m' o.
Proof.
  induction p as [|c p IH]; intros m m' A H; cbn [run] in H; [injection H as <-; exact A|].
  destruct (exec m c) as [m1| |] eqn:E; cbn [bind] in H; try discriminate. apply (IH m1); [eapply exec_ended; eassumption|exact H].
Qed.

Lemma operands_now (m : mem) : forall ops xs, Forall2 (is_now m) ops xs -> operand_values m ops = Ok xs.
Proof.
  induction 1 as [|a x ops xs A _ IH]; [reflexivity|]. cbn [operand_values]. assert (E : operand_value m a = Ok x) by (destruct a; cbn in *; [now rewrite (get_ok _ _ _ A)|now subst]). rewrite E. cbn [bind]. now rewrite IH.
Qed.
Lemma operands_ended (m : mem) o : ended m o -> forall ops, In (Var o) ops -> (forall v, In (Var v) ops -> ended m v \/ exists x, alive m v (Val x)) -> operand_values m ops = UB.
Proof.
  intros E. induction ops as [|a ops IH]; intros I K; [destruct I|]. cbn [operand_values]. destruct a as [v|x].
  - destruct (K v (or_introl eq_refl)) as [D|(x & A)]; cbn [operand_value]; [now rewrite (get_ended _ _ D)|]. rewrite (get_ok _ _ _ A). cbn [bind]. rewrite IH; [reflexivity| |intros w Q; apply K; now right].
    destruct I as [Q|Q]; [|exact Q]. injection Q as ->. unfold ended, alive in *. congruence.
  - cbn [operand_value bind]. rewrite IH; [reflexivity| |intros w Q; apply K; now right]. destruct I as [Q|Q]; [discriminate|exact Q].
Qed.
Lemma vectorize_ok (m m1 : mem) f s : has_state m f s -> exec m (Vectorize f) = Ok m1 -> alive m1 (length m) (Vec s).
Proof.
  intros F H. cbn [exec] in H. assert (E : function_state m f = Ok s) by (destruct f; cbn in *; [now rewrite (get_ok _ _ _ F)|now subst]). rewrite E in H. cbn [bind] in H. injection H as <-. apply nth_new.
Qed.
Lemma call_ok (m m1 : mem) v s ops : alive m v (Vec s) -> exec m (Call v ops) = Ok m1 -> alive m1 (length m) (Lazy s ops).
Proof.
  intros A H. cbn [exec] in H. rewrite (get_ok _ _ _ A) in H. cbn [bind] in H. destruct (operand_values m ops); cbn [bind] in H; try discriminate. injection H as <-. apply nth_new.
Qed.
(** Until the result is there *)
Lemma made (m m1 m2 m3 m4 : mem) f s p1 ops p2 : has_state m f s -> exec m (Vectorize f) = Ok m1 -> ~ In (End (length m)) p1 -> run m1 p1 = Ok m2 ->
  exec m2 (Call (length m) ops) = Ok m3 -> ~ In (End (length m2)) p2 -> run m3 p2 = Ok m4 -> alive m4 (length m2) (Lazy s ops).
Proof.
  intros F E1 N1 R1 E2 N2 R2. apply (run_fixed _ (Lazy s ops) I p2 m3 m4); [|exact N2|exact R2]. eapply call_ok; [|exact E2]. apply (run_fixed _ (Vec s) I p1 m1 m2); [|exact N1|exact R1]. eapply vectorize_ok; eassumption.
Qed.
(** The operands of a result are variables that exist or existed. *)
Lemma values_alive (m : mem) : forall ops xs, operand_values m ops = Ok xs -> forall v, In (Var v) ops -> exists x, alive m v (Val x).
Proof.
  induction ops as [|a ops IH]; intros xs H v I; [destruct I|]. cbn [operand_values] in H. destruct (operand_value m a) as [x| |] eqn:E; cbn [bind] in H; try discriminate. destruct (operand_values m ops) as [ys| |] eqn:G; cbn [bind] in H; try discriminate.
  destruct I as [ -> |I]; [|now apply (IH ys)]. cbn [operand_value] in E. destruct (get m v) as [b| |] eqn:Gv; cbn [bind] in E; try discriminate. destruct b; try discriminate. apply get_alive in Gv. eauto.
Qed.
Definition val_or_ended (m : mem) v : Prop := ended m v \/ exists x, alive m v (Val x).
Lemma exec_vals (m m' : mem) c v : val_or_ended m v -> exec m c = Ok m' -> val_or_ended m' v.
Proof.
  intros [D|(x0 & A)] H; [left; eapply exec_ended; eassumption|]. unfold val_or_ended, ended, alive in *.
  destruct c as [s|x|e|e s|e x|f|w ops]; cbn [exec] in H.
  - injection H as <-. right. exists x0. now apply nth_old.
  - injection H as <-. right. exists x0. now apply nth_old.
  - destruct (get m e) as [y| |] eqn:G; cbn [bind] in H; try discriminate. injection H as <-. destruct (Nat.eq_dec v e) as [ -> |Q].
    + left. clear -A. revert e A. induction m as [|z m IH]; intros [|e] A; cbn in *; try discriminate; [reflexivity|now apply IH].
    + right. exists x0. now rewrite upd_other.
  - destruct (get m e) as [y| |] eqn:G; cbn [bind] in H; try discriminate. apply get_alive in G. destruct y; try discriminate. injection H as <-. right. exists x0. rewrite upd_other; [exact A|intros ->; unfold alive in G; congruence].
  - destruct (get m e) as [y| |] eqn:G; cbn [bind] in H; try discriminate. destruct y; try discriminate. injection H as <-. right. destruct (Nat.eq_dec v e) as [ -> |Q].
    + exists x. clear -A. revert e A. induction m as [|z m IH]; intros [|e] A; cbn in *; try discriminate; [reflexivity|now apply IH].
    + exists x0. now rewrite upd_other.
  - destruct (function_state m f); cbn [bind] in H; try discriminate. injection H as <-. right. exists x0. now apply nth_old.
  - destruct (get m w) as [y| |]; cbn [bind] in H; try discriminate. destruct (operand_values m ops); cbn [bind] in H; try discriminate. destruct y; try discriminate. injection H as <-. right. exists x0. now apply nth_old.
Qed.
Lemma run_vals v : forall p (m m' : mem), val_or_ended m v -> run m p = Ok m' -> val_or_ended m' v.
Proof.
  induction p as [|c p IH]; intros m m' A H; cbn [run] in H; [injection H as <-; exact A|].
  destruct (exec m c) as [m1| |] eqn:E; cbn [bind] in H; try discriminate. apply (IH m1); [eapply exec_vals; eassumption|exact H].
Qed.
Lemma call_vals (m m' : mem) v ops : exec m (Call v ops) = Ok m' -> forall o, In (Var o) ops -> val_or_ended m' o.
Proof.
  intros H o I. eapply exec_vals; [|exact H]. right. cbn [exec] in H. destruct (get m v); cbn [bind] in H; try discriminate. destruct (operand_values m ops) eqn:G; cbn [bind] in H; try discriminate. eapply values_alive; eassumption.
Qed.
End P.
