(** Proofs about eval and as_strided. *)
From Coq Require Import List Bool Arith Lia.
From Verif Require Import Prelude Strides_Model Layout_Model Eval_Model Eval_Spec.
Import ListNotations.
Open Scope nat_scope.

Lemma upd_other {A} : forall (l : list A) i x k, k <> i -> nth_error (upd l i x) k = nth_error l k.
Proof. induction l as [|a l IH]; intros [|i] x [|k] N; cbn; try reflexivity; try lia. apply IH. lia. Qed.
Lemma upd_here {A} : forall (l : list A) i x, i < length l -> nth_error (upd l i x) i = Some x.
Proof. induction l as [|a l IH]; intros [|i] x L; cbn in *; try lia; [reflexivity|]. apply IH. lia. Qed.
Lemma nth_lt {A} (l : list A) i x : nth_error l i = Some x -> i < length l.
Proof. intros H. apply nth_error_Some. congruence. Qed.
Lemma nth_old {A} (l l' : list A) i x : nth_error l i = Some x -> nth_error (l ++ l') i = Some x.
Proof. intros H. rewrite nth_error_app1; [exact H|now apply nth_lt in H]. Qed.
Lemma nth_new {A} (l : list A) x : nth_error (l ++ [x]) (length l) = Some x.
Proof. rewrite nth_error_app2, Nat.sub_diag by lia. reflexivity. Qed.
Lemma nth_app_inv {A} (l : list A) x i y : nth_error (l ++ [x]) i = Some y -> nth_error l i = Some y \/ (i = length l /\ x = y).
Proof.
  intros H. destruct (Nat.lt_ge_cases i (length l)) as [L|L]; [rewrite nth_error_app1 in H by exact L; now left|]. right.
  pose proof (nth_lt _ _ _ H) as B. rewrite app_length in B. cbn in B. assert (i = length l) by lia. subst i. rewrite nth_new in H. split; [reflexivity|congruence].
Qed.
Lemma upd_inv {A} (l : list A) i x k y : nth_error (upd l i x) k = Some y -> (k = i /\ x = y) \/ (k <> i /\ nth_error l k = Some y).
Proof.
  intros H. destruct (Nat.eq_dec k i) as [ -> |N]; [|right; split; [exact N|now rewrite upd_other in H]]. left. split; [reflexivity|].
  destruct (Nat.lt_ge_cases i (length l)) as [L|L]; [rewrite upd_here in H by exact L; congruence|].
  exfalso. apply nth_lt in H. assert (Q : length (upd l i x) = length l) by (clear; revert i; induction l as [|a l IH]; intros [|i]; cbn; try reflexivity; now rewrite IH). lia.
Qed.

Section S.
Context {X : Type} (def : layout) (tmp : layout -> layout).
Notation mem := (@memory X).

Lemma get_ok (m : mem) o b : alive m o b -> get m o = Ok b.
Proof. intros E. unfold get. now rewrite E. Qed.
Lemma get_alive (m : mem) o b : get m o = Ok b -> alive m o b.
Proof. unfold get, alive. destruct (nth_error m o) as [[y|]|]; congruence. Qed.

(** The copy is kept *)
Definition kept (r : nat) (L : layout) (x : X) (m : mem) : Prop := alive m r (Arr L x) /\ not_view_of r m.
Lemma exec_kept r L x (m m' : mem) c : kept r L x m -> apart r c -> exec m c = Ok m' -> kept r L x m'.
Proof.
  intros (K & N) A H. destruct c as [b|o|o y]; cbn [exec apart] in *.
  - injection H as <-. split; [now apply nth_old|]. intros o L' look back Q. apply nth_app_inv in Q. destruct Q as [Q|(_ & Q)]; [now apply (N o L' look back)|]. injection Q as ->. now apply A.
  - destruct (get m o) eqn:G; cbn [bind] in H; try discriminate. injection H as <-. split; [unfold alive; rewrite upd_other by congruence; exact K|].
    intros k L' look back Q. apply upd_inv in Q. destruct Q as [(_ & Q)|(_ & Q)]; [discriminate|now apply (N k L' look back)].
  - destruct (get m o) as [b| |] eqn:G; cbn [bind] in H; try discriminate. apply get_alive in G. destruct b as [L0 x0|L0 v look back|L0 f os]; [| |discriminate].
    + injection H as <-. split; [unfold alive; rewrite upd_other by congruence; exact K|].
      intros k L' look back Q. apply upd_inv in Q. destruct Q as [(_ & Q)|(_ & Q)]; [discriminate|now apply (N k L' look back)].
    + destruct (get m v) as [[L1 y1|?|?]| |] eqn:G2; cbn [bind] in H; try discriminate. injection H as <-.
      assert (V : r <> v) by (intros ->; now apply (N o L0 look back)). split; [unfold alive; rewrite upd_other by exact V; exact K|].
      intros k L' look' back' Q. apply upd_inv in Q. destruct Q as [(_ & Q)|(_ & Q)]; [discriminate|now apply (N k L' look' back')].
Qed.
Lemma run_kept r L x : forall p (m m' : mem), kept r L x m -> Forall (apart r) p -> run m p = Ok m' -> kept r L x m'.
Proof.
  induction p as [|c p IH]; intros m m' K A H; cbn [run] in H; [injection H as <-; exact K|]. inversion A as [|? ? A1 A2]; subst.
  destruct (exec m c) as [m1| |] eqn:E; cbn [bind] in H; try discriminate. apply (IH m1); [eapply exec_kept; eassumption|exact A2|exact H].
Qed.
Lemma kept_value r L x (m : mem) : kept r L x m -> value m r = Ok x.
Proof. intros (K & _). unfold value. rewrite (get_ok _ _ _ K). reflexivity. Qed.

(** Ended objects stay ended *)
Lemma exec_ended o (m m' : mem) c : ended m o -> exec m c = Ok m' -> ended m' o.
Proof.
  unfold ended. intros E H. destruct c as [b|v|v y]; cbn [exec] in H.
  - injection H as <-. now apply nth_old.
  - destruct (get m v) eqn:G; cbn [bind] in H; try discriminate. injection H as <-. apply get_alive in G. unfold alive in G. rewrite upd_other; [exact E|intros ->; congruence].
  - destruct (get m v) as [b| |] eqn:G; cbn [bind] in H; try discriminate. apply get_alive in G. unfold alive in G. destruct b as [L0 x0|L0 w look back|L0 f os]; [| |discriminate].
    + injection H as <-. rewrite upd_other; [exact E|intros ->; congruence].
    + destruct (get m w) as [[L1 y1|?|?]| |] eqn:G2; cbn [bind] in H; try discriminate. injection H as <-. apply get_alive in G2. unfold alive in G2. rewrite upd_other; [exact E|intros ->; congruence].
Qed.
Lemma run_ended o : forall p (m m' : mem), ended m o -> run m p = Ok m' -> ended m' o.
Proof.
  induction p as [|c p IH]; intros m m' E H; cbn [run] in H; [injection H as <-; exact E|].
  destruct (exec m c) as [m1| |] eqn:D; cbn [bind] in H; try discriminate. apply (IH m1); [eapply exec_ended; eassumption|exact H].
Qed.
Lemma ended_value o (m : mem) : ended m o -> value m o = UB.
Proof. intros E. unfold value, get. now rewrite E. Qed.

(** Both functions, for a test [keep] and the layout [lay] of a copy *)
Definition either (keep : @obj X -> bool) (lay : @obj X -> layout) (m : mem) (a : arg) : res (nat * mem) :=
  let '(o, m) := enter m a in
  let* b := get m o in
  let* '(r, m) := (if keep b then Ok (o, m) else fresh_copy m o (lay b)) in
  Ok (r, leave m a o).
Lemma eval_either m a : eval tmp m a = either is_container (fun b => tmp (static_layout b)) m a.
Proof. reflexivity. Qed.
Lemma strided_either L m a : as_strided def L m a = either (fun b => has_data b && same_layout L b) (fun _ => layout_remove_any def L) m a.
Proof. reflexivity. Qed.

Lemma copy_ok keep lay (m : mem) a b x : closed m -> closed_arg m a -> arg_is m a b -> keep b = false -> shows m a x ->
  exists r m', either keep lay m a = Ok (r, m') /\ length m <= r /\ alive m' r (Arr (lay b) x) /\ (forall o, o < length m -> nth_error m' o = nth_error m o) /\
    forall p m2, Forall (apart r) p -> run m' p = Ok m2 -> value m2 r = Ok x.
Proof.
  intros C Ca B K Sh. destruct a as [o|b']; cbn [arg_is shows closed_arg] in *; unfold either; cbn [enter leave].
  - rewrite (get_ok _ _ _ B). cbn [bind]. rewrite K. unfold fresh_copy. rewrite Sh. cbn [bind]. exists (length m), (m ++ [Some (Arr (lay b) x)]). split; [reflexivity|]. split; [lia|].
    split; [apply nth_new|]. split; [intros k Q; now rewrite nth_error_app1|]. intros p m2 A R. apply (kept_value _ (lay b)). eapply run_kept; [|exact A|exact R].
    split; [apply nth_new|]. intros k L' look back Q. apply nth_app_inv in Q. destruct Q as [Q|(_ & Q)]; [apply C in Q; lia|discriminate].
  - subst b'. assert (B : alive (m ++ [Some b]) (length m) b) by apply nth_new. rewrite (get_ok _ _ _ B). cbn [bind]. rewrite K. unfold fresh_copy. rewrite Sh. cbn [bind].
    set (r := length (m ++ [Some b])). assert (Lr : r = Datatypes.S (length m)) by (unfold r; rewrite app_length; cbn; lia).
    exists r, (upd ((m ++ [Some b]) ++ [Some (Arr (lay b) x)]) (length m) None). split; [reflexivity|]. split; [lia|].
    assert (AL : alive (upd ((m ++ [Some b]) ++ [Some (Arr (lay b) x)]) (length m) None) r (Arr (lay b) x)) by (unfold alive; rewrite upd_other by lia; apply nth_new).
    split; [exact AL|]. split; [intros k Q; rewrite upd_other by lia; rewrite <- app_assoc; now rewrite nth_error_app1|]. intros p m2 A R. apply (kept_value _ (lay b)). eapply run_kept; [|exact A|exact R].
    split; [exact AL|]. intros k L' look back Q. apply upd_inv in Q. destruct Q as [(_ & Q)|(_ & Q)]; [discriminate|]. apply nth_app_inv in Q. destruct Q as [Q|(_ & Q)]; [|discriminate].
    apply nth_app_inv in Q. destruct Q as [Q|(_ & Q)]; [apply C in Q; lia|]. injection Q as Q. rewrite Q in Ca. lia.
Qed.
Lemma same_ok keep lay (m : mem) o b : alive m o b -> keep b = true -> either keep lay m (Named o) = Ok (o, m).
Proof. intros A K. unfold either. cbn [enter leave]. rewrite (get_ok _ _ _ A). cbn [bind]. rewrite K. reflexivity. Qed.
Lemma dangling keep lay (m : mem) b : keep b = true -> exists m', either keep lay m (Temporary b) = Ok (length m, m') /\ forall p m2, run m' p = Ok m2 -> value m2 (length m) = UB.
Proof.
  intros K. unfold either. cbn [enter leave]. assert (B : alive (m ++ [Some b]) (length m) b) by apply nth_new. rewrite (get_ok _ _ _ B). cbn [bind]. rewrite K. cbn [bind].
  eexists. split; [reflexivity|]. intros p m2 R. apply ended_value. eapply run_ended; [|exact R]. apply upd_here. rewrite app_length. cbn. lia.
Qed.
Lemma data_ok (b : @obj X) : has_data b = true <-> offers_data b.
Proof. unfold offers_data. destruct b; cbn; split; intros H; try reflexivity; try discriminate; [left; eauto|right; eauto 6|]. destruct H as [(? & ? & H)|(? & ? & ? & ? & H)]; discriminate. Qed.
Lemma data_no (b : @obj X) : ~ offers_data b -> has_data b = false.
Proof. intros N. destruct (has_data b) eqn:E; [|reflexivity]. apply data_ok in E. now elim N. Qed.
Lemma of_layout_ok (b : @obj X) L : of_layout b L <-> static_layout b = L.
Proof. unfold of_layout. destruct b; cbn; split; intros H; subst; eauto 6; destruct H as [(? & H)|[(? & ? & ? & H)|(? & ? & H)]]; congruence. Qed.
Lemma layout_eqb_ok a b : layout_eqb a b = true -> a = b.
Proof. destruct a, b; cbn; congruence. Qed.
End S.
