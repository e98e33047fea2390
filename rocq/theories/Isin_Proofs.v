(** Proofs about isin. *)
From Coq Require Import List Bool Arith Lia.
From Verif Require Import Prelude PreludeFacts SetOp_Model SetOp_Proofs Isin_Model Isin_Spec.
Import ListNotations.
Open Scope nat_scope.

Lemma upd_other {A} : forall (l : list A) i x k, k <> i -> nth_error (upd l i x) k = nth_error l k.
Proof. induction l as [|a l IH]; intros [|i] x [|k] N; cbn; try reflexivity; try lia. apply IH. lia. Qed.
Lemma upd_here {A} : forall (l : list A) i x, i < length l -> nth_error (upd l i x) i = Some x.
Proof. induction l as [|a l IH]; intros [|i] x L; cbn in *; try lia; [reflexivity|]. apply IH. lia. Qed.
Lemma upd_size {A} : forall (l : list A) i x, length (upd l i x) = length l.
Proof. induction l as [|a l IH]; intros [|i] x; cbn; try reflexivity. now rewrite IH. Qed.

Section S.
Context {V : Type} (eqb : V -> V -> bool).
Notation mem := (@memory V).

Lemma results_marks (m : mem) c l es : (forall t, call eqb m c t = Ok (isin eqb l t)) -> exists bs, results eqb m c es = Ok bs /\ marks eqb l es bs.
Proof.
  intros H. induction es as [|t es (bs & E & M)]; cbn [results]; [exists []; split; [reflexivity|constructor]|].
  rewrite H. cbn [bind]. rewrite E. cbn [bind]. eexists. split; [reflexivity|]. constructor; [apply isin_lemma|exact M].
Qed.
Lemma results_ub (m : mem) c es : (forall t, call eqb m c t = UB) -> es <> [] -> results eqb m c es = UB.
Proof. intros H N. destruct es as [|t es]; [contradiction|]. cbn [results]. rewrite H. reflexivity. Qed.

Lemma get_some (m : mem) o x : nth_error m o = Some (Some x) -> get m o = Ok x.
Proof. intros E. unfold get. now rewrite E. Qed.
Lemma get_inv (m : mem) o x : get m o = Ok x -> nth_error m o = Some (Some x).
Proof. unfold get. destruct (nth_error m o) as [[y|]|]; congruence. Qed.
Lemma contents_inv (m : mem) o l g : contents m o = Ok (l, g) -> nth_error m o = Some (Some (Seq l g)).
Proof. unfold contents. destruct (get m o) as [[l' g'|]| |] eqn:E; cbn [bind]; try discriminate. intros H. injection H as -> ->. now apply get_inv. Qed.
Lemma contents_some (m : mem) o l g : nth_error m o = Some (Some (Seq l g)) -> contents m o = Ok (l, g).
Proof. intros E. unfold contents. rewrite (get_some _ _ _ E). reflexivity. Qed.
Lemma get_ended (m : mem) o : ended m o -> get m o = UB.
Proof. intros E. unfold get. now rewrite E. Qed.

Lemma put_ended (m : mem) v x o : ended m o -> (exists y, nth_error m v = Some (Some y)) -> ended (put m v x) o.
Proof. intros E (y & A). unfold ended, put in *. rewrite upd_other by (intros ->; congruence). exact E. Qed.
Lemma exec_ended (m m' : mem) c o : ended m o -> exec m c = Ok m' -> ended m' o.
Proof.
  intros E H. destruct c as [x|v|v i x|v l|p v k]; cbn [exec] in H.
  - injection H as <-. unfold ended in *. rewrite nth_error_app1 by (apply nth_error_Some; congruence). exact E.
  - destruct (get m v) eqn:G; cbn [bind] in H; try discriminate. injection H as <-. apply put_ended; [exact E|]. eexists. apply get_inv. exact G.
  - destruct (contents m v) as [[l g]| |] eqn:G; cbn [bind] in H; try discriminate. destruct (wr l i x) as [l'| |]; cbn [bind] in H; try discriminate. injection H as <-.
    apply put_ended; [exact E|]. eexists. apply contents_inv. exact G.
  - destruct (contents m v) as [[l0 g]| |] eqn:G; cbn [bind] in H; try discriminate. injection H as <-. apply put_ended; [exact E|]. eexists. apply contents_inv. exact G.
  - destruct (get m p) as [x| |] eqn:G; cbn [bind] in H; try discriminate. destruct (contents m v) as [[l g]| |]; cbn [bind] in H; try discriminate. destruct x; try discriminate. injection H as <-.
    apply put_ended; [exact E|]. eexists. apply get_inv. exact G.
Qed.
Lemma run_ended o : forall p (m m' : mem), ended m o -> run m p = Ok m' -> ended m' o.
Proof.
  induction p as [|c p IH]; intros m m' E H; cbn [run] in H; [injection H as <-; exact E|].
  destruct (exec m c) as [m1| |] eqn:D; cbn [bind] in H; try discriminate. apply (IH m1); [eapply exec_ended; eassumption|exact H].
Qed.

Lemma variable_ok (m : mem) o l es : sequence m o l -> exists bs, results eqb m (ByRef o) es = Ok bs /\ marks eqb l es bs.
Proof. intros (g & E). apply results_marks. intros t. cbn [call]. rewrite (contents_some _ _ _ _ E). reflexivity. Qed.
Lemma variable_ended (m : mem) o es : ended m o -> es <> [] -> results eqb m (ByRef o) es = UB.
Proof. intros E. apply results_ub. intros t. cbn [call]. unfold contents. rewrite (get_ended _ _ E). reflexivity. Qed.
Lemma list_ended (m : mem) o es : ended m o -> es <> [] -> results eqb m (ByList o) es = UB.
Proof. intros E. apply results_ub. intros t. cbn [call]. unfold contents. rewrite (get_ended _ _ E). reflexivity. Qed.
Lemma iters_ended (m : mem) b e es : ended m b -> es <> [] -> results eqb m (ByIters b e) es = UB.
Proof. intros E. apply results_ub. intros t. cbn [call]. rewrite (get_ended _ _ E). reflexivity. Qed.
Lemma iters_ok (m : mem) b e o i j l es : range_of m b e o i j l -> exists bs, results eqb m (ByIters b e) es = Ok bs /\ marks eqb (firstn (j - i) (skipn i l)) es bs.
Proof.
  intros (g & Eo & Eb & Ee & L). apply results_marks. intros t. cbn [call]. rewrite (get_some _ _ _ Eb), (get_some _ _ _ Ee). cbn [bind]. rewrite (contents_some _ _ _ _ Eo). cbn [bind].
  rewrite !Nat.eqb_refl. destruct (Nat.leb_spec i j), (Nat.leb_spec j (length l)); try lia. reflexivity.
Qed.
Lemma exec_range (m m' : mem) c b e o i j l : range_of m b e o i j l -> leaves b e o c -> exec m c = Ok m' -> exists l', range_of m' b e o i j l' /\ length l' = length l.
Proof.
  intros (g & Eo & Eb & Ee & L) H E.
  assert (K : forall k (y : obj) z, nth_error m k = Some (Some y) -> nth_error (m ++ [z]) k = Some (Some y)) by (intros k y z Ek; rewrite nth_error_app1; [exact Ek|apply nth_error_Some; congruence]).
  destruct c as [x|v|v n x|v l0|p v k]; cbn [exec leaves] in *.
  - injection E as <-. exists l. split; [|reflexivity]. exists g. repeat split; try (apply K; assumption); lia.
  - destruct (get m v); cbn [bind] in E; try discriminate. injection E as <-. cbn in H. exists l. split; [|reflexivity]. exists g. unfold put.
    rewrite !upd_other by (intros D; apply H; subst; auto). repeat split; try assumption; lia.
  - destruct (contents m v) as [[l1 g1]| |] eqn:C; cbn [bind] in E; try discriminate. apply contents_inv in C. unfold wr in E. destruct (Nat.ltb_spec n (length l1)); cbn [bind] in E; try discriminate. injection E as <-.
    assert (Nb : b <> v) by (intros ->; congruence). assert (Ne : e <> v) by (intros ->; congruence). unfold put.
    destruct (Nat.eq_dec o v) as [ -> |No].
    + rewrite C in Eo. injection Eo as -> ->. exists (upd l n x). split; [|apply upd_size]. exists g. rewrite upd_here by (apply nth_error_Some; congruence). rewrite !upd_other by auto. rewrite upd_size. repeat split; try assumption; lia.
    + exists l. split; [|reflexivity]. exists g. rewrite !upd_other by auto. repeat split; try assumption; lia.
  - destruct (contents m v) as [[l1 g1]| |] eqn:C; cbn [bind] in E; try discriminate. apply contents_inv in C. injection E as <-. unfold put. exists l. split; [|reflexivity]. exists g.
    rewrite !upd_other by (first [congruence | intros ->; congruence]). repeat split; try assumption; lia.
  - destruct (get m p) as [x| |] eqn:G; cbn [bind] in E; try discriminate. destruct (contents m v) as [[l1 g1]| |]; cbn [bind] in E; try discriminate. destruct x as [|o1 k1 g2]; try discriminate. injection E as <-. apply get_inv in G.
    unfold put. exists l. split; [|reflexivity]. exists g. destruct H as (H1 & H2). rewrite !upd_other by (first [congruence | intros ->; congruence]). repeat split; try assumption; lia.
Qed.
Lemma run_range b e o i j : forall p (m m' : mem) l, range_of m b e o i j l -> Forall (leaves b e o) p -> run m p = Ok m' -> exists l', range_of m' b e o i j l' /\ length l' = length l.
Proof.
  induction p as [|c p IH]; intros m m' l R F E; cbn [run] in E; [injection E as <-; exists l; auto|].
  destruct (exec m c) as [m1| |] eqn:D; cbn [bind] in E; try discriminate. inversion F as [|? ? F1 F2]; subst.
  destruct (exec_range m m1 c b e o i j l R F1 D) as (l1 & R1 & E1). destruct (IH m1 m' l1 R1 F2 E) as (l2 & R2 & E2). exists l2. split; [exact R2|congruence].
Qed.
Lemma list_now_ok (m : mem) l es : exists bs, isin_list_now eqb m l es = Ok bs /\ marks eqb l es bs.
Proof. apply results_marks. intros t. cbn [call]. rewrite (contents_some _ _ l 0); [reflexivity|]. rewrite nth_error_app2, Nat.sub_diag by lia. reflexivity. Qed.
Lemma begin_end_now_ok (m : mem) o l es : sequence m o l -> exists bs, isin_begin_end_now eqb m o es = Ok bs /\ marks eqb l es bs.
Proof.
  intros (g & E). unfold isin_begin_end_now. rewrite (contents_some _ _ _ _ E). cbn [bind].
  assert (R : range_of (m ++ [Some (Pos o 0 g); Some (Pos o (length l) g)]) (length m) (S (length m)) o 0 (length l) l).
  { exists g. rewrite nth_error_app1 by (apply nth_error_Some; congruence). rewrite !nth_error_app2 by lia. rewrite Nat.sub_diag. replace (S (length m) - length m) with 1 by lia. repeat split; auto; lia. }
  destruct (iters_ok _ _ _ _ _ _ _ es R) as (bs & Er & Mk). exists bs. split; [exact Er|]. rewrite Nat.sub_0_r, firstn_all in Mk. exact Mk.
Qed.
End S.
