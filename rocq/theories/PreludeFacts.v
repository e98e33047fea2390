(** Lemmas about Prelude.v *)
From Coq Require Import List ZArith Lia Bool.
From Verif Require Import Prelude.
Import ListNotations.
Open Scope Z_scope.

Global Arguments Z.add : simpl never.
Global Arguments Z.sub : simpl never.
Global Arguments Z.mul : simpl never.
Global Arguments Z.opp : simpl never.
Global Arguments Z.of_nat : simpl never.
Global Arguments Z.to_nat : simpl never.
Global Arguments Z.quot : simpl never.
Global Arguments Z.rem : simpl never.
Global Arguments Z.div : simpl never.
Global Arguments Z.modulo : simpl never.
Global Arguments Z.pow : simpl never.

Lemma bind_Ok {A B} (a : A) (k : A -> res B) : bind (Ok a) k = k a.
Proof. reflexivity. Qed.
Ltac bok := repeat (rewrite bind_Ok; cbv beta iota).

Lemma bind_ok {A B} (m : res A) (k : A -> res B) b :
  bind m k = Ok b <-> exists a, m = Ok a /\ k a = Ok b.
Proof.
  destruct m; simpl; split; intros H.
  - exists a; auto.
  - destruct H as (x & Hx & Hk). inversion Hx; subst; auto.
  - discriminate.
  - destruct H as (x & Hx & _). discriminate.
  - discriminate.
  - destruct H as (x & Hx & _). discriminate.
Qed.

Lemma rd_ok {A} (l : list A) i a : nth_error l i = Some a -> rd l i = Ok a.
Proof. intros H. unfold rd. rewrite H. reflexivity. Qed.

Lemma rd_ok_inv {A} (l : list A) i a : rd l i = Ok a -> nth_error l i = Some a.
Proof. unfold rd. destruct (nth_error l i); intros H; inversion H; reflexivity. Qed.

Lemma rd_nth {A} (d : A) (l : list A) i : (i < length l)%nat -> rd l i = Ok (nth i l d).
Proof.
  intros H. unfold rd. rewrite (nth_error_nth' l d H). reflexivity.
Qed.

Lemma rd_oob {A} (l : list A) i : (length l <= i)%nat -> rd l i = UB.
Proof.
  intros H. unfold rd. rewrite (proj2 (nth_error_None l i) H). reflexivity.
Qed.

Lemma upd_length {A} (l : list A) i v : length (upd l i v) = length l.
Proof. revert i; induction l; intros [|i]; simpl; auto. Qed.

Lemma wr_ok {A} (l : list A) i v : (i < length l)%nat -> wr l i v = Ok (upd l i v).
Proof. intros H. unfold wr. apply Nat.ltb_lt in H. rewrite H. reflexivity. Qed.

Lemma wr_ok_inv {A} (l l' : list A) i v :
  wr l i v = Ok l' -> (i < length l)%nat /\ l' = upd l i v.
Proof.
  unfold wr. destruct (i <? length l)%nat eqn:E; intros H; inversion H.
  apply Nat.ltb_lt in E. auto.
Qed.

Lemma nth_error_upd_same {A} (l : list A) i v :
  (i < length l)%nat -> nth_error (upd l i v) i = Some v.
Proof. revert i; induction l; intros [|i]; simpl; intros; try lia; auto. apply IHl; lia. Qed.

Lemma nth_error_upd_other {A} (l : list A) i j v :
  i <> j -> nth_error (upd l i v) j = nth_error l j.
Proof.
  revert i j; induction l; intros [|i] [|j]; simpl; intros; try reflexivity; try lia.
  apply IHl; lia.
Qed.

Lemma nth_upd_same {A} (d : A) (l : list A) i v :
  (i < length l)%nat -> nth i (upd l i v) d = v.
Proof. revert i; induction l; intros [|i]; simpl; intros; try lia; auto. apply IHl; lia. Qed.

Lemma nth_upd_other {A} (d : A) (l : list A) i j v :
  i <> j -> nth j (upd l i v) d = nth j l d.
Proof.
  revert i j; induction l; intros [|i] [|j]; simpl; intros; try reflexivity; try lia.
  apply IHl; lia.
Qed.

Lemma upd_upd_same {A} (l : list A) i v w : upd (upd l i v) i w = upd l i w.
Proof. revert i; induction l; intros [|i]; simpl; auto. f_equal; auto. Qed.

Lemma upd_comm {A} (l : list A) i j v w :
  i <> j -> upd (upd l i v) j w = upd (upd l j w) i v.
Proof.
  revert i j; induction l; intros [|i] [|j]; simpl; intros; try reflexivity; try lia.
  f_equal. apply IHl. lia.
Qed.

Lemma upd_nth_self {A} (l : list A) i v : nth_error l i = Some v -> upd l i v = l.
Proof.
  revert i; induction l; intros [|i]; simpl; intros; try discriminate; auto.
  - inversion H; reflexivity.
  - f_equal. auto.
Qed.

Lemma upd_app_l {A} (l r : list A) i v :
  (i < length l)%nat -> upd (l ++ r) i v = upd l i v ++ r.
Proof. revert i; induction l; intros [|i]; simpl; intros; try lia; auto. f_equal. apply IHl; lia. Qed.

Lemma upd_app_r {A} (l r : list A) i v :
  (length l <= i)%nat -> upd (l ++ r) i v = l ++ upd r (i - length l) v.
Proof.
  revert i; induction l; intros i; simpl; intros.
  - f_equal. lia.
  - destruct i; try lia. simpl. f_equal. apply IHl. lia.
Qed.

Lemma upd_mid {A} (l r : list A) x v : upd (l ++ x :: r) (length l) v = l ++ v :: r.
Proof. induction l; simpl; auto. f_equal; auto. Qed.

Lemma nth_ext_error {A} (l l' : list A) :
  (forall i, nth_error l i = nth_error l' i) -> l = l'.
Proof.
  revert l'; induction l; intros [|b l'] H; auto.
  - specialize (H 0%nat); discriminate.
  - specialize (H 0%nat); discriminate.
  - f_equal.
    + specialize (H 0%nat); simpl in H; congruence.
    + apply IHl. intros i. apply (H (S i)).
Qed.

Lemma rdz_ok {A} (l : list A) i a :
  0 <= i -> nth_error l (Z.to_nat i) = Some a -> rdz l i = Ok a.
Proof.
  intros H1 H2. unfold rdz. destruct (i <? 0) eqn:E; [apply Z.ltb_lt in E; lia|].
  apply rd_ok; auto.
Qed.

Lemma wrz_ok {A} (l : list A) i v :
  0 <= i < Z.of_nat (length l) -> wrz l i v = Ok (upd l (Z.to_nat i) v).
Proof.
  intros H. unfold wrz. destruct (i <? 0) eqn:E; [apply Z.ltb_lt in E; lia|].
  apply wr_ok. lia.
Qed.

(** ** Loop rules *)

Lemma for_up_inv {S} (Inv : nat -> S -> Prop) body start n s :
  Inv start s ->
  (forall i s, (start <= i < start + n)%nat -> Inv i s ->
     exists s', body i s = Ok s' /\ Inv (Datatypes.S i) s') ->
  exists s', for_up body start n s = Ok s' /\ Inv (start + n)%nat s'.
Proof.
  revert start s; induction n; intros start s H0 Hstep; simpl.
  - exists s. rewrite Nat.add_0_r. auto.
  - destruct (Hstep start s) as (s1 & E1 & I1); [lia|auto|].
    rewrite E1; simpl.
    destruct (IHn (Datatypes.S start) s1 I1) as (s2 & E2 & I2).
    + intros i s' Hi Hs'. apply Hstep; auto; lia.
    + exists s2. split; auto. replace (start + Datatypes.S n)%nat with (Datatypes.S start + n)%nat by lia; auto.
Qed.

Lemma for_down_inv {S} (Inv : nat -> S -> Prop) body n s :
  Inv n s ->
  (forall i s, (i < n)%nat -> Inv (Datatypes.S i) s ->
     exists s', body i s = Ok s' /\ Inv i s') ->
  exists s', for_down body n s = Ok s' /\ Inv O s'.
Proof.
  revert s; induction n; intros s H0 Hstep; simpl.
  - exists s; auto.
  - destruct (Hstep n s) as (s1 & E1 & I1); [lia|auto|].
    rewrite E1; simpl. apply IHn; auto.
Qed.

Lemma for_up_app {S} (body : nat -> S -> res S) start n m s :
  for_up body start (n + m) s =
  (let* s' := for_up body start n s in for_up body (start + n) m s').
Proof.
  revert start s; induction n; intros; simpl.
  - rewrite Nat.add_0_r. reflexivity.
  - destruct (body start s); simpl; auto. rewrite IHn.
    replace (start + Datatypes.S n)%nat with (Datatypes.S start + n)%nat by lia. reflexivity.
Qed.

Lemma for_up_ext {S} (b1 b2 : nat -> S -> res S) start n s :
  (forall i s, (start <= i < start + n)%nat -> b1 i s = b2 i s) ->
  for_up b1 start n s = for_up b2 start n s.
Proof.
  revert start s; induction n; intros start s H; simpl; auto.
  rewrite (H start s) by lia. destruct (b2 start s); simpl; auto.
  apply IHn. intros. apply H. lia.
Qed.

Lemma for_up_shift {S} (b : nat -> S -> res S) start n s :
  for_up b start n s = for_up (fun i => b (start + i)%nat) 0 n s.
Proof.
  assert (G : forall k st, for_up b (st + k) n s = for_up (fun i => b (st + i)%nat) k n s).
  { revert s. induction n; intros s k st; simpl; auto.
    destruct (b (st + k)%nat s); simpl; auto.
    rewrite <- IHn. f_equal. lia. }
  specialize (G 0%nat start). rewrite Nat.add_0_r in G. exact G.
Qed.

Lemma for_each_app {S E} (body : E -> S -> res S) l1 l2 s :
  for_each body (l1 ++ l2) s = (let* s' := for_each body l1 s in for_each body l2 s').
Proof. revert s; induction l1; intros; simpl; auto. destruct (body a s); simpl; auto. Qed.

(** ** Lists *)

Lemma nth_error_firstn {A} (l : list A) n i :
  (i < n)%nat -> nth_error (firstn n l) i = nth_error l i.
Proof.
  revert n i; induction l; intros [|n] [|i] H; simpl; try lia; auto. apply IHl; lia.
Qed.

Lemma nth_error_skipn {A} (l : list A) n i :
  nth_error (skipn n l) i = nth_error l (n + i).
Proof. revert n; induction l; intros [|n]; simpl; auto. destruct i; auto. Qed.

Lemma nth_error_map_some {A B} (f : A -> B) l i a :
  nth_error l i = Some a -> nth_error (map f l) i = Some (f a).
Proof. intros. rewrite nth_error_map, H. reflexivity. Qed.

Lemma nth_error_seq a n i : (i < n)%nat -> nth_error (seq a n) i = Some (a + i)%nat.
Proof.
  revert a i; induction n; intros a [|i] H; simpl; try lia.
  - f_equal; lia.
  - rewrite IHn by lia. f_equal; lia.
Qed.

Lemma skipn_cons_nth {A} (l : list A) i a :
  nth_error l i = Some a -> skipn i l = a :: skipn (S i) l.
Proof.
  revert i; induction l; intros [|i] H; simpl in *; try discriminate.
  - inversion H; reflexivity.
  - apply IHl; auto.
Qed.

Lemma firstn_snoc_nth {A} (l : list A) i a :
  nth_error l i = Some a -> firstn (S i) l = firstn i l ++ [a].
Proof.
  revert i; induction l; intros [|i] H; try discriminate.
  - inversion H; reflexivity.
  - change (a0 :: firstn (S i) l = a0 :: (firstn i l ++ [a])). f_equal. apply IHl; auto.
Qed.

Lemma Forall2_nth_error {A B} (R : A -> B -> Prop) l1 l2 :
  Forall2 R l1 l2 -> forall i a b, nth_error l1 i = Some a -> nth_error l2 i = Some b -> R a b.
Proof.
  induction 1; intros [|i] u v Hu Hv; simpl in *; try discriminate.
  - congruence.
  - eapply IHForall2; eauto.
Qed.

Lemma Forall2_intro_nth {A B} (R : A -> B -> Prop) l1 l2 :
  length l1 = length l2 ->
  (forall i a b, nth_error l1 i = Some a -> nth_error l2 i = Some b -> R a b) ->
  Forall2 R l1 l2.
Proof.
  revert l2; induction l1; intros [|b l2] HL H; simpl in HL; try discriminate; constructor.
  - apply (H 0%nat); reflexivity.
  - apply IHl1; [lia|]. intros i u v Hu Hv. apply (H (S i)); auto.
Qed.

Lemma nth_error_Some_lt {A} (l : list A) i a : nth_error l i = Some a -> (i < length l)%nat.
Proof. intros H. apply nth_error_Some. congruence. Qed.

Lemma nth_error_lt_ex {A} (l : list A) i : (i < length l)%nat -> exists a, nth_error l i = Some a.
Proof. intros H. destruct (nth_error l i) eqn:E; eauto. apply nth_error_None in E. lia. Qed.

Lemma Forall2_length {A B} (R : A -> B -> Prop) l1 l2 : Forall2 R l1 l2 -> length l1 = length l2.
Proof. induction 1; simpl; auto. Qed.

Lemma nth_skipn {A} n (l : list A) k d : nth k (skipn n l) d = nth (n + k) l d.
Proof. revert l; induction n; intros [|x l]; simpl; auto. destruct k; auto. Qed.

Lemma nth_firstn {A} n (l : list A) k d : (k < n)%nat -> nth k (firstn n l) d = nth k l d.
Proof.
  revert l k; induction n; intros [|x l] [|k] H; simpl; auto; try lia. apply IHn; lia.
Qed.

Lemma Forall_skipn' {A} (P : A -> Prop) n l : Forall P l -> Forall P (skipn n l).
Proof. intros H. rewrite <- (firstn_skipn n l) in H. apply Forall_app in H. tauto. Qed.

Lemma Forall_firstn' {A} (P : A -> Prop) n l : Forall P l -> Forall P (firstn n l).
Proof. intros H. rewrite <- (firstn_skipn n l) in H. apply Forall_app in H. tauto. Qed.
