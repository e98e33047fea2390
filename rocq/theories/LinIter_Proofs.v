(** Proofs about the linear iterators of functions. *)
From Coq Require Import List ZArith Bool Lia.
From Verif Require Import Prelude PreludeFacts LinIter_Model LinIter_Spec.
Import ListNotations.
Open Scope Z_scope.

Section S.
Context {V : Type}.
Notation lexp := (lexp V).
Notation lit := (lit V).

Fixpoint lexp_rec2 (P : lexp -> Prop) (ha : forall d, P (LArr d)) (hs : forall v, P (LSc v)) (hf : forall f args, Forall P args -> P (LF f args)) (e : lexp) : P e :=
  match e with
  | LArr d => ha d
  | LSc v => hs v
  | LF f args => hf f args ((fix all l : Forall P l := match l with [] => Forall_nil P | x :: l => Forall_cons x (lexp_rec2 P ha hs hf x) (all l) end) args)
  end.
Fixpoint lit_rec2 (P : lit -> Prop) (ha : forall d k, P (IPos d k)) (hs : forall v, P (IDummy v)) (hf : forall f its, Forall P its -> P (IFun f its)) (i : lit) : P i :=
  match i with
  | IPos d k => ha d k
  | IDummy v => hs v
  | IFun f its => hf f its ((fix all l : Forall P l := match l with [] => Forall_nil P | x :: l => Forall_cons x (lit_rec2 P ha hs hf x) (all l) end) its)
  end.
Lemma map_forall {A B} (f g : A -> B) l : Forall (fun x => f x = g x) l -> map f l = map g l.
Proof. induction 1; cbn; congruence. Qed.

Lemma minus_plus n (i : lit) : i_minus n i = i_plus (- n) i.
Proof. induction i as [d k|v|f its IH] using lit_rec2; cbn; try reflexivity; f_equal; try lia. now apply map_forall. Qed.
Lemma next_plus (i : lit) : i_next i = i_plus 1 i.
Proof. induction i as [d k|v|f its IH] using lit_rec2; cbn; try reflexivity; f_equal. now apply map_forall. Qed.
Lemma prev_plus (i : lit) : i_prev i = i_plus (-1) i.
Proof. induction i as [d k|v|f its IH] using lit_rec2; cbn; try reflexivity; f_equal; try lia. now apply map_forall. Qed.
Lemma plus_plus m n (i : lit) : i_plus m (i_plus n i) = i_plus (n + m) i.
Proof. induction i as [d k|v|f its IH] using lit_rec2; cbn; try reflexivity; f_equal; try lia. rewrite map_map. now apply map_forall. Qed.
Lemma plus_0 (i : lit) : i_plus 0 i = i.
Proof. induction i as [d k|v|f its IH] using lit_rec2; cbn; try reflexivity; f_equal; try lia. rewrite <- (map_id its) at 2. now apply map_forall. Qed.

Definition at_pos (e : lexp) (a : Z) : lit := i_plus a (l_begin e).
Lemma at_fun f args a : at_pos (LF f args) a = IFun f (map (fun x => at_pos x a) args).
Proof. unfold at_pos. cbn. now rewrite map_map. Qed.
Lemma end_at n (e : lexp) : arrays_of n e -> l_end e = at_pos e (Z.of_nat n).
Proof.
  induction e as [d|v|f args IH] using lexp_rec2; cbn [arrays_of]; intros H.
  - subst n. reflexivity.
  - reflexivity.
  - rewrite at_fun. cbn. f_equal. induction IH as [|x l Hx Hl IHl]; [reflexivity|]. destruct H as (H1 & H2). cbn. rewrite Hx by exact H1. f_equal. now apply IHl.
Qed.
Lemma dummy_at (e : lexp) a : is_dummy (at_pos e a) = match e with LSc _ => true | _ => false end.
Proof. destruct e; reflexivity. Qed.
Lemma equal_at (e : lexp) a b : array_first e -> i_equal (at_pos e a) (at_pos e b) = (a =? b).
Proof.
  induction e as [d|v|f args IH] using lexp_rec2; cbn [array_first]; intros H.
  - unfold at_pos. cbn. reflexivity.
  - contradiction.
  - rewrite !at_fun. cbn [i_equal]. induction IH as [|x l Hx Hl IHl]; [contradiction|]. cbn [map]. rewrite dummy_at. destruct x as [d|v|g l2].
    + apply Hx. exact H.
    + apply IHl. exact H.
    + apply Hx. exact H.
Qed.
Lemma less_at (e : lexp) a b : array_first e -> i_less (at_pos e a) (at_pos e b) = (a <? b).
Proof.
  induction e as [d|v|f args IH] using lexp_rec2; cbn [array_first]; intros H.
  - unfold at_pos. cbn. reflexivity.
  - contradiction.
  - rewrite !at_fun. cbn [i_less]. induction IH as [|x l Hx Hl IHl]; [contradiction|]. cbn [map]. rewrite dummy_at. destruct x as [d|v|g l2].
    + apply Hx. exact H.
    + apply IHl. exact H.
    + apply Hx. exact H.
Qed.
Fixpoint no_first (e : lexp) : Prop :=
  match e with LArr _ => False | LSc _ => True | LF _ args => (fix go l := match l with [] => True | LSc _ :: l => go l | x :: _ => no_first x end) args end.
Lemma not_first (e : lexp) : ~ array_first e -> no_first e.
Proof.
  induction e as [d|v|f args IH] using lexp_rec2; cbn [array_first no_first]; intros H; try tauto.
  induction IH as [|x l Hx Hl IHl]; [exact I|]. destruct x as [d|v|g l2]; [apply H; exact I|now apply IHl|apply Hx; exact H].
Qed.
Lemma equal_no (e : lexp) a b : ~ array_first e -> i_equal (at_pos e a) (at_pos e b) = true.
Proof.
  intros H. apply not_first in H. revert H. induction e as [d|v|f args IH] using lexp_rec2; cbn [no_first]; intros H; [contradiction|reflexivity|].
  rewrite !at_fun. cbn [i_equal]. induction IH as [|x l Hx Hl IHl]; [reflexivity|]. cbn [map]. rewrite dummy_at. destruct x as [d|v|g l2].
  - contradiction H.
  - apply IHl. exact H.
  - apply Hx. exact H.
Qed.
Lemma diff_at (e : lexp) a b : (has_array e -> Z.max 0 (i_diff (at_pos e a) (at_pos e b)) = Z.max 0 (a - b)) /\ (~ has_array e -> i_diff (at_pos e a) (at_pos e b) = 0) /\
  (forall f args, e = LF f args -> has_array e -> i_diff (at_pos e a) (at_pos e b) = Z.max 0 (a - b)).
Proof.
  induction e as [d|v|f args IH] using lexp_rec2.
  - unfold at_pos. cbn. split; [intros; lia|]. split; [tauto|discriminate].
  - cbn. split; [contradiction|]. split; [reflexivity|discriminate].
  - pose (go := (fix go (n : Z) (l l' : list lit) := match l, l' with x :: l, y :: l' => go (Z.max n (i_diff x y)) l l' | _, _ => n end)).
    assert (GS : forall n x y l l', go n (x :: l) (y :: l') = go (Z.max n (i_diff x y)) l l') by reflexivity.
    assert (G : forall n, 0 <= n <= Z.max 0 (a - b) ->
      (n = Z.max 0 (a - b) -> go n (map (fun x => at_pos x a) args) (map (fun x => at_pos x b) args) = n) /\
      ((fix any l := match l with [] => False | x :: l => has_array x \/ any l end) args -> go n (map (fun x => at_pos x a) args) (map (fun x => at_pos x b) args) = Z.max 0 (a - b)) /\
      (~ (fix any l := match l with [] => False | x :: l => has_array x \/ any l end) args -> go n (map (fun x => at_pos x a) args) (map (fun x => at_pos x b) args) = n)).
    { induction IH as [|x l (Hx1 & Hx2 & _) Hl IHl]; intros n Hn.
      - split; [reflexivity|]. split; [contradiction|reflexivity].
      - cbn [map]. rewrite GS. assert (D : has_array x \/ ~ has_array x).
        { clear. induction x as [d|v|g l2 IH2] using lexp_rec2; cbn; auto. induction IH2 as [|y l3 Hy _ IH3]; [auto|]. tauto. }
        destruct D as [D|D].
        + specialize (Hx1 D). replace (Z.max n (i_diff (at_pos x a) (at_pos x b))) with (Z.max 0 (a - b)) by lia.
          destruct (IHl (Z.max 0 (a - b))) as (F1 & F2 & F3); [lia|]. rewrite (F1 eq_refl). split; [congruence|]. split; [reflexivity|]. intros Q. exfalso. apply Q. now left.
        + rewrite (Hx2 D). replace (Z.max n 0) with n by lia. destruct (IHl n Hn) as (F1 & F2 & F3). split; [exact F1|]. split; intros Q; [apply F2; tauto|apply F3; tauto]. }
    destruct (G 0) as (_ & G1 & G2); [lia|]. rewrite !at_fun. cbn [i_diff has_array]. split; [intros Q; pose proof (G1 Q) as E; unfold go in E; rewrite E; lia|]. split; [exact G2|intros; now apply G1].
Qed.

Scheme element_ind2 := Induction for element Sort Prop with elements_ind2 := Induction for elements_of Sort Prop.
Lemma deref_at (e : lexp) k v : element e k v -> i_deref (at_pos e (Z.of_nat k)) = Ok v.
Proof.
  intros H. induction H as [d k v E|v k|f args k vs H IH|k|e es k v vs He IHe Hes IHes] using element_ind2
    with (P0 := fun args k vs _ => (fix all l := match l with [] => Ok [] | x :: l => let* v := i_deref x in let* vs := all l in Ok (v :: vs) end) (map (fun x => at_pos x (Z.of_nat k)) args) = Ok vs).
  - unfold at_pos. cbn. unfold rdz. change (0 + Z.of_nat k) with (Z.of_nat k). destruct (Z.ltb_spec (Z.of_nat k) 0); [lia|]. rewrite Nat2Z.id. now apply rd_ok.
  - reflexivity.
  - rewrite at_fun. cbn [i_deref]. rewrite IH. reflexivity.
  - reflexivity.
  - cbn [map]. rewrite IHe. cbn [bind]. rewrite IHes. reflexivity.
Qed.
Lemma element_exists n (e : lexp) : arrays_of n e -> forall k, (k < n)%nat -> exists v, element e k v.
Proof.
  induction e as [d|v|f args IH] using lexp_rec2; cbn [arrays_of]; intros H k L.
  - destruct (nth_error d k) as [v|] eqn:E; [exists v; now constructor|]. apply nth_error_None in E. lia.
  - exists v. constructor.
  - assert (G : exists vs, elements_of args k vs).
    { induction IH as [|x l Hx Hl IHl]; [exists []; constructor|]. destruct H as (H1 & H2). destruct (Hx H1 k L) as (v & Hv). destruct (IHl H2) as (vs & Hvs). exists (v :: vs). now constructor. }
    destruct G as (vs & G). exists (f vs). now constructor.
Qed.

Lemma walk_at n (e : lexp) : arrays_of n e -> array_first e -> forall fuel k, (k + fuel = n)%nat ->
  exists l, l_walk fuel (at_pos e (Z.of_nat k)) (l_end e) = Ok l /\ length l = fuel /\ forall j v, nth_error l j = Some v -> element e (k + j) v.
Proof.
  intros A F. induction fuel as [|fuel IH]; intros k L; cbn [l_walk]; rewrite (end_at n e A), equal_at by exact F.
  - replace k with n by lia. rewrite Z.eqb_refl. exists []. repeat split. intros [|j] v H; discriminate H.
  - destruct (Z.eqb_spec (Z.of_nat k) (Z.of_nat n)); [lia|]. destruct (element_exists n e A k) as (v & Hv); [lia|]. rewrite (deref_at e k v Hv). cbn [bind].
    replace (i_next (at_pos e (Z.of_nat k))) with (at_pos e (Z.of_nat (S k))) by (rewrite next_plus; unfold at_pos; rewrite plus_plus; f_equal; lia).
    rewrite <- (end_at n e A). destruct (IH (S k)) as (l & E & Ll & El); [lia|]. rewrite E. cbn [bind]. exists (v :: l). split; [reflexivity|]. split; [cbn; lia|].
    intros [|j] w H; cbn in H; [injection H as <-; now rewrite Nat.add_0_r|]. replace (k + S j)%nat with (S k + j)%nat by lia. now apply El.
Qed.
Lemma walk_back_at n (e : lexp) : arrays_of n e -> array_first e -> forall k, (k <= n)%nat ->
  exists l, l_walk_back k (at_pos e (Z.of_nat k)) (l_begin e) = Ok l /\ length l = k /\ forall j v, nth_error l j = Some v -> element e (k - 1 - j) v.
Proof.
  intros A F. replace (l_begin e) with (at_pos e 0) by apply plus_0. induction k as [|k IH]; intros L; cbn [l_walk_back]; rewrite equal_at by exact F.
  - exists []. repeat split. intros [|j] v H; discriminate H.
  - destruct (Z.eqb_spec (Z.of_nat (S k)) 0); [lia|].
    replace (i_prev (at_pos e (Z.of_nat (S k)))) with (at_pos e (Z.of_nat k)) by (rewrite prev_plus; unfold at_pos; rewrite plus_plus; f_equal; lia).
    destruct (element_exists n e A k) as (v & Hv); [lia|]. rewrite (deref_at e k v Hv). cbn [bind]. destruct IH as (l & E & Ll & El); [lia|]. rewrite E. cbn [bind].
    exists (v :: l). split; [reflexivity|]. split; [cbn; lia|]. intros [|j] w H; cbn in H; [injection H as <-; replace (S k - 1 - 0)%nat with k by lia; exact Hv|].
    replace (S k - 1 - S j)%nat with (k - 1 - j)%nat by lia. now apply El.
Qed.
Lemma walk_none n (e : lexp) fuel : arrays_of n e -> ~ array_first e -> l_walk fuel (l_begin e) (l_end e) = Ok [].
Proof.
  intros A F. rewrite (end_at n e A). replace (l_begin e) with (at_pos e 0) by apply plus_0. destruct fuel; cbn [l_walk]; rewrite equal_no by exact F; reflexivity.
Qed.
Lemma nth_error_ext {A} (l r : list A) : (forall j, nth_error l j = nth_error r j) -> l = r.
Proof.
  revert r. induction l as [|x l IH]; intros [|y r] H; try reflexivity; [discriminate (H O)|discriminate (H O)|].
  pose proof (H O) as Q. injection Q as ->. f_equal. apply IH. intros j. exact (H (S j)).
Qed.
Lemma element_fun_det (e : lexp) k v w : element e k v -> element e k w -> v = w.
Proof. intros A B. apply deref_at in A. apply deref_at in B. congruence. Qed.
Lemma loops n (e : lexp) : arrays_of n e -> array_first e -> exists l r, l_walk n (l_begin e) (l_end e) = Ok l /\ l_walk_back n (l_end e) (l_begin e) = Ok r /\ r = rev l /\
    length l = n /\ forall k v, nth_error l k = Some v -> element e k v.
Proof.
  intros A F. destruct (walk_at n e A F n 0 eq_refl) as (l & E & L & El). destruct (walk_back_at n e A F n (le_n n)) as (r & E2 & L2 & El2).
  rewrite <- (end_at n e A) in E2. change (Z.of_nat 0) with 0 in E. unfold at_pos in E. rewrite plus_0 in E.
  exists l, r. split; [exact E|]. split; [exact E2|]. split; [|split; [exact L|exact El]].
  apply nth_error_ext. intros j. destruct (Nat.lt_ge_cases j n) as [J|J].
  - destruct (nth_error r j) as [v|] eqn:R; [|apply nth_error_None in R; lia]. pose proof (El2 j v R) as Q.
    assert (W : nth_error (rev l) j = nth_error l (n - 1 - j)).
    { destruct (nth_error l (n - 1 - j)) as [d|] eqn:D; [|apply nth_error_None in D; lia].
      rewrite (nth_error_nth' (rev l) d) by (rewrite rev_length; lia). rewrite rev_nth by lia. f_equal. replace (length l - S j)%nat with (n - 1 - j)%nat by lia. now apply nth_error_nth. }
    rewrite W. destruct (nth_error l (n - 1 - j)) as [d|] eqn:D; [|apply nth_error_None in D; lia]. f_equal. apply (element_fun_det e (n - 1 - j)); [exact Q|]. apply (El _ _ D).
  - rewrite (proj2 (nth_error_None r j)) by lia. symmetry. apply nth_error_None. rewrite rev_length. lia.
Qed.
End S.
Lemma three : let e := LF (fold_right Z.add 0) [LF (fold_right Z.add 0) [LSc 1; LSc 2]; LArr [10; 20; 30]] in element e 0 13 /\ element e 1 23 /\ element e 2 33.
Proof.
  assert (G : forall k v, nth_error [10; 20; 30] k = Some v -> element (LF (fold_right Z.add 0) [LF (fold_right Z.add 0) [LSc 1; LSc 2]; LArr [10; 20; 30]]) k (3 + (v + 0))).
  { intros k v H. change (3 + (v + 0)) with (fold_right Z.add 0 [fold_right Z.add 0 [1; 2]; v]). repeat constructor. exact H. }
  cbv zeta. split; [exact (G 0%nat 10 eq_refl)|]. split; [exact (G 1%nat 20 eq_refl)|exact (G 2%nat 30 eq_refl)].
Qed.
