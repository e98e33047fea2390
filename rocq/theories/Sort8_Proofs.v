(** Proofs about sorting: median, unique, setdiff1d. *)
From Coq Require Import List ZArith Bool Lia Permutation Sorted.
From Verif Require Import Prelude PreludeFacts Access_Model Sort_Model Sort_Spec Sort5_Proofs Reduce3_Proofs.
Import ListNotations.
Open Scope Z_scope.

(** ** The element in place *)
Definition count {A} (p : A -> bool) (l : list A) : nat := length (filter p l).
Lemma count_app {A} (p : A -> bool) l l' : count p (l ++ l') = (count p l + count p l')%nat.
Proof. unfold count. rewrite filter_app, app_length. reflexivity. Qed.
Lemma count_le {A} (p : A -> bool) l : (count p l <= length l)%nat.
Proof. unfold count. induction l as [|x l IH]; cbn; [lia|]. destruct (p x); cbn; lia. Qed.
Lemma count_perm {A} (p : A -> bool) l l' : Permutation l l' -> count p l = count p l'.
Proof.
  unfold count. induction 1 as [|x l l' H IH|x y l|l l' l'' H1 IH1 H2 IH2]; cbn; [reflexivity| | |congruence].
  - destruct (p x); cbn; congruence.
  - destruct (p x), (p y); reflexivity.
Qed.
Lemma count_none {A} (p : A -> bool) l : (forall x, In x l -> p x = false) -> count p l = 0%nat.
Proof. unfold count. induction l as [|x l IH]; intros H; [reflexivity|]. cbn. rewrite (H x) by (left; reflexivity). apply IH. intros y Hy. apply H. right. exact Hy. Qed.
Lemma count_all {A} (p : A -> bool) l : (forall x, In x l -> p x = true) -> count p l = length l.
Proof. unfold count. induction l as [|x l IH]; intros H; [reflexivity|]. cbn. rewrite (H x) by (left; reflexivity). cbn. f_equal. apply IH. intros y Hy. apply H. right. exact Hy. Qed.

Lemma sorted_split {A} (lt : A -> A -> bool) : forall k s z, sorted lt s -> nth_error s k = Some z ->
  Forall (fun y => lt z y = false) (firstn k s) /\ Forall (fun y => lt y z = false) (skipn (S k) s).
Proof.
  induction k as [|k IH]; intros s z Hs Hz; (destruct s as [|x s]; [discriminate|]); inversion Hs as [|? ? H1 H2]; subst.
  - cbn in Hz. injection Hz as <-. split; [constructor|exact H2].
  - cbn in Hz. destruct (IH s z H1 Hz) as [I1 I2]. split; [|exact I2]. cbn [firstn]. constructor; [|exact I1].
    rewrite Forall_forall in H2. apply H2. apply (nth_error_In _ _ Hz).
Qed.
Lemma in_place_sorted {A} (lt : A -> A -> bool) (w s : list A) k x : strict_weak_order lt w -> Permutation w s -> sorted lt s -> in_place lt k w -> nth_error w k = Some x ->
  exists z, nth_error s k = Some z /\ equiv lt x z = true.
Proof.
  intros Hs P S Hp Hx. assert (Lk : (k < length w)%nat) by (apply nth_error_Some; congruence). pose proof (Permutation_length P) as L.
  destruct (nth_error s k) as [z|] eqn:Hz; [|apply nth_error_None in Hz; lia]. exists z. split; [reflexivity|].
  assert (Ix : In x w) by (apply (nth_error_In _ _ Hx)). assert (Hin : forall y, In y s -> In y w) by (intros y; apply (Permutation_in _ (Permutation_sym P))).
  assert (Iz : In z w) by (apply Hin, (nth_error_In _ _ Hz)).
  destruct (Hp x Hx) as [P1 P2]. destruct (sorted_split lt k s z S Hz) as [S1 S2]. rewrite Forall_forall in S1, S2.
  assert (Sp : forall (l : list A) v, nth_error l k = Some v -> l = firstn k l ++ v :: skipn (Datatypes.S k) l).
  { intros l v Hv. rewrite <- (skipn_cons_nth _ _ _ Hv). symmetry. apply firstn_skipn. }
  pose proof (Sp w x Hx) as Ew. pose proof (Sp s z Hz) as Es. pose proof (Hs) as (Irr & _ & _).
  assert (F1 : length (firstn k w) = k) by (rewrite firstn_length; lia). assert (F2 : length (firstn k s) = k) by (rewrite firstn_length; lia).
  assert (G1 : length (skipn (Datatypes.S k) w) = (length w - k - 1)%nat) by (rewrite skipn_length; lia).
  assert (G2 : length (skipn (Datatypes.S k) s) = (length w - k - 1)%nat) by (rewrite skipn_length; lia).
  assert (If : forall y, In y (firstn k s) -> In y w) by (intros y Hy; apply Hin; rewrite Es; apply in_app_iff; left; exact Hy).
  assert (Is : forall y, In y (skipn (Datatypes.S k) s) -> In y w) by (intros y Hy; apply Hin; rewrite Es; apply in_app_iff; right; right; exact Hy).
  unfold equiv. destruct (lt x z) eqn:E1.
  - exfalso. pose proof (count_perm (fun y => lt x y) _ _ P) as C. rewrite Ew, Es, !count_app in C.
    rewrite (count_none _ (firstn k w)) in C.
    2:{ intros y Hy. apply In_nth_error in Hy. destruct Hy as [i Hy]. assert (i < k)%nat by (rewrite <- F1; apply nth_error_Some; congruence).
        rewrite nth_error_firstn in Hy by assumption. apply (P1 i); assumption. }
    change (x :: skipn (Datatypes.S k) w) with ([x] ++ skipn (Datatypes.S k) w) in C. rewrite count_app in C.
    rewrite (count_none _ [x]) in C by (intros y [<-|[]]; apply Irr; exact Ix).
    pose proof (count_le (fun y => lt x y) (skipn (Datatypes.S k) w)).
    rewrite (count_all _ (z :: skipn (Datatypes.S k) s)) in C; [cbn [length] in C; lia|].
    intros y [<-|Hy]; [exact E1|]. apply (lt_nlt lt w x z y); auto.
  - destruct (lt z x) eqn:E2; [|reflexivity]. exfalso. pose proof (count_perm (fun y => lt y x) _ _ P) as C. rewrite Ew, Es, !count_app in C.
    change (x :: skipn (Datatypes.S k) w) with ([x] ++ skipn (Datatypes.S k) w) in C.
    change (z :: skipn (Datatypes.S k) s) with ([z] ++ skipn (Datatypes.S k) s) in C. rewrite !count_app in C.
    rewrite (count_none _ [x]) in C by (intros y [<-|[]]; apply Irr; exact Ix).
    rewrite (count_none _ (skipn (Datatypes.S k) w)) in C.
    2:{ intros y Hy. apply In_nth_error in Hy. destruct Hy as [i Hy]. rewrite nth_error_skipn in Hy. apply (P2 (Datatypes.S k + i)%nat); [lia|exact Hy]. }
    pose proof (count_le (fun y => lt y x) (firstn k w)).
    rewrite (count_all _ [z]) in C by (intros y [<-|[]]; exact E2).
    rewrite (count_all _ (firstn k s)) in C; [cbn [length] in C; lia|].
    intros y Hy. destruct (lt y x) eqn:E3; [reflexivity|]. specialize (S1 y Hy).
    rewrite (lt_nlt lt w z x y) in S1; auto. 
Qed.

Section Median.
Context {V : Type} (a : algos) (lt : V -> V -> bool) (mid : V -> V -> V).
Hypothesis Ha : std_ok a.
Lemma median_lemma vals s : vals <> [] -> Z.of_nat (length vals) < 2 ^ 64 -> strict_weak_order lt vals -> Permutation vals s -> sorted lt s ->
  let h := (length vals / 2)%nat in
  exists y z, nth_error s h = Some z /\ equiv lt y z = true /\
    if Nat.even (length vals) then exists x u, nth_error s (h - 1) = Some u /\ equiv lt x u = true /\ median a lt mid vals = Ok (mid x y)
    else median a lt mid vals = Ok y.
Proof.
  intros Hne Hb Hs P S h. set (N := length vals) in *. assert (HN : (0 < N)%nat) by (unfold N; destruct vals; [congruence|cbn; lia]).
  assert (Hin : forall r k, Permutation vals r -> in_place lt k r -> (k < N)%nat -> exists x, nth_error r k = Some x /\ exists z, nth_error s k = Some z /\ equiv lt x z = true).
  { intros r k Pr Hp Hk. destruct (nth_error r k) as [x|] eqn:E; [|apply nth_error_None in E; rewrite <- (Permutation_length Pr) in E; fold N in E; lia].
    exists x. split; [reflexivity|]. apply (in_place_sorted lt r); [|eapply Permutation_trans; [apply Permutation_sym; exact Pr|exact P]|exact S|exact Hp|exact E].
    apply (swo_incl lt vals); [exact Hs|]. intros y. apply Permutation_in, Permutation_sym. exact Pr. }
  assert (Hh : Z.of_nat N / 2 = Z.of_nat h) by (unfold h; rewrite Nat2Z.inj_div; reflexivity).
  unfold median. fold N. cbv zeta. destruct (Nat.even N) eqn:Ev.
  - apply Nat.even_spec in Ev. destruct Ev as [q Hq]. assert (Eh : h = q) by (unfold h; rewrite Hq, Nat.mul_comm; apply Nat.div_mul; lia).
    rewrite (proj2 (Z.eqb_eq _ _)) by (rewrite Hq, Nat2Z.inj_mul, Z.mul_comm; apply Z.mod_mul; lia).
    rewrite Hh. rewrite to_size_t_id by lia.
    destruct (partition_range_ok a lt Ha [Z.of_nat h - 1; Z.of_nat h] vals Hs) as (r & E & Pr & M); [fold N; repeat constructor; lia|].
    rewrite E. cbn [bind].
    destruct (Hin r (h - 1)%nat Pr) as (x & Ex & u & Eu & Qu). { replace (h - 1)%nat with (Z.to_nat (Z.of_nat h - 1)) by lia. apply M. left. reflexivity. } { lia. }
    destruct (Hin r h Pr) as (y & Ey & z & Ez & Qz). { rewrite <- (Nat2Z.id h). apply M. right. left. reflexivity. } { lia. }
    exists y, z. split; [exact Ez|]. split; [exact Qz|]. exists x, u. split; [exact Eu|]. split; [exact Qu|].
    rewrite (rdz_ok r (Z.of_nat h - 1) x); [|lia|replace (Z.to_nat (Z.of_nat h - 1)) with (h - 1)%nat by lia; exact Ex]. cbn [bind].
    rewrite (rdz_ok r (Z.of_nat h) y); [reflexivity|lia|rewrite Nat2Z.id; exact Ey].
  - assert (Ho : Nat.odd N = true) by (rewrite <- Nat.negb_even, Ev; reflexivity). apply Nat.odd_spec in Ho. destruct Ho as [q Hq].
    assert (Eh : h = q) by (unfold h; rewrite Hq, Nat.mul_comm, Nat.add_comm, Nat.div_add by lia; reflexivity).
    assert (Z.of_nat N mod 2 = 1) as -> by (rewrite Hq, Nat2Z.inj_add, Nat2Z.inj_mul, Z.add_comm, Z.mul_comm, Z.mod_add by lia; reflexivity).
    cbn [Z.eqb]. replace ((Z.of_nat N - 1) / 2) with (Z.of_nat h).
    2:{ rewrite Eh, Hq. replace (Z.of_nat (2 * q + 1) - 1) with (Z.of_nat q * 2) by lia. symmetry. apply Z.div_mul. lia. }
    destruct (partition_range_ok a lt Ha [Z.of_nat h] vals Hs) as (r & E & Pr & M); [fold N; repeat constructor; lia|].
    rewrite E. cbn [bind]. destruct (Hin r h Pr) as (y & Ey & z & Ez & Qz). { rewrite <- (Nat2Z.id h). apply M. left. reflexivity. } { lia. }
    exists y, z. split; [exact Ez|]. split; [exact Qz|]. apply rdz_ok; [lia|rewrite Nat2Z.id; exact Ey].
Qed.
End Median.

(** ** unique and setdiff1d *)
Section Unique.
Context {V : Type} (lt eqb : V -> V -> bool) (U : list V).
Hypothesis Hs : strict_weak_order lt U.
Hypothesis Heq : forall x y, In x U -> In y U -> eqb x y = equiv lt x y.

Lemma equiv_refl x : In x U -> equiv lt x x = true.
Proof. intros H. destruct Hs as (I & _). unfold equiv. rewrite (I x H). reflexivity. Qed.
Lemma equiv_sym x y : equiv lt x y = equiv lt y x.
Proof. unfold equiv. apply andb_comm. Qed.
Lemma equiv_iff x y : equiv lt x y = true <-> lt x y = false /\ lt y x = false.
Proof. unfold equiv. rewrite andb_true_iff, !negb_true_iff. tauto. Qed.

Lemma unique_from_ok : forall l x, incl (x :: l) U -> sorted lt (x :: l) ->
  increasing lt (unique_from eqb x l) /\ incl (unique_from eqb x l) (x :: l) /\
  forall z, In z (x :: l) -> exists y, In y (unique_from eqb x l) /\ equiv lt z y = true.
Proof.
  induction l as [|y l IH]; intros x I S.
  - cbn [unique_from]. split; [repeat constructor|]. split; [apply incl_refl|]. intros z [<-|[]]. exists x. split; [left; reflexivity|]. apply equiv_refl. apply I. left. reflexivity.
  - inversion S as [|? ? S1 S2]; subst. inversion S2 as [|? ? S3 S4]; subst. inversion S1 as [|? ? S5 S6]; subst.
    assert (Ix : In x U) by (apply I; left; reflexivity). assert (Iy : In y U) by (apply I; right; left; reflexivity).
    assert (Il : incl l U) by (intros z Hz; apply I; right; right; exact Hz).
    cbn [unique_from]. rewrite Heq by assumption. destruct (equiv lt x y) eqn:E.
    + destruct (IH x) as (I1 & I2 & I3); [intros z [<-|Hz]; auto|constructor; assumption|].
      split; [exact I1|]. split. { intros z Hz. destruct (I2 z Hz) as [<-|H]; [left; reflexivity|right; right; exact H]. }
      intros z [<-|[<-|Hz]]; [apply I3; left; reflexivity| |apply I3; right; exact Hz].
      destruct (I3 x (or_introl eq_refl)) as (u & Hu & Eu). exists u. split; [exact Hu|]. apply equiv_iff in E. apply equiv_iff in Eu. apply equiv_iff.
      assert (Iu : In u U) by (destruct (I2 u Hu) as [<-|H]; auto). destruct Hs as (_ & _ & Ht). apply (Ht y x u); tauto.
    + destruct (IH y) as (I1 & I2 & I3); [intros z [<-|Hz]; auto|exact S1|].
      assert (Lxy : lt x y = true). { unfold equiv in E. rewrite S3 in E. destruct (lt x y); [reflexivity|discriminate]. }
      split; [|split].
      * constructor; [exact I1|]. apply Forall_forall. intros z Hz. apply I2 in Hz. destruct Hz as [<-|Hz]; [exact Lxy|].
        rewrite Forall_forall in S6. apply (lt_nlt lt U x y z); auto.
      * intros z [<-|Hz]; [left; reflexivity|]. right. apply I2. exact Hz.
      * intros z [<-|Hz]; [exists x; split; [left; reflexivity|apply equiv_refl; exact Ix]|]. destruct (I3 z Hz) as (u & Hu & Eu). exists u. split; [right; exact Hu|exact Eu].
Qed.
Lemma std_unique_ok l : incl l U -> sorted lt l -> increasing lt (std_unique eqb l) /\ incl (std_unique eqb l) l /\
  forall z, In z l -> exists y, In y (std_unique eqb l) /\ equiv lt z y = true.
Proof.
  destruct l as [|x l]; intros I S; [cbn; split; [constructor|]; split; [apply incl_refl|intros z []]|]. apply unique_from_ok; assumption.
Qed.

Lemma set_difference_nil l : set_difference lt [] l = [].
Proof. destruct l; reflexivity. Qed.
Lemma set_difference_nil_r l : set_difference lt l [] = l.
Proof. destruct l; reflexivity. Qed.
Lemma set_difference_cons x t1 y t2 : set_difference lt (x :: t1) (y :: t2) =
  if lt x y then x :: set_difference lt t1 (y :: t2) else if lt y x then set_difference lt (x :: t1) t2 else set_difference lt t1 t2.
Proof. reflexivity. Qed.
Definition no_equiv (l2 : list V) (x : V) : bool := negb (existsb (equiv lt x) l2).
Lemma no_equiv_cons x y l2 : equiv lt x y = false -> no_equiv (y :: l2) x = no_equiv l2 x.
Proof. intros E. unfold no_equiv. cbn [existsb]. rewrite E. reflexivity. Qed.
Lemma no_equiv_below x l2 : Forall (fun y => lt x y = true) l2 -> no_equiv l2 x = true.
Proof.
  intros H. unfold no_equiv. apply negb_true_iff. induction H as [|y l2 H _ IH]; [reflexivity|]. cbn [existsb]. rewrite IH. unfold equiv. rewrite H. reflexivity.
Qed.
Lemma filter_all {A} (p : A -> bool) l : Forall (fun x => p x = true) l -> filter p l = l.
Proof. induction 1 as [|x l H _ IH]; [reflexivity|]. cbn. rewrite H, IH. reflexivity. Qed.

Lemma set_difference_ok : forall l1 l2, incl l1 U -> incl l2 U -> increasing lt l1 -> increasing lt l2 -> set_difference lt l1 l2 = filter (no_equiv l2) l1.
Proof.
  induction l1 as [|x t1 IH1]; intros l2 I1 I2 S1 S2; [rewrite set_difference_nil; reflexivity|].
  induction l2 as [|y t2 IH2]; [rewrite set_difference_nil_r; symmetry; apply filter_all; apply Forall_forall; reflexivity|].
  inversion S1 as [|? ? S1a S1b]; subst. inversion S2 as [|? ? S2a S2b]; subst.
  assert (Ix : In x U) by (apply I1; left; reflexivity). assert (Iy : In y U) by (apply I2; left; reflexivity).
  assert (It1 : incl t1 U) by (intros z Hz; apply I1; right; exact Hz). assert (It2 : incl t2 U) by (intros z Hz; apply I2; right; exact Hz).
  rewrite Forall_forall in S1b, S2b. pose proof Hs as (_ & Htr & _).
  rewrite set_difference_cons. destruct (lt x y) eqn:Exy.
  - rewrite (IH1 (y :: t2)) by assumption. cbn [filter]. rewrite no_equiv_below; [reflexivity|]. constructor; [exact Exy|]. apply Forall_forall. intros z Hz.
    apply (Htr x y z); auto.
  - destruct (lt y x) eqn:Eyx.
    + rewrite IH2 by assumption. apply filter_ext_in. intros z Hz. symmetry. apply no_equiv_cons. unfold equiv.
      assert (lt y z = true) as ->; [|apply andb_false_r]. destruct Hz as [<-|Hz]; [exact Eyx|]. apply (Htr y x z); auto.
    + rewrite IH1 by assumption. cbn [filter]. assert (no_equiv (y :: t2) x = false) as ->.
      { unfold no_equiv. cbn [existsb]. unfold equiv at 1. rewrite Exy, Eyx. reflexivity. }
      apply filter_ext_in. intros z Hz. symmetry. apply no_equiv_cons. unfold equiv. assert (lt y z = true) as ->; [|apply andb_false_r].
      destruct (lt y z) eqn:E; [reflexivity|]. pose proof (nlt_trans lt U x y z Hs Ix Iy (It1 z Hz) Eyx) as N. specialize (S1b z Hz).
      destruct (lt z y) eqn:E2.
      * rewrite (Htr x z y) in Exy; auto.
      * pose proof (asym lt U x z Hs Ix (It1 z Hz) S1b). destruct Hs as (_ & _ & Hq). destruct (Hq x y z) as [Q _]; auto. congruence.
Qed.

Context (a : algos).
Hypothesis Ha : std_ok a.
Lemma unique_lemma vals : incl vals U -> increasing lt (unique a lt eqb vals) /\ (forall x, In x (unique a lt eqb vals) -> In x vals) /\
  forall x, In x vals -> exists y, In y (unique a lt eqb vals) /\ equiv lt x y = true.
Proof.
  intros I. destruct Ha as (H1 & _). destruct (H1 V lt vals (swo_incl lt U vals Hs I)) as [P S].
  assert (I' : incl (std_sort a V lt vals) U). { intros z Hz. apply I. apply (Permutation_in _ (Permutation_sym P) Hz). }
  destruct (std_unique_ok _ I' S) as (A & B & C). unfold unique, flat_sort. split; [exact A|]. split.
  - intros x Hx. apply (Permutation_in _ (Permutation_sym P)). apply B. exact Hx.
  - intros x Hx. apply C. apply (Permutation_in _ P Hx).
Qed.
Lemma increasing_filter (p : V -> bool) l : increasing lt l -> increasing lt (filter p l).
Proof.
  induction 1 as [|x l Hl IH Hx]; [constructor|]. cbn [filter]. destruct (p x); [|exact IH]. constructor; [exact IH|].
  rewrite Forall_forall in *. intros y Hy. apply filter_In in Hy. apply Hx. apply Hy.
Qed.
Lemma no_equiv_true l x : no_equiv l x = true <-> forall y, In y l -> equiv lt x y = false.
Proof.
  unfold no_equiv. rewrite negb_true_iff. split.
  - intros H y Hy. destruct (equiv lt x y) eqn:E; [|reflexivity]. rewrite <- H. symmetry. apply existsb_exists. eauto.
  - intros H. destruct (existsb (equiv lt x) l) eqn:E; [|reflexivity]. apply existsb_exists in E. destruct E as (y & Hy & E). rewrite H in E by exact Hy. discriminate.
Qed.
Lemma equiv_trans x y z : In x U -> In y U -> In z U -> equiv lt x y = true -> equiv lt y z = true -> equiv lt x z = true.
Proof. rewrite !equiv_iff. intros Ix Iy Iz [A B] [C D]. destruct Hs as (_ & _ & H). apply (H x y z); assumption. Qed.
Lemma setdiff_lemma vals1 vals2 : incl vals1 U -> incl vals2 U -> let r := setdiff1d a lt eqb vals1 vals2 in
  increasing lt r /\ (forall x, In x r -> In x vals1 /\ forall y, In y vals2 -> equiv lt x y = false) /\
  forall x, In x vals1 -> (forall y, In y vals2 -> equiv lt x y = false) -> exists z, In z r /\ equiv lt x z = true.
Proof.
  intros I1 I2 r. destruct (unique_lemma vals1 I1) as (A1 & B1 & C1). destruct (unique_lemma vals2 I2) as (A2 & B2 & C2).
  unfold r, setdiff1d. rewrite set_difference_ok; [|intros z Hz; auto..|exact A1|exact A2]. split; [apply increasing_filter; exact A1|]. split.
  - intros x Hx. apply filter_In in Hx. destruct Hx as [Hx Hn]. rewrite no_equiv_true in Hn. split; [auto|]. intros y Hy.
    destruct (C2 y Hy) as (u & Hu & Eu). destruct (equiv lt x y) eqn:E; [|reflexivity]. rewrite <- (Hn u Hu). symmetry. apply (equiv_trans x y u); auto.
  - intros x Hx Hn. destruct (C1 x Hx) as (z & Hz & Ez). exists z. split; [|exact Ez]. apply filter_In. split; [exact Hz|]. apply no_equiv_true. intros y Hy.
    destruct (equiv lt z y) eqn:E; [|reflexivity]. rewrite <- (Hn y (B2 y Hy)). symmetry. apply (equiv_trans x z y); auto.
Qed.
End Unique.
