From Coq Require Import List ZArith Bool Lia Permutation.
From Verif Require Import Prelude PreludeFacts Strides_Model Strides_Spec Access_Model Container_Model Container_Spec Container_Proofs Manip_Model Builder_Model SetOp_Model Random_Model Random_Spec.
Import ListNotations.
Open Scope Z_scope.

(** Swapping two elements of a list *)
Definition lswap {V} (i j : nat) (l : list V) : list V :=
  match nth_error l i, nth_error l j with Some x, Some y => upd (upd l i y) j x | _, _ => l end.

Lemma lswap_length {V} i j (l : list V) : length (lswap i j l) = length l.
Proof. unfold lswap. destruct (nth_error l i), (nth_error l j); rewrite ?upd_length; reflexivity. Qed.

Lemma lswap_nth {V} i j (l : list V) k : (i < length l)%nat -> (j < length l)%nat ->
  nth_error (lswap i j l) k = if (k =? j)%nat then nth_error l i else if (k =? i)%nat then nth_error l j else nth_error l k.
Proof.
  intros Hi Hj. unfold lswap. destruct (nth_error l i) as [x|] eqn:Ei; [|apply nth_error_None in Ei; lia]. destruct (nth_error l j) as [y|] eqn:Ej; [|apply nth_error_None in Ej; lia].
  destruct (Nat.eqb_spec k j) as [->|Hkj]; [apply nth_error_upd_same; rewrite upd_length; exact Hj|]. rewrite nth_error_upd_other by lia.
  destruct (Nat.eqb_spec k i) as [->|Hki]; [apply nth_error_upd_same; exact Hi|]. apply nth_error_upd_other. lia.
Qed.

Lemma upd_split {V} (l : list V) : forall i x, nth_error l i = Some x -> exists a b, l = a ++ x :: b /\ length a = i /\ forall y, upd l i y = a ++ y :: b.
Proof.
  induction l as [|z l IH]; intros i x E; [destruct i; discriminate|]. destruct i as [|i]; cbn in E.
  - injection E as ->. exists [], l. split; [reflexivity|]. split; [reflexivity|]. intros y. reflexivity.
  - destruct (IH i x E) as (a & b & -> & La & Hu). exists (z :: a), b. split; [reflexivity|]. split; [cbn; lia|]. intros y. cbn. rewrite Hu. reflexivity.
Qed.

Lemma lswap_perm {V} i j (l : list V) : Permutation (lswap i j l) l.
Proof.
  unfold lswap. destruct (nth_error l i) as [x|] eqn:Ei; [|reflexivity]. destruct (nth_error l j) as [y|] eqn:Ej; [|reflexivity].
  destruct (upd_split l i x Ei) as (a & b & -> & La & Hu). rewrite Hu.
  destruct (Nat.eq_dec i j) as [<-|Hij].
  - rewrite Ei in Ej. injection Ej as <-. destruct (upd_split (a ++ x :: b) i x Ei) as (a' & b' & E & _ & Hu'). rewrite Hu', E. reflexivity.
  - assert (Ej' : nth_error (a ++ y :: b) j = Some y) by (rewrite <- (Hu y), nth_error_upd_other by lia; exact Ej).
    destruct (upd_split (a ++ y :: b) j y Ej') as (a2 & b2 & E2 & L2 & Hu2). rewrite Hu2.
    assert (P1 : Permutation (a2 ++ x :: b2) (x :: (a2 ++ b2))) by (symmetry; apply Permutation_middle).
    assert (P2 : Permutation (y :: (a2 ++ b2)) (y :: (a ++ b))).
    { transitivity (a2 ++ y :: b2); [apply Permutation_middle|]. rewrite <- E2. symmetry. apply Permutation_middle. }
    apply Permutation_cons_inv in P2. rewrite P1, P2. apply Permutation_middle.
Qed.

Lemma shows_length {V} pos (mem l : list V) : shows pos mem l -> length pos = length l.
Proof. unfold shows. induction 1; cbn; lia. Qed.

Section Engine.
Context {G : Type} (uniform : Z -> G -> Z * G).
Hypothesis Hu : in_range uniform.

(** The loop on a list *)
Fixpoint shuffled {V} (i : nat) (l : list V) (g : G) : list V * G :=
  match i with
  | O => (l, g)
  | S i' => let '(j, g) := uniform (Z.of_nat i) g in shuffled i' (lswap i (Z.to_nat j) l) g
  end.

Lemma shuffled_perm {V} : forall i (l : list V) g, Permutation (fst (shuffled i l g)) l.
Proof.
  induction i as [|i IH]; intros l g; cbn [shuffled]; [reflexivity|]. destruct (uniform (Z.of_nat (S i)) g) as [j g'].
  rewrite IH. apply lswap_perm.
Qed.

Lemma forall2_nth' {X Y} (R : X -> Y -> Prop) l l' : Forall2 R l l' -> forall k x, nth_error l k = Some x -> exists y, nth_error l' k = Some y /\ R x y.
Proof. induction 1 as [|x y l l' H F IH]; intros k z E; [destruct k; discriminate|]. destruct k as [|k]; cbn in E; [injection E as <-; exists y; split; [reflexivity|exact H]|exact (IH k z E)]. Qed.
Lemma forall2_of_nth {X Y} (R : X -> Y -> Prop) : forall l l', length l = length l' -> (forall k x y, nth_error l k = Some x -> nth_error l' k = Some y -> R x y) -> Forall2 R l l'.
Proof.
  induction l as [|x l IH]; intros [|y l'] HL H; cbn in HL; try discriminate; constructor; [exact (H 0%nat x y eq_refl eq_refl)|].
  apply IH; [lia|]. intros k. exact (H (S k)).
Qed.

Lemma swap_at_ok {V} pos (mem l : list V) i j : NoDup pos -> shows pos mem l -> (i < length l)%nat -> 0 <= j < Z.of_nat (length l) ->
  exists mem', swap_at pos (Z.of_nat i) j mem = Ok mem' /\ shows pos mem' (lswap i (Z.to_nat j) l) /\ length mem' = length mem /\
    forall p, ~ In (Z.of_nat p) pos -> nth_error mem' p = nth_error mem p.
Proof.
  intros Nd Sh Hi Hj. pose proof (shows_length _ _ _ Sh) as HL.
  destruct (nth_error pos i) as [p|] eqn:Ep; [|apply nth_error_None in Ep; lia].
  destruct (nth_error pos (Z.to_nat j)) as [q|] eqn:Eq; [|apply nth_error_None in Eq; lia].
  destruct (forall2_nth' _ _ _ Sh i p Ep) as (x & Ex & Hp & Mx). destruct (forall2_nth' _ _ _ Sh (Z.to_nat j) q Eq) as (y & Ey & Hq & My).
  unfold swap_at. rewrite (rdz_ok pos (Z.of_nat i) p) by (try lia; rewrite Nat2Z.id; exact Ep). cbn [bind]. rewrite (rdz_ok pos j q) by (try lia; exact Eq). cbn [bind].
  rewrite (rdz_ok mem p x Hp Mx), (rdz_ok mem q y Hq My). cbn [bind].
  assert (Lp : (Z.to_nat p < length mem)%nat) by (apply nth_error_Some; congruence). assert (Lq : (Z.to_nat q < length mem)%nat) by (apply nth_error_Some; congruence).
  rewrite wrz_ok by lia. cbn [bind]. rewrite wrz_ok by (rewrite upd_length; lia).
  eexists. split; [reflexivity|]. split; [|split; [rewrite !upd_length; reflexivity|]].
  - apply forall2_of_nth; [rewrite lswap_length; exact HL|]. intros k r z Er Ez.
    destruct (forall2_nth' _ _ _ Sh k r Er) as (z0 & Ez0 & Hr & Mr). split; [exact Hr|].
    rewrite lswap_nth in Ez by lia.
    assert (Inj : forall k' r', nth_error pos k' = Some r' -> Z.to_nat r' = Z.to_nat r -> 0 <= r' -> k' = k).
    { intros k' r' Er' E0 H0. assert (r' = r) by lia. subst r'. apply (proj1 (NoDup_nth_error pos) Nd); [apply nth_error_Some; congruence|congruence]. }
    destruct (Nat.eqb_spec k (Z.to_nat j)) as [->|Hkj].
    + rewrite Eq in Er. injection Er as <-. rewrite nth_error_upd_same by (rewrite upd_length; exact Lq). congruence.
    + rewrite nth_error_upd_other by (intros E0; apply Hkj; symmetry; exact (Inj _ q Eq E0 Hq)).
      destruct (Nat.eqb_spec k i) as [->|Hki].
      * rewrite Ep in Er. injection Er as <-. rewrite nth_error_upd_same by exact Lp. congruence.
      * rewrite nth_error_upd_other by (intros E0; apply Hki; symmetry; exact (Inj _ p Ep E0 Hp)). congruence.
  - intros r Hr. rewrite !nth_error_upd_other; [reflexivity| |].
    + intros E0. apply Hr. replace (Z.of_nat r) with p by lia. exact (nth_error_In _ _ Ep).
    + intros E0. apply Hr. replace (Z.of_nat r) with q by lia. exact (nth_error_In _ _ Eq).
Qed.

Lemma shuffle_loop_ok {V} pos : NoDup pos -> forall i (mem l : list V) g, shows pos mem l -> (i < length l)%nat ->
  exists mem', shuffle_loop uniform i pos mem g = Ok (mem', snd (shuffled i l g)) /\ shows pos mem' (fst (shuffled i l g)) /\ length mem' = length mem /\
    forall p, ~ In (Z.of_nat p) pos -> nth_error mem' p = nth_error mem p.
Proof.
  intros Nd. induction i as [|i IH]; intros mem l g Sh Hi; cbn [shuffle_loop shuffled].
  - exists mem. split; [reflexivity|]. split; [exact Sh|]. split; reflexivity.
  - pose proof (Hu (Z.of_nat (S i)) g ltac:(lia)) as Hj. destruct (uniform (Z.of_nat (S i)) g) as [j g']. cbn [fst] in Hj.
    destruct (swap_at_ok pos mem l (S i) j Nd Sh Hi ltac:(lia)) as (mem1 & E1 & S1 & L1 & O1). rewrite E1. cbn [bind].
    destruct (IH mem1 (lswap (S i) (Z.to_nat j) l) g' S1 ltac:(rewrite lswap_length; lia)) as (mem2 & E2 & S2 & L2 & O2).
    exists mem2. split; [exact E2|]. split; [exact S2|]. split; [congruence|]. intros p Hp. rewrite O2, O1 by exact Hp. reflexivity.
Qed.

Lemma shuffle1_ok {V} pos (mem l : list V) g : NoDup pos -> shows pos mem l -> (1 <= length l)%nat -> Z.of_nat (length l) < 2 ^ 64 ->
  exists mem', shuffle1 uniform pos mem g = Ok (mem', snd (shuffled (length l - 1) l g)) /\ shows pos mem' (fst (shuffled (length l - 1) l g)) /\ length mem' = length mem /\
    forall p, ~ In (Z.of_nat p) pos -> nth_error mem' p = nth_error mem p.
Proof.
  intros Nd Sh H1 H64. unfold shuffle1. pose proof (shows_length _ _ _ Sh) as HL.
  replace (Z.to_nat (to_size_t (Z.of_nat (length pos) - 1))) with (length l - 1)%nat by (unfold to_size_t; rewrite Z.mod_small by lia; lia).
  apply shuffle_loop_ok; [exact Nd|exact Sh|lia].
Qed.

Lemma shuffle1_lemma {V} pos (mem l : list V) g : NoDup pos -> shows pos mem l -> (1 <= length l)%nat -> Z.of_nat (length l) < 2 ^ 64 ->
  exists mem' l' g', shuffle1 uniform pos mem g = Ok (mem', g') /\ shows pos mem' l' /\ Permutation l' l /\ length mem' = length mem /\
    forall p, ~ In (Z.of_nat p) pos -> nth_error mem' p = nth_error mem p.
Proof.
  intros Nd Sh H1 H64. destruct (shuffle1_ok pos mem l g Nd Sh H1 H64) as (mem' & E & S' & L & O).
  exists mem', (fst (shuffled (length l - 1) l g)), (snd (shuffled (length l - 1) l g)). split; [exact E|]. split; [exact S'|]. split; [apply shuffled_perm|]. split; [exact L|exact O].
Qed.
End Engine.

(** The empty expression *)
Lemma shuffle_empty_lemma {G V} (uniform : Z -> G -> Z * G) (mem : list V) g : shuffle1 uniform [] mem g = UB.
Proof.
  unfold shuffle1. assert (H : exists k, Z.to_nat (to_size_t (Z.of_nat (length (@nil Z)) - 1)) = S k).
  { exists (Z.to_nat (to_size_t (-1) - 1)). change (Z.of_nat (length (@nil Z)) - 1) with (-1). assert (1 <= to_size_t (-1)) by (vm_compute; discriminate). lia. }
  destruct H as (k & ->). cbn [shuffle_loop]. destruct (uniform (Z.of_nat (S k)) g) as [j g']. unfold swap_at, rdz at 1. 
  replace (Z.of_nat (S k) <? 0) with false by (symmetry; apply Z.ltb_ge; lia). rewrite Nat2Z.id. reflexivity.
Qed.

(** Every order comes from exactly one sequence of draws. *)
Lemma loop_tail {V} : forall i (l : list V) ds, (i < length l)%nat -> countdown i ds ->
  forall k, (i < k)%nat -> nth_error (fst (shuffled scripted i l ds)) k = nth_error l k.
Proof.
  induction i as [|i IH]; intros l ds Hi Hc k Hk; cbn [shuffled]; [reflexivity|]. destruct ds as [|[b d] ds]; [contradiction|]. destruct Hc as (-> & Hd & Hc).
  cbn [scripted]. rewrite Z.eqb_refl. rewrite IH by (rewrite ?lswap_length; lia || exact Hc). rewrite lswap_nth by lia.
  destruct (Nat.eqb_spec k (Z.to_nat d)); [lia|]. destruct (Nat.eqb_spec k (S i)); [lia|reflexivity].
Qed.

Lemma nth_error_ext_len {X} : forall l l' : list X, length l = length l' -> (forall i, (i < length l)%nat -> nth_error l i = nth_error l' i) -> l = l'.
Proof.
  induction l as [|x l IH]; intros [|y l'] HL H; cbn [length] in *; try lia; [reflexivity|].
  pose proof (H 0%nat ltac:(lia)) as H0. cbn in H0. injection H0 as ->. f_equal. apply IH; [lia|]. intros i Hi. exact (H (S i) ltac:(lia)).
Qed.

Lemma draws_exist {V} : forall i (l p : list V), NoDup l -> (i < length l)%nat -> Permutation p l -> (forall k, (i < k)%nat -> nth_error p k = nth_error l k) ->
  exists ds, countdown i ds /\ fst (shuffled scripted i l ds) = p.
Proof.
  induction i as [|i IH]; intros l p Nd Hi P T.
  - exists []. split; [exact I|]. cbn. destruct l as [|x l]; [cbn in Hi; lia|]. destruct p as [|y p]; [apply Permutation_length in P; discriminate|].
    assert (El : p = l). { apply nth_error_ext_len; [apply Permutation_length in P; cbn in P; lia|]. intros k Hk. exact (T (S k) ltac:(lia)). }
    subst p. f_equal. assert (Hy : In y (x :: l)) by (apply (Permutation_in _ P); left; reflexivity). destruct Hy as [->|Hy]; [reflexivity|].
    exfalso. apply (Permutation_NoDup (Permutation_sym P)) in Nd. inversion Nd; contradiction.
  - pose proof (Permutation_length P) as LP. pose proof (Permutation_NoDup (Permutation_sym P) Nd) as Ndp.
    destruct (nth_error p (S i)) as [x|] eqn:Ex; [|apply nth_error_None in Ex; lia].
    assert (Hx : In x l) by (apply (Permutation_in _ P); exact (nth_error_In _ _ Ex)). destruct (In_nth_error _ _ Hx) as (j & Ej).
    assert (Hj : (j <= S i)%nat).
    { destruct (Nat.le_gt_cases j (S i)) as [|Hgt]; [assumption|]. exfalso. pose proof (T j Hgt) as Tj. rewrite Ej in Tj.
      enough (j = S i) by lia. apply (proj1 (NoDup_nth_error p) Ndp); [apply nth_error_Some; congruence|congruence]. }
    destruct (IH (lswap (S i) j l) p) as (ds & Hc & Hs).
    + apply (Permutation_NoDup (Permutation_sym (lswap_perm (S i) j l))). exact Nd.
    + rewrite lswap_length. lia.
    + rewrite lswap_perm. exact P.
    + intros k Hk. rewrite lswap_nth by lia. destruct (Nat.eqb_spec k j) as [->|Hkj].
      { assert (j = S i) by lia. subst j. congruence. }
      destruct (Nat.eqb_spec k (S i)) as [->|Hki]; [congruence|]. apply T. lia.
    + exists ((Z.of_nat (S i), Z.of_nat j) :: ds). split; [split; [reflexivity|]; split; [lia|exact Hc]|]. cbn [shuffled scripted]. rewrite Z.eqb_refl, Nat2Z.id. exact Hs.
Qed.

Lemma draws_unique {V} : forall i (l : list V) ds ds', NoDup l -> (i < length l)%nat -> countdown i ds -> countdown i ds' ->
  fst (shuffled scripted i l ds) = fst (shuffled scripted i l ds') -> ds = ds'.
Proof.
  induction i as [|i IH]; intros l ds ds' Nd Hi Hc Hc' E.
  - destruct ds; [|contradiction]. destruct ds'; [|contradiction]. reflexivity.
  - destruct ds as [|[b d] ds]; [contradiction|]. destruct ds' as [|[b' d'] ds']; [contradiction|]. destruct Hc as (-> & Hd & Hc), Hc' as (-> & Hd' & Hc'). cbn [shuffled scripted] in E. rewrite Z.eqb_refl in E.
    assert (En : nth_error (lswap (S i) (Z.to_nat d) l) (S i) = nth_error (lswap (S i) (Z.to_nat d') l) (S i)).
    { rewrite <- (loop_tail i (lswap (S i) (Z.to_nat d) l) ds) by (rewrite ?lswap_length; lia || exact Hc). rewrite E. apply loop_tail; rewrite ?lswap_length; lia || exact Hc'. }
    rewrite !lswap_nth in En by lia. rewrite Nat.eqb_refl in En.
    assert (Ed : forall e, (if (S i =? e)%nat then nth_error l (S i) else nth_error l e) = nth_error l e) by (intros e; destruct (Nat.eqb_spec (S i) e); congruence).
    rewrite !Ed in En. assert (Z.to_nat d = Z.to_nat d') as Eq by (apply (proj1 (NoDup_nth_error l) Nd); [lia|exact En]).
    assert (d = d') by lia. subst d'. f_equal. apply (IH (lswap (S i) (Z.to_nat d) l)); try assumption; [|rewrite lswap_length; lia].
    apply (Permutation_NoDup (Permutation_sym (lswap_perm (S i) (Z.to_nat d) l))). exact Nd.
Qed.
