(** Proofs for C89: the remainder, one step. *)
From Coq Require Import List ZArith Lia Bool QArith Qabs Qround Lqa.
From Verif Require Import Prelude Strides_Spec Diff_Spec Reduce_Model Unwrap_Model Unwrap_Spec.
Import ListNotations.
Open Scope Z_scope.

Lemma qlt_spec x y : qlt x y = true <-> (x < y)%Q.
Proof.
  unfold qlt. rewrite negb_true_iff. split.
  - intros H. apply Qnot_le_lt. intros X. apply Qle_bool_iff in X. congruence.
  - intros H. destruct (Qle_bool y x) eqn:E; [|reflexivity]. apply Qle_bool_iff in E. lra.
Qed.
Lemma qabs_eq x : (qabs x == Qabs x)%Q.
Proof.
  unfold qabs. destruct (qlt x 0) eqn:E.
  - apply qlt_spec in E. rewrite Qabs_neg by lra. reflexivity.
  - rewrite Qabs_pos; [reflexivity|]. destruct (Qlt_le_dec x 0) as [H|H]; [|exact H]. apply qlt_spec in H. congruence.
Qed.
Lemma trunc_floor x : (0 <= x)%Q -> trunc x = Qfloor x.
Proof. destruct x as [n d]. unfold Qle, trunc, Qfloor. cbn. intros H. apply Z.quot_div_nonneg; lia. Qed.
Lemma trunc_nonneg x : (0 <= x)%Q -> (inject_Z (trunc x) <= x /\ x < inject_Z (trunc x) + 1)%Q.
Proof.
  intros H. rewrite (trunc_floor _ H). split; [apply Qfloor_le|]. pose proof (Qlt_floor x) as L. rewrite inject_Z_plus in L. exact L.
Qed.
Lemma trunc_opp x : trunc (- x) = - trunc x.
Proof. destruct x as [n d]. unfold trunc. cbn. apply Z.quot_opp_l. lia. Qed.
Lemma trunc_neg x : (x <= 0)%Q -> (x <= inject_Z (trunc x) /\ inject_Z (trunc x) - 1 < x)%Q.
Proof.
  intros H. assert (N : (0 <= - x)%Q) by lra. pose proof (trunc_nonneg _ N) as T. rewrite trunc_opp, inject_Z_opp in T. lra.
Qed.
Lemma trunc_int x z : (x == inject_Z z)%Q -> trunc x = z.
Proof.
  intros E. destruct (Qlt_le_dec x 0) as [H|H].
  - pose proof (trunc_neg x (Qlt_le_weak _ _ H)) as [A B]. remember (trunc x) as t eqn:Et. clear Et. rewrite E in A, B. rewrite <- Zle_Qle in A.
    assert (B' : (inject_Z t < inject_Z (z + 1))%Q) by (rewrite inject_Z_plus; change (inject_Z 1) with 1%Q; lra). rewrite <- Zlt_Qlt in B'. lia.
  - pose proof (trunc_nonneg x H) as [A B]. remember (trunc x) as t eqn:Et. clear Et. rewrite E in A, B. rewrite <- Zle_Qle in A.
    assert (B' : (inject_Z z < inject_Z (t + 1))%Q) by (rewrite inject_Z_plus; change (inject_Z 1) with 1%Q; lra). rewrite <- Zlt_Qlt in B'. lia.
Qed.
Lemma fmod_nonneg x y : (0 <= x)%Q -> (0 < y)%Q -> (0 <= fmod x y /\ fmod x y < y)%Q.
Proof.
  intros Hx Hy. unfold fmod. assert (Hq : (0 <= x / y)%Q) by (apply Qle_shift_div_l; [exact Hy|lra]).
  pose proof (trunc_nonneg _ Hq) as [A B]. set (t := inject_Z (trunc (x / y))) in *.
  assert (E : (x == (x / y) * y)%Q) by (field; lra).
  assert (A' : (t * y <= (x / y) * y)%Q) by (apply Qmult_le_compat_r; lra).
  assert (B' : ((x / y) * y < (t + 1) * y)%Q) by (apply Qmult_lt_compat_r; lra). split; lra.
Qed.
Lemma fmod_range x y : (0 < y)%Q -> (- y < fmod x y /\ fmod x y < y)%Q.
Proof.
  intros Hy. destruct (Qlt_le_dec x 0) as [H|H]; [|pose proof (fmod_nonneg x y H Hy); lra].
  unfold fmod. assert (Hq : (x / y <= 0)%Q) by (apply Qle_shift_div_r; [exact Hy|lra]).
  pose proof (trunc_neg _ Hq) as [A B]. set (t := inject_Z (trunc (x / y))) in *.
  assert (E : (x == (x / y) * y)%Q) by (field; lra).
  assert (A' : ((x / y) * y <= t * y)%Q) by (apply Qmult_le_compat_r; lra).
  assert (B' : ((t - 1) * y < (x / y) * y)%Q) by (apply Qmult_lt_compat_r; lra). split; lra.
Qed.
(** The difference brought into [-period/2, period/2) *)
Definition mods (period dd : Q) : Q :=
  let low := (- ((1 # 2) * period))%Q in (fmod (fmod (dd - low) period + period) period + low)%Q.
Lemma mods_ok period dd : (0 < period)%Q ->
  (- ((1 # 2) * period) <= mods period dd /\ mods period dd < (1 # 2) * period)%Q /\ exists k : Z, (mods period dd == dd + inject_Z k * period)%Q.
Proof.
  intros H. unfold mods. set (low := (- ((1 # 2) * period))%Q). pose proof (fmod_range (dd - low) period H) as R.
  assert (N : (0 <= fmod (dd - low) period + period)%Q) by lra. pose proof (fmod_nonneg _ _ N H) as R2. split; [subst low; lra|].
  unfold fmod. set (k1 := trunc _). set (k2 := trunc _).
  exists (1 - k1 - k2). unfold Z.sub. rewrite !inject_Z_plus, !inject_Z_opp. change (inject_Z 1) with 1%Q. ring.
Qed.
Lemma odd_half (P d k : Z) : P mod 2 <> 0 -> (inject_Z d + inject_Z k * inject_Z P == - ((1 # 2) * inject_Z P))%Q -> False.
Proof.
  intros O E. rewrite <- inject_Z_mult, <- inject_Z_plus in E.
  assert (E2 : (inject_Z (2 * (d + k * P)) == inject_Z (- P))%Q) by (rewrite inject_Z_mult, (inject_Z_opp P); change (inject_Z 2) with 2%Q; lra).
  apply (proj1 (inject_Z_injective _ _)) in E2. apply O. replace P with (2 * (- (d + k * P))) by lia. rewrite Z.mul_comm. apply Z.mod_mul. lia.
Qed.
(** Elements and period are integers if the elements are of an integral type. *)
Definition suits (integral : bool) (period dd : Q) : Prop := integral = true -> integer period /\ integer dd.
Lemma ddmod_ok integral period dd : (0 < period)%Q -> suits integral period dd ->
  let m := ddmod (boundary_ambiguous integral period) period dd in
  (exists k : Z, (m == dd + inject_Z k * period)%Q) /\ (Qabs m <= (1 # 2) * period)%Q /\ ((Qabs m == (1 # 2) * period)%Q -> (0 < m)%Q <-> (0 < dd)%Q).
Proof.
  intros H Hs m. subst m. destruct (mods_ok period dd H) as ([R1 R2] & k & Ek). unfold ddmod. fold (mods period dd).
  change ((fmod (fmod (dd - - ((1 # 2) * period)) period + period) period + - ((1 # 2) * period))%Q) with (mods period dd).
  set (m := mods period dd) in *. destruct (boundary_ambiguous integral period && (Qeq_bool m (- ((1 # 2) * period)) && qlt 0 dd)) eqn:C.
  - apply andb_true_iff in C. destruct C as [_ C]. apply andb_true_iff in C. destruct C as [C1 C2]. apply Qeq_bool_iff in C1. apply qlt_spec in C2.
    split; [exists (k + 1); rewrite inject_Z_plus; change (inject_Z 1) with 1%Q; lra|]. rewrite Qabs_pos by lra. split; [lra|]. intros _. split; intros; lra.
  - split; [exists k; exact Ek|]. split; [apply Qabs_Qle_condition; lra|]. intros E.
    assert (Em : (m == - ((1 # 2) * period))%Q) by (destruct (Qlt_le_dec m 0) as [L|L]; [rewrite Qabs_neg in E by lra|rewrite Qabs_pos in E by lra]; lra).
    destruct (boundary_ambiguous integral period) eqn:Am.
    + cbn [andb] in C. rewrite (proj2 (Qeq_bool_iff _ _) Em) in C. cbn [andb] in C. split; [lra|]. intros X. apply qlt_spec in X. congruence.
    + exfalso. unfold boundary_ambiguous in Am. destruct integral; [|discriminate]. destruct (Hs eq_refl) as [[P EP] [d Ed]]. rewrite (trunc_int _ _ EP) in Am.
      apply Z.eqb_neq in Am. apply (odd_half P d k Am). rewrite <- Ed, <- EP, <- Ek. exact Em.
Qed.
Lemma correction_ok integral discont period dd : (0 < period)%Q -> suits integral period dd ->
  let c := correction (boundary_ambiguous integral period) discont period dd in
  (exists k : Z, (c == inject_Z k * period)%Q) /\ ((Qabs dd < discont)%Q -> (c == 0)%Q) /\
  (~ (Qabs dd < discont)%Q -> (Qabs (dd + c) <= (1 # 2) * period)%Q /\ ((Qabs (dd + c) == (1 # 2) * period)%Q -> (0 < dd + c)%Q <-> (0 < dd)%Q)).
Proof.
  intros H Hs c. subst c. unfold correction. destruct (qlt (qabs dd) discont) eqn:C.
  - apply qlt_spec in C. rewrite qabs_eq in C. split; [exists 0; change (inject_Z 0) with 0%Q; lra|]. split; [reflexivity|contradiction].
  - assert (N : ~ (Qabs dd < discont)%Q) by (rewrite <- qabs_eq; intros X; apply qlt_spec in X; congruence).
    destruct (ddmod_ok integral period dd H Hs) as ((k & Ek) & M & S). set (m := ddmod _ _ _) in *.
    split; [exists k; lra|]. split; [contradiction|]. intros _. assert (E : (dd + (m - dd) == m)%Q) by ring. rewrite E. split; assumption.
Qed.
