(** Proofs about quantile: bounds and monotony. *)
From Coq Require Import List ZArith Bool Lia QArith Qcanon Qround Permutation Sorted Qfield.
From Verif Require Import Prelude PreludeFacts Sort_Model Sort_Spec Sort6_Proofs Stats_Model Quantile_Model Quantile_Spec Quantile3_Proofs.
Import ListNotations.
Open Scope Z_scope.
Local Notation "'ofZ' n" := (Q2Qc (inject_Z n)) (at level 9).

Lemma le_sub (x y : Qc) : (x <= y)%Qc <-> (0 <= y - x)%Qc.
Proof. apply Qcle_minus_iff. Qed.
Lemma ofZ_le m n : m <= n -> (ofZ m <= ofZ n)%Qc.
Proof. intros H. unfold Qcle. cbn [this Q2Qc]. rewrite !Qred_correct. rewrite <- Zle_Qle. exact H. Qed.
Lemma ofZ_add m n : (ofZ (m + n) = ofZ m + ofZ n)%Qc.
Proof. apply Qc_is_canon. cbn [this Q2Qc Qcplus]. rewrite !Qred_correct, inject_Z_plus. reflexivity. Qed.

Lemma floor_low h : (ofZ (Qfloor (this h)) <= h)%Qc.
Proof. unfold Qcle. cbn [this Q2Qc]. rewrite Qred_correct. apply Qfloor_le. Qed.
Lemma floor_high h : (h <= ofZ (Qfloor (this h)) + 1)%Qc.
Proof.
  change 1%Qc with (ofZ 1). rewrite <- ofZ_add. unfold Qcle. cbn [this Q2Qc]. rewrite Qred_correct. apply Qlt_le_weak, Qlt_floor.
Qed.
Lemma floor_mono (h k : Qc) : (h <= k)%Qc -> Qfloor (this h) <= Qfloor (this k).
Proof. apply Qfloor_resp_le. Qed.
Lemma floor_int n : Qfloor (this (ofZ n)) = n.
Proof. cbn [this Q2Qc]. rewrite (Qfloor_comp _ _ (Qred_correct _)). apply Qfloor_Z. Qed.

Lemma mult_nonneg (x y : Qc) : (0 <= x)%Qc -> (0 <= y)%Qc -> (0 <= x * y)%Qc.
Proof. intros A B. replace 0%Qc with (0 * y)%Qc by ring. apply Qcmult_le_compat_r; assumption. Qed.
Lemma mix_low (g u v lo : Qc) : (0 <= g)%Qc -> (g <= 1)%Qc -> (lo <= u)%Qc -> (lo <= v)%Qc -> (lo <= (1 - g) * u + g * v)%Qc.
Proof.
  rewrite (le_sub g 1), (le_sub lo u), (le_sub lo v). intros A B C D. apply le_sub.
  replace ((1 - g) * u + g * v - lo)%Qc with ((1 - g) * (u - lo) + g * (v - lo))%Qc by ring.
  replace 0%Qc with (0 + 0)%Qc by ring. apply Qcplus_le_compat; apply mult_nonneg; assumption.
Qed.
Lemma mix_high (g u v hi : Qc) : (0 <= g)%Qc -> (g <= 1)%Qc -> (u <= hi)%Qc -> (v <= hi)%Qc -> ((1 - g) * u + g * v <= hi)%Qc.
Proof.
  rewrite (le_sub g 1), (le_sub u hi), (le_sub v hi). intros A B C D. apply le_sub.
  replace (hi - ((1 - g) * u + g * v))%Qc with ((1 - g) * (hi - u) + g * (hi - v))%Qc by ring.
  replace 0%Qc with (0 + 0)%Qc by ring. apply Qcplus_le_compat; apply mult_nonneg; assumption.
Qed.

Lemma fraction h : (0 <= h - ofZ (Qfloor (this h)))%Qc /\ (h - ofZ (Qfloor (this h)) <= 1)%Qc.
Proof.
  split; [apply (proj1 (le_sub _ _)), floor_low|]. pose proof (floor_high h) as H. rewrite le_sub in H. rewrite le_sub. replace (1 - (h - ofZ (Qfloor h)))%Qc with (ofZ (Qfloor h) + 1 - h)%Qc by ring. exact H.
Qed.

Lemma statistic_mono s j k : s <> [] -> increasing s -> j <= k -> (order_statistic s j <= order_statistic s k)%Qc.
Proof. intros Hs Hi H. unfold order_statistic. apply Hi. destruct s; [congruence|]. cbn [length]. lia. Qed.
Lemma statistic_in s j : s <> [] -> In (order_statistic s j) s.
Proof. intros Hs. unfold order_statistic. apply nth_In. destruct s; [congruence|]. cbn [length]. lia. Qed.

Lemma interpolate_range s h lo hi : s <> [] -> (forall v, In v s -> (lo <= v)%Qc /\ (v <= hi)%Qc) -> (lo <= interpolate s h)%Qc /\ (interpolate s h <= hi)%Qc.
Proof.
  intros Hs H. destruct (fraction h) as [A B]. pose proof (H _ (statistic_in s (Qfloor (this h)) Hs)). pose proof (H _ (statistic_in s (Qfloor (this h) + 1) Hs)).
  unfold interpolate. split; [apply mix_low|apply mix_high]; tauto.
Qed.

Lemma interpolate_mono s h k : s <> [] -> increasing s -> (h <= k)%Qc -> (interpolate s h <= interpolate s k)%Qc.
Proof.
  intros Hs Hi Hhk. unfold interpolate. pose proof (floor_mono h k Hhk) as Hf. destruct (fraction h) as [A B]. destruct (fraction k) as [C D].
  destruct (Z.eq_dec (Qfloor (this h)) (Qfloor (this k))) as [E|E].
  - rewrite E. pose proof (statistic_mono s (Qfloor (this k)) (Qfloor (this k) + 1) Hs Hi ltac:(lia)) as M. set (u := order_statistic s (Qfloor (this k))) in *. set (v := order_statistic s (Qfloor (this k) + 1)) in *.
    apply le_sub. match goal with |- (0 <= ?e)%Qc => replace e with ((k - h) * (v - u))%Qc by ring end.
    apply mult_nonneg; apply (proj1 (le_sub _ _)); assumption.
  - apply (Qcle_trans _ (order_statistic s (Qfloor (this h) + 1))).
    + apply mix_high; [assumption|assumption|apply statistic_mono; [assumption|assumption|lia]|apply Qcle_refl].
    + apply (Qcle_trans _ (order_statistic s (Qfloor (this k)))); [apply statistic_mono; [assumption|assumption|lia]|].
      apply mix_low; [assumption|assumption|apply Qcle_refl|apply statistic_mono; [assumption|assumption|lia]].
Qed.

Lemma interpolate_int s k : 1 <= k <= Z.of_nat (length s) -> interpolate s (ofZ (k - 1)) = nth (Z.to_nat (k - 1)) s 0%Qc.
Proof.
  intros H. unfold interpolate. rewrite floor_int. unfold order_statistic at 1. replace (Z.max 0 (Z.min (k - 1) (Z.of_nat (length s) - 1))) with (k - 1) by lia. ring.
Qed.

Lemma quantile_mono alpha beta s p p' : s <> [] -> increasing s -> (alpha <= 1)%Qc -> (beta <= 1)%Qc -> (p <= p')%Qc -> (sample_quantile alpha beta s p <= sample_quantile alpha beta s p')%Qc.
Proof.
  intros Hs Hi Ha Hb Hp. apply interpolate_mono; [assumption|assumption|]. apply le_sub.
  match goal with |- (0 <= ?e)%Qc => replace e with ((p' - p) * ((ofZ (Z.of_nat (length s)) - 1) + ((1 - alpha) + (1 - beta))))%Qc by ring end.
  apply mult_nonneg; [apply (proj1 (le_sub _ _)); assumption|].
  replace 0%Qc with (0 + (0 + 0))%Qc by ring. apply Qcplus_le_compat; [|apply Qcplus_le_compat]; apply (proj1 (le_sub _ _)); try assumption.
  change 1%Qc with (ofZ 1). apply ofZ_le. destruct s; [congruence|]. cbn [length]. lia.
Qed.

Lemma method_position m n k : 1 <= k <= n -> let '(alpha, beta) := method_parameters m in let p := plotting_position (method_number m) n k in
  (p * ofZ n + (alpha + p * (1 - alpha - beta)) - 1 = ofZ (k - 1))%Qc.
Proof.
  intros Hk. assert (Ek : (ofZ (k - 1) = ofZ k - 1)%Qc) by (change (k - 1) with (k + -1); rewrite ofZ_add; reflexivity).
  assert (Hpos : forall q : Qc, (0 <= q)%Qc -> (ofZ n + q <> 0)%Qc).
  { intros q Hq E. assert (H : (ofZ 1 + 0 <= ofZ n + q)%Qc) by (apply Qcplus_le_compat; [apply ofZ_le; lia|exact Hq]). rewrite E in H. compute in H. apply H. reflexivity. }
  assert (Hn : (ofZ n <> 0)%Qc) by (specialize (Hpos 0%Qc (Qcle_refl _)); rewrite Qcplus_0_r in Hpos; exact Hpos).
  assert (P : forall q, (Qle_bool 0 q = true)%Q -> (0 <= Q2Qc q)%Qc).
  { intros q H. unfold Qcle. cbn [this Q2Qc]. rewrite !Qred_correct. apply Qle_bool_iff. exact H. }
  rewrite Ek. destruct m; cbn [method_parameters method_number plotting_position].
  - field. exact Hn.
  - replace (1 - Q2Qc (1 # 2) - Q2Qc (1 # 2))%Qc with 0%Qc by (apply Qc_is_canon; reflexivity). field. exact Hn.
  - field. exact (Hpos (Q2Qc 1) (P 1%Q eq_refl)).
  - destruct (Z.eq_dec n 1) as [ -> |Hne].
    + replace k with 1 by lia. apply Qc_is_canon. vm_compute. reflexivity.
    + assert (H : (ofZ n - 1 <> 0)%Qc).
      { intros E. assert (H : (ofZ 1 <= ofZ n - 1)%Qc). { change (ofZ 1 <= ofZ n + ofZ (-1))%Qc. rewrite <- ofZ_add. apply ofZ_le. lia. } rewrite E in H. compute in H. apply H. reflexivity. }
      field. exact H.
  - replace (1 - Q2Qc (1 # 3) - Q2Qc (1 # 3))%Qc with (Q2Qc (1 # 3)) by (apply Qc_is_canon; reflexivity). set (t := Q2Qc (1 # 3)). assert (H : (ofZ n + t <> 0)%Qc) by exact (Hpos t (P (1 # 3)%Q eq_refl)). field. exact H.
  - replace (1 - Q2Qc (3 # 8) - Q2Qc (3 # 8))%Qc with (Q2Qc (1 # 4)) by (apply Qc_is_canon; reflexivity). set (t := Q2Qc (1 # 4)). set (u := Q2Qc (3 # 8)). assert (H : (ofZ n + t <> 0)%Qc) by exact (Hpos t (P (1 # 4)%Q eq_refl)). field. exact H.
Qed.

Lemma method_quantile m s k : 1 <= k <= Z.of_nat (length s) -> let '(alpha, beta) := method_parameters m in
  sample_quantile alpha beta s (plotting_position (method_number m) (Z.of_nat (length s)) k) = nth (Z.to_nat (k - 1)) s 0%Qc.
Proof.
  intros H. pose proof (method_position m (Z.of_nat (length s)) k H) as E. destruct (method_parameters m) as [alpha beta]. unfold sample_quantile. rewrite E. apply interpolate_int. exact H.
Qed.

(** A sorted rearrangement *)
Lemma sorted_increasing s : sorted qc_lt s -> increasing s.
Proof.
  unfold increasing, sorted. induction 1 as [|x s H IH F]; intros i j Hij; [cbn in Hij; lia|]. destruct j as [|j]; [replace i with 0%nat by lia; apply Qcle_refl|].
  destruct i as [|i]; [|apply IH; cbn in Hij; lia]. cbn [nth]. rewrite Forall_forall in F. apply qc_lt_not, F, nth_In. cbn in Hij. lia.
Qed.
Lemma increasing_exists l : exists s, Permutation l s /\ increasing s.
Proof. exists (isort qc_lt l). split; [apply isort_perm|]. apply sorted_increasing, isort_sorted, qc_swo. Qed.
