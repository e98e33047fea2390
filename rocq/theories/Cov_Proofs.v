(** Proofs about cov. *)
From Coq Require Import List ZArith QArith Bool Lia Lqa.
From Verif Require Import Unwrap_Model Cov_Model Cov_Spec.
Import ListNotations.
Open Scope Q_scope.

Lemma fold_total n f : fold_left (fun acc c => acc + f c) (seq 0 n) 0 == total n f.
Proof.
  induction n as [|n IH]; [reflexivity|]. rewrite seq_S, fold_left_app. cbn [fold_left total plus]. rewrite IH. reflexivity.
Qed.
Lemma total_ext n f g : (forall c, (c < n)%nat -> f c == g c) -> total n f == total n g.
Proof. induction n as [|n IH]; intros H; cbn; [reflexivity|]. rewrite IH by (intros; apply H; lia). rewrite (H n) by lia. reflexivity. Qed.
Lemma total_add n f g : total n (fun c => f c + g c) == total n f + total n g.
Proof. induction n as [|n IH]; cbn; [reflexivity|]. rewrite IH. ring. Qed.
Lemma total_mul n a f : total n (fun c => a * f c) == a * total n f.
Proof. induction n as [|n IH]; cbn; [ring|]. rewrite IH. ring. Qed.
Lemma total_const n a : total n (fun _ => a) == inject_Z (Z.of_nat n) * a.
Proof. induction n as [|n IH]; cbn [total]; [ring|]. rewrite IH, Nat2Z.inj_succ, <- Z.add_1_r, inject_Z_plus. ring. Qed.
Lemma total_nonneg n f : (forall c, (c < n)%nat -> 0 <= f c) -> 0 <= total n f.
Proof. induction n as [|n IH]; intros H; cbn; [lra|]. pose proof (H n ltac:(lia)). specialize (IH ltac:(intros; apply H; lia)). lra. Qed.
Lemma total_swap k n f : total k (fun i => total n (fun c => f i c)) == total n (fun c => total k (fun i => f i c)).
Proof.
  induction k as [|k IH]; cbn.
  - rewrite (total_ext n (fun _ => 0) (fun c => 0 * 0)) by (intros; reflexivity). rewrite total_mul. ring.
  - rewrite IH, <- total_add. reflexivity.
Qed.

(** ** The matrix that is filled *)
Lemma fill_column e i l : forall m r c, fold_left (fun m j => set_at m j i (e i j)) l m r c = if Nat.eqb c i && existsb (Nat.eqb r) l then e i r else m r c.
Proof.
  induction l as [|j l IH]; intros m r c; cbn [fold_left existsb]; [rewrite andb_false_r; reflexivity|]. rewrite IH. unfold set_at.
  destruct (Nat.eqb c i) eqn:C; cbn [andb]; [|rewrite andb_false_r; reflexivity]. destruct (existsb (Nat.eqb r) l); [rewrite orb_true_r; reflexivity|].
  rewrite orb_false_r, andb_true_r. destruct (Nat.eqb r j) eqn:R; [|reflexivity]. apply Nat.eqb_eq in R. subst r. reflexivity.
Qed.
Lemma fill_matrix e (rows : nat -> list nat) l : forall m r c,
  fold_left (fun m i => fold_left (fun m j => set_at m j i (e i j)) (rows i) m) l m r c =
  if existsb (Nat.eqb c) l && existsb (Nat.eqb r) (rows c) then e c r else m r c.
Proof.
  induction l as [|i l IH]; intros m r c; cbn [fold_left existsb]; [reflexivity|]. rewrite IH, fill_column.
  destruct (Nat.eqb c i) eqn:C; cbn [andb orb]; [|reflexivity]. apply Nat.eqb_eq in C. subst i.
  destruct (existsb (Nat.eqb c) l); cbn [andb]; destruct (existsb (Nat.eqb r) (rows c)); reflexivity.
Qed.
Lemma existsb_seq r s n : existsb (Nat.eqb r) (seq s n) = (Nat.leb s r && Nat.ltb r (s + n))%bool.
Proof.
  apply eq_true_iff_eq. rewrite existsb_exists, andb_true_iff, Nat.leb_le, Nat.ltb_lt. split.
  - intros (x & Hx & E). apply Nat.eqb_eq in E. subst x. apply in_seq in Hx. exact Hx.
  - intros H. exists r. split; [apply in_seq; exact H|apply Nat.eqb_refl].
Qed.

Lemma cov_rows_eq integral k n x r c : (r < k)%nat -> (c < k)%nat -> exists v,
  cov_rows integral k n x r c = v /\
  match entry integral n x (Nat.min r c) (Nat.max r c) with None => v = None | Some e => exists q, v = Some q /\ q == e end.
Proof.
  intros Hr Hc. eexists. split; [reflexivity|]. unfold cov_rows. cbv zeta. unfold diagonal_part. rewrite !fill_matrix, !existsb_seq. unfold zeros.
  destruct (Nat.eqb r c) eqn:E.
  - apply Nat.eqb_eq in E. subst c. rewrite Nat.min_id, Nat.max_id.
    replace (Nat.leb 0 r && Nat.ltb r (0 + k) && (Nat.leb r r && Nat.ltb r (r + (k - r))))%bool with true.
    2:{ symmetry. rewrite !andb_true_iff, !Nat.leb_le, !Nat.ltb_lt. lia. }
    destruct (entry integral n x r r) as [q|]; cbn; [|reflexivity]. eexists. split; [reflexivity|]. ring.
  - apply Nat.eqb_neq in E. destruct (Nat.lt_ge_cases r c) as [L|L].
    + rewrite Nat.min_l, Nat.max_r by lia.
      replace (Nat.leb 0 c && Nat.ltb c (0 + k) && (Nat.leb c r && Nat.ltb r (c + (k - c))))%bool with false.
      2:{ symmetry. rewrite !andb_false_iff, !Nat.leb_gt, !Nat.ltb_ge. lia. }
      replace (Nat.leb 0 r && Nat.ltb r (0 + k) && (Nat.leb r c && Nat.ltb c (r + (k - r))))%bool with true.
      2:{ symmetry. rewrite !andb_true_iff, !Nat.leb_le, !Nat.ltb_lt. lia. }
      destruct (entry integral n x r c) as [q|]; cbn; [|reflexivity]. eexists. split; [reflexivity|]. ring.
    + rewrite Nat.min_r, Nat.max_l by lia.
      replace (Nat.leb 0 c && Nat.ltb c (0 + k) && (Nat.leb c r && Nat.ltb r (c + (k - c))))%bool with true.
      2:{ symmetry. rewrite !andb_true_iff, !Nat.leb_le, !Nat.ltb_lt. lia. }
      replace (Nat.leb 0 r && Nat.ltb r (0 + k) && (Nat.leb r c && Nat.ltb c (r + (k - r))))%bool with false.
      2:{ symmetry. rewrite !andb_false_iff, !Nat.leb_gt, !Nat.ltb_ge. lia. }
      destruct (entry integral n x c r) as [q|]; cbn; [|reflexivity]. eexists. split; [reflexivity|]. ring.
Qed.

(** ** The entries *)
Lemma divisor_pos n : (1 <= n)%nat -> (Z.of_nat n <= 2 ^ 64)%Z -> divisor n = (Z.of_nat n - 1)%Z.
Proof. intros H1 H2. unfold divisor. apply Z.mod_small. lia. Qed.
Lemma centred_ok n x i c : centred n x i c == x i c - average n (x i).
Proof. unfold centred, row_mean, average. rewrite fold_total. reflexivity. Qed.
Lemma entry_ok n x i j : (2 <= n)%nat -> (Z.of_nat n <= 2 ^ 64)%Z -> exists q, entry false n x i j = Some q /\ q == covariance n (x i) (x j).
Proof.
  intros H1 H2. unfold entry. rewrite divisor_pos by lia. replace (Z.of_nat n - 1 =? 0)%Z with false by (symmetry; apply Z.eqb_neq; lia).
  eexists. split; [reflexivity|]. unfold stored, covariance, inner_product. rewrite (fold_total n (fun c => centred n x i c * centred n x j c)).
  rewrite (total_ext n _ (fun c => (x i c - average n (x i)) * (x j c - average n (x j)))); [reflexivity|].
  intros c _. rewrite !centred_ok. reflexivity.
Qed.
Lemma covariance_sym n f g : covariance n f g == covariance n g f.
Proof. unfold covariance. rewrite (total_ext n _ (fun c => (g c - average n g) * (f c - average n f))) by (intros; ring). reflexivity. Qed.
Lemma cov_ok k n x r c : (2 <= n)%nat -> (Z.of_nat n <= 2 ^ 64)%Z -> (r < k)%nat -> (c < k)%nat ->
  exists q, cov_rows false k n x r c = Some q /\ q == covariance n (x r) (x c).
Proof.
  intros H1 H2 Hr Hc. destruct (cov_rows_eq false k n x r c Hr Hc) as (v & E & H).
  destruct (entry_ok n x (Nat.min r c) (Nat.max r c) H1 H2) as (e & Ee & He). rewrite Ee in H. destruct H as (q & -> & Hq).
  exists q. split; [exact E|]. rewrite Hq, He. destruct (Nat.lt_ge_cases r c).
  - rewrite Nat.min_l, Nat.max_r by lia. reflexivity.
  - rewrite Nat.min_r, Nat.max_l by lia. apply covariance_sym.
Qed.

(** ** Properties of the covariance *)
Lemma n_pos n : (2 <= n)%nat -> 0 < inject_Z (Z.of_nat n - 1).
Proof. intros H. change 0 with (inject_Z 0). rewrite <- Zlt_Qlt. lia. Qed.
Lemma average_affine n f a b : (1 <= n)%nat -> average n (fun c => a * f c + b) == a * average n f + b.
Proof.
  intros H. unfold average. rewrite total_add, total_mul, total_const. field. intros E. apply (proj1 (inject_Z_injective _ 0)) in E. lia.
Qed.
Lemma covariance_affine n f g a b : (1 <= n)%nat -> covariance n (fun c => a * f c + b) g == a * covariance n f g.
Proof.
  intros H. unfold covariance.
  rewrite (total_ext n _ (fun c => a * ((f c - average n f) * (g c - average n g)))) by (intros; rewrite average_affine by exact H; ring).
  rewrite total_mul. unfold Qdiv. ring.
Qed.
Lemma total_square k (u : nat -> Q) : total k (fun i => total k (fun j => u i * u j)) == total k u * total k u.
Proof.
  rewrite (total_ext k _ (fun i => total k u * u i)); [apply total_mul|]. intros i _. rewrite total_mul. ring.
Qed.
Lemma covariance_psd n k (a : nat -> Q) (x : nat -> nat -> Q) : (2 <= n)%nat ->
  0 <= total k (fun i => total k (fun j => a i * a j * covariance n (x i) (x j))).
Proof.
  intros H. pose proof (n_pos n H) as Hp.
  set (d := fun i c => x i c - average n (x i)).
  rewrite (total_ext k _ (fun i => (/ inject_Z (Z.of_nat n - 1)) * total n (fun c => total k (fun j => (a i * d i c) * (a j * d j c))))).
  - rewrite total_mul, total_swap. apply Qmult_le_0_compat; [apply Qlt_le_weak, Qinv_lt_0_compat, Hp|].
    apply total_nonneg. intros c _. rewrite (total_square k (fun i => a i * d i c)).
    destruct (Qlt_le_dec (total k (fun i => a i * d i c)) 0); nra.
  - intros i _. rewrite <- total_swap, <- total_mul. apply total_ext. intros j _. unfold covariance. fold (d i) (d j).
    rewrite (total_ext n (fun c => a i * d i c * (a j * d j c)) (fun c => (a i * a j) * (d i c * d j c))) by (intros; ring). rewrite total_mul. unfold d, Qdiv. ring.
Qed.
