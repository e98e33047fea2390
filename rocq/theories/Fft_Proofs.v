From Coq Require Import List ZArith Bool Lia Ring Ring_theory.
From Verif Require Import Prelude PreludeFacts Stepper_Model Access_Model Reshape_Model Fft_Model Fft_Spec.
Import ListNotations.
Open Scope Z_scope.

(** ** Lists *)
Lemma seqM_map {B C} (f : B -> res C) (g : B -> C) : forall l, (forall x, In x l -> f x = Ok (g x)) -> seqM (map f l) = Ok (map g l).
Proof. induction l as [|x l IH]; intros H; cbn; [reflexivity|]. rewrite (H x (or_introl eq_refl)). cbn. rewrite IH by auto using in_cons. reflexivity. Qed.

Lemma list_of_length {K} n (f : nat -> K) : length (list_of n f) = n.
Proof. unfold list_of. rewrite map_length, seq_length. reflexivity. Qed.
Lemma list_of_nth {K} n (f : nat -> K) j d : (j < n)%nat -> nth j (list_of n f) d = f j.
Proof. intros H. unfold list_of. rewrite nth_indep with (d' := f 0%nat) by (rewrite map_length, seq_length; exact H). rewrite map_nth, seq_nth by exact H. reflexivity. Qed.
Lemma list_of_rd {K} n (f : nat -> K) j : (j < n)%nat -> rd (list_of n f) j = Ok (f j).
Proof.
  intros H. unfold rd. replace (nth_error (list_of n f) j) with (Some (f j)); [reflexivity|]. symmetry.
  rewrite (nth_error_nth' _ (f 0%nat)) by (rewrite list_of_length; exact H). f_equal. apply list_of_nth. exact H.
Qed.
Lemma list_of_ext {K} n (f g : nat -> K) : (forall j, (j < n)%nat -> f j = g j) -> list_of n f = list_of n g.
Proof. intros H. unfold list_of. apply map_ext_in. intros j Hj. apply in_seq in Hj. apply H. lia. Qed.
Lemma list_of_app {K} a b (f : nat -> K) : list_of (a + b) f = list_of a f ++ list_of b (fun j => f (a + j)%nat).
Proof.
  unfold list_of. rewrite seq_app, map_app. f_equal. cbn. rewrite <- (Nat.add_0_r a) at 1. generalize 0%nat.
  induction b as [|b IH]; intros k; cbn; [reflexivity|]. f_equal. rewrite <- Nat.add_succ_r. apply IH.
Qed.
Lemma list_of_item {K} (A : arith K) l : list_of (length l) (item_of A l) = l.
Proof.
  unfold item_of. induction l as [|x l IH]; [reflexivity|]. change (length (x :: l)) with (1 + length l)%nat. rewrite list_of_app. cbn. f_equal. exact IH.
Qed.
Lemma map_list_of {K L} (h : K -> L) n f : map h (list_of n f) = list_of n (fun j => h (f j)).
Proof. unfold list_of. apply map_map. Qed.
Lemma repeat_list_of {K} (z : K) n : repeat z n = list_of n (fun _ => z).
Proof. unfold list_of. generalize 0%nat. induction n; intros k; cbn; [reflexivity|]. f_equal. apply IHn. Qed.

Lemma zip_ok {K} (f : nat -> K -> K -> K) n na nb x y : (n <= na)%nat -> (n <= nb)%nat ->
  zip_with f (list_of na x) (list_of nb y) n = Ok (list_of n (fun j => f j (x j) (y j))).
Proof.
  intros Ha Hb. unfold zip_with, list_of at 3. apply seqM_map. intros j Hj. apply in_seq in Hj. rewrite !list_of_rd by lia. reflexivity.
Qed.
Lemma every_ok {K} n (x : nat -> K) start step m : (forall j, (j < m)%nat -> (start + step * j < n)%nat) ->
  every (list_of n x) start step m = Ok (list_of m (fun j => x (start + step * j)%nat)).
Proof. intros H. unfold every, list_of at 2. apply seqM_map. intros j Hj. apply in_seq in Hj. apply list_of_rd. apply H. lia. Qed.

Lemma upd_app {K} (a : list K) x b v : upd (a ++ x :: b) (length a) v = a ++ v :: b.
Proof. induction a as [|y a IH]; cbn; [reflexivity|]. f_equal. exact IH. Qed.
Lemma write_range_ok {K} : forall (vs a old b : list K) start, start = Z.of_nat (length a) -> length old = length vs -> write_range (a ++ old ++ b) start vs = Ok (a ++ vs ++ b).
Proof.
  intros vs a old b start -> Hl. unfold write_range.
  assert (G : for_each (fun v '(p, l) => let* l' := wrz l p v in Ok (p + 1, l')) vs (Z.of_nat (length a), a ++ old ++ b) = Ok (Z.of_nat (length a) + Z.of_nat (length vs), a ++ vs ++ b)).
  { revert a old Hl. induction vs as [|v vs IH]; intros a [|o old] Hl; try discriminate.
    - cbn. rewrite Z.add_0_r. reflexivity.
    - cbn [for_each app]. rewrite wrz_ok by (rewrite app_length; cbn; lia). rewrite Nat2Z.id, upd_app. cbn [bind].
      specialize (IH (a ++ [v]) old). rewrite <- !app_assoc in IH. cbn [app] in IH. rewrite app_length in IH. cbn [length] in IH.
      replace (Z.of_nat (length a) + 1) with (Z.of_nat (length a + 1)) by lia. rewrite IH by (cbn in Hl; lia). do 2 f_equal. cbn [length]. lia. }
  rewrite G. reflexivity.
Qed.

(** ** Powers of two *)
Lemma power_of_two_iff N : 0 <= N -> power_of_two N = true <-> exists k, 0 <= k /\ N = 2 ^ k.
Proof.
  intros HN. unfold power_of_two. rewrite andb_true_iff, negb_true_iff, Z.eqb_neq, Z.eqb_eq. split.
  - intros (H0 & Hl). exists (Z.log2 N). split; [apply Z.log2_nonneg|]. destruct (Z.log2_spec N ltac:(lia)) as (L1 & L2).
    destruct (Z.eq_dec N (2 ^ Z.log2 N)) as [|Hne]; [assumption|exfalso].
    assert (Hlog : Z.log2 (N - 1) = Z.log2 N) by (apply Z.log2_unique; [apply Z.log2_nonneg|lia]).
    assert (B : Z.testbit (Z.land N (N - 1)) (Z.log2 N) = true).
    { rewrite Z.land_spec, Z.bit_log2 by lia. rewrite <- Hlog at 1. assert (0 < 2 ^ Z.log2 N) by (apply Z.pow_pos_nonneg; [lia|apply Z.log2_nonneg]). rewrite Z.bit_log2 by lia. reflexivity. }
    rewrite Hl, Z.bits_0 in B. discriminate.
  - intros (k & Hk & ->). split; [pose proof (Z.pow_pos_nonneg 2 k); lia|]. replace (2 ^ k - 1) with (Z.ones k) by (rewrite Z.ones_equiv; lia).
    rewrite Z.land_ones by exact Hk. apply Z.mod_same. pose proof (Z.pow_pos_nonneg 2 k). lia.
Qed.

Section Laws.
Context {K : Type} (A : arith K) (one : K) (opp : K -> K) (L : complex_laws A one opp).
Local Notation "0k" := (zero A).
Local Notation "x +k y" := (add A x y) (at level 50, left associativity).
Local Notation "x *k y" := (mul A x y) (at level 40, left associativity).
Local Notation "x -k y" := (sub A x y) (at level 50, left associativity).
Add Ring Kring : (cl_ring _ _ _ L).

(** ** Sums *)
Local Notation sum := (sumn A).
Lemma sum_ext n f g : (forall j, (j < n)%nat -> f j = g j) -> sum n f = sum n g.
Proof. induction n as [|n IH]; intros H; cbn; [reflexivity|]. rewrite IH, H by (auto; lia). reflexivity. Qed.
Lemma sum_add n f g : sum n (fun j => f j +k g j) = sum n f +k sum n g.
Proof. induction n as [|n IH]; cbn; [ring|]. rewrite IH. ring. Qed.
Lemma sum_mul n c f : sum n (fun j => c *k f j) = c *k sum n f.
Proof. induction n as [|n IH]; cbn; [ring|]. rewrite IH. ring. Qed.
Lemma sum_zero n f : (forall j, (j < n)%nat -> f j = 0k) -> sum n f = 0k.
Proof. induction n as [|n IH]; intros H; cbn; [reflexivity|]. rewrite IH, H by (auto; lia). ring. Qed.
Lemma sum_swap n m (f : nat -> nat -> K) : sum n (fun i => sum m (fun j => f i j)) = sum m (fun j => sum n (fun i => f i j)).
Proof. induction n as [|n IH]; cbn; [symmetry; apply sum_zero; reflexivity|]. rewrite IH, sum_add. reflexivity. Qed.
Lemma sum_split a b f : sum (a + b) f = sum a f +k sum b (fun j => f (a + j)%nat).
Proof. induction b as [|b IH]; [rewrite Nat.add_0_r; cbn; ring|]. rewrite Nat.add_succ_r. cbn. rewrite IH. ring. Qed.
Lemma sum_even_odd h f : sum (2 * h) f = sum h (fun j => f (2 * j)%nat) +k sum h (fun j => f (2 * j + 1)%nat).
Proof.
  induction h as [|h IH]; [cbn; ring|]. replace (2 * S h)%nat with (S (S (2 * h))) by lia. cbn [sumn]. rewrite IH.
  replace (2 * h + 1)%nat with (S (2 * h)) by lia. ring.
Qed.
(** A sum of which one term is not 0 *)
Lemma sum_one n f i : (i < n)%nat -> (forall j, (j < n)%nat -> j <> i -> f j = 0k) -> sum n f = f i.
Proof.
  induction n as [|n IH]; intros Hi H; [lia|]. cbn. destruct (Nat.eq_dec i n) as [ -> |Hne].
  - rewrite sum_zero by (intros j Hj; apply H; lia). ring.
  - rewrite IH, (H n) by (auto; lia). ring.
Qed.
Lemma sum_const n c : sum n (fun _ => c) = numeral A one n *k c.
Proof. induction n as [|n IH]; cbn; [ring|]. rewrite IH. ring. Qed.

(** ** Turns *)
Local Notation e := (turn A).
Lemma turn_0_1 : e 0 1 = one.
Proof.
  pose proof (cl_turn_add _ _ _ L 0 1 1 ltac:(lia)) as H. change (0 + 1) with 1 in H. rewrite (cl_turn_half _ _ _ L) in H.
  assert (E : e 0 1 = opp (e 0 1 *k opp one)) by ring. rewrite <- H in E. rewrite E. ring.
Qed.
Lemma turn_0 b : 0 < b -> e 0 b = one.
Proof. intros Hb. rewrite <- turn_0_1, <- (cl_turn_scale _ _ _ L 0 1 b) by lia. f_equal; lia. Qed.
Lemma turn_inv a b : 0 < b -> e a b *k e (- a) b = one.
Proof. intros Hb. rewrite <- (cl_turn_add _ _ _ L) by exact Hb. rewrite Z.add_opp_diag_r. apply turn_0. exact Hb. Qed.
Lemma turn_2 b : 0 < b -> e (2 * b) b = one.
Proof.
  intros Hb. replace (2 * b) with (b * 2) by lia. rewrite <- (Z.mul_1_r b) at 2. rewrite (cl_turn_scale _ _ _ L) by lia.
  change 2 with (1 + 1). rewrite (cl_turn_add _ _ _ L), (cl_turn_half _ _ _ L) by lia. ring.
Qed.
Lemma turn_half b : 0 < b -> e b b = opp one.
Proof. intros Hb. rewrite <- (Z.mul_1_r b). rewrite (cl_turn_scale _ _ _ L) by lia. apply (cl_turn_half _ _ _ L). Qed.
Lemma turn_many b (q : nat) : 0 < b -> e (2 * b * Z.of_nat q) b = one.
Proof.
  intros Hb. induction q as [|q IH]; [rewrite Z.mul_0_r; apply turn_0; exact Hb|].
  replace (2 * b * Z.of_nat (S q)) with (2 * b * Z.of_nat q + 2 * b) by lia. rewrite (cl_turn_add _ _ _ L), IH, turn_2 by exact Hb. ring.
Qed.
Lemma turn_period b q a : 0 < b -> e (a + 2 * b * q) b = e a b.
Proof.
  intros Hb. rewrite (cl_turn_add _ _ _ L) by exact Hb. assert (E : e (2 * b * q) b = one); [|rewrite E; ring].
  destruct (Z_le_gt_dec 0 q) as [H|H].
  - rewrite <- (Z2Nat.id q) by exact H. apply turn_many. exact Hb.
  - pose proof (turn_inv (2 * b * q) b Hb) as Hi. replace (- (2 * b * q)) with (2 * b * Z.of_nat (Z.to_nat (- q))) in Hi by lia.
    rewrite turn_many in Hi by exact Hb. rewrite <- Hi. ring.
Qed.
Lemma turn_congr a a' b : 0 < b -> (2 * b | a - a') -> e a b = e a' b.
Proof. intros Hb (q & Hq). replace a with (a' + 2 * b * q) by lia. apply turn_period. exact Hb. Qed.

(** ** Radix 2 *)
Lemma dft_ext n x y k : (forall j, (j < n)%nat -> x j = y j) -> dft A n x k = dft A n y k.
Proof. intros H. unfold dft. apply sum_ext. intros j Hj. rewrite H by exact Hj. reflexivity. Qed.

Lemma dft_halves h x i : (0 < h)%nat ->
  dft A (2 * h) x i = dft A h (fun j => x (2 * j)%nat) i +k e (2 * Z.of_nat i) (Z.of_nat (2 * h)) *k dft A h (fun j => x (2 * j + 1)%nat) i.
Proof.
  intros Hh. unfold dft. rewrite sum_even_odd, <- sum_mul, <- !sum_add. apply sum_ext. intros j Hj.
  replace (Z.of_nat (2 * h)) with (2 * Z.of_nat h) by lia.
  replace (2 * Z.of_nat (2 * j) * Z.of_nat i) with (2 * (2 * Z.of_nat j * Z.of_nat i)) by lia.
  replace (2 * Z.of_nat (2 * j + 1) * Z.of_nat i) with (2 * (2 * Z.of_nat j * Z.of_nat i) + 2 * Z.of_nat i) by lia.
  rewrite (cl_turn_add _ _ _ L) by lia. rewrite !(cl_turn_scale _ _ _ L (2 * Z.of_nat j * Z.of_nat i)) by lia. ring.
Qed.
Lemma dft_period n x k q : (0 < n)%nat -> dft A n x (k + n * q) = dft A n x k.
Proof.
  intros Hn. unfold dft. apply sum_ext. intros j Hj. f_equal. apply turn_congr; [lia|]. exists (Z.of_nat j * Z.of_nat q). nia.
Qed.

Lemma radix2_ok : forall k fuel x, (k < fuel)%nat -> radix2 A fuel (list_of (2 ^ k) x) = Ok (list_of (2 ^ k) (dft A (2 ^ k) x)).
Proof.
  induction k as [|k IH]; intros [|fuel] x Hf; try lia; cbn [radix2]; rewrite list_of_length.
  - change (power_of_two (Z.of_nat (2 ^ 0))) with true. change (Z.of_nat (2 ^ 0) =? 0) with false. change (Z.of_nat (2 ^ 0) <=? 1) with true. cbn [negb orb].
    unfold list_of, dft. cbn [Nat.pow seq map sumn]. change (2 * Z.of_nat 0 * Z.of_nat 0) with 0. rewrite turn_0 by (cbn; lia). do 2 f_equal. ring.
  - assert (Hp : power_of_two (Z.of_nat (2 ^ S k)) = true) by (apply power_of_two_iff; [lia|]; exists (Z.of_nat (S k)); split; [lia|]; rewrite Nat2Z.inj_pow; reflexivity).
    rewrite Hp. cbn [negb orb]. pose proof (Nat.pow_nonzero 2 k ltac:(lia)) as Hk0. set (h := (2 ^ k)%nat) in *.
    assert (E2 : (2 ^ S k = 2 * h)%nat) by reflexivity. rewrite !E2 in *. clear E2 Hp.
    destruct (Z.eqb_spec (Z.of_nat (2 * h)) 0); [lia|]. destruct (Z.leb_spec (Z.of_nat (2 * h)) 1); [lia|].
    assert (D1 : Nat.div2 (2 * h + 1) = h) by (rewrite Nat.add_1_r; apply Nat.div2_succ_double).
    assert (D2 : Nat.div2 (2 * h) = h) by apply Nat.div2_double. rewrite D1, D2.
    rewrite (every_ok (2 * h) x 0 2 h) by (intros; lia). cbn [bind]. rewrite (IH fuel (fun j => x (0 + 2 * j)%nat)) by lia. cbn [bind].
    rewrite (every_ok (2 * h) x 1 2 h) by (intros; lia). cbn [bind]. rewrite (IH fuel (fun j => x (1 + 2 * j)%nat)) by lia. cbn [bind].
    rewrite !zip_ok by lia. cbn [bind].
    replace (repeat 0k (2 * h)) with ([] ++ repeat 0k h ++ repeat 0k h) by (cbn [app]; rewrite <- repeat_app; f_equal; lia).
    rewrite write_range_ok by (rewrite ?list_of_length, ?repeat_length; reflexivity). cbn [bind app].
    rewrite <- (app_nil_r (repeat 0k h)). rewrite write_range_ok by (rewrite ?list_of_length, ?repeat_length; reflexivity). rewrite app_nil_r.
    transitivity (Ok (list_of (h + h) (dft A (2 * h) x))); [|do 2 f_equal; lia]. rewrite list_of_app. do 2 f_equal; apply list_of_ext; intros i Hi.
    + rewrite dft_halves by lia. f_equal. f_equal. apply dft_ext. intros j _. f_equal. lia.
    + rewrite dft_halves by lia. replace (h + i)%nat with (i + h * 1)%nat by lia. rewrite !dft_period by lia.
      replace (2 * Z.of_nat (i + h * 1)) with (2 * Z.of_nat i + Z.of_nat (2 * h)) by lia.
      rewrite (cl_turn_add _ _ _ L), turn_half by lia. rewrite (dft_ext h (fun j => x (2 * j + 1)%nat) (fun j => x (1 + 2 * j)%nat)) by (intros j _; f_equal; lia).
      change (fun j => x (0 + 2 * j)%nat) with (fun j => x (2 * j)%nat). ring.
Qed.

Lemma radix2_throws fuel (x : list K) : (0 < fuel)%nat -> ~ (exists k, length x = (2 ^ k)%nat) -> radix2 A fuel x = Throw runtime_error.
Proof.
  intros Hf Hn. destruct fuel as [|fuel]; [lia|]. cbn [radix2]. destruct (power_of_two (Z.of_nat (length x))) eqn:E; [exfalso|reflexivity].
  apply power_of_two_iff in E; [|lia]. destruct E as (k & Hk & E). apply Hn. exists (Z.to_nat k). rewrite <- (Z2Nat.id k) in E by exact Hk.
  apply Nat2Z.inj. rewrite E, Nat2Z.inj_pow. reflexivity.
Qed.
End Laws.
