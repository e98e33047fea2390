From Coq Require Import List ZArith Bool Lia Ring Ring_theory.
From Verif Require Import Prelude PreludeFacts Stepper_Model Access_Model Reshape_Model Fft_Model Fft_Spec Fft_Proofs.
Import ListNotations.
Open Scope Z_scope.

Section Laws.
Context {K : Type} (A : arith K) (one : K) (opp : K -> K) (L : complex_laws A one opp).
Local Notation "0k" := (zero A).
Local Notation "x +k y" := (add A x y) (at level 50, left associativity).
Local Notation "x *k y" := (mul A x y) (at level 40, left associativity).
Local Notation "x -k y" := (sub A x y) (at level 50, left associativity).
Add Ring Kring2 : (cl_ring _ _ _ L).
Local Notation sum := (sumn A).
Local Notation e := (turn A).

Lemma geometric n d m : 0 < n -> (e (2 * d) n -k one) *k sum m (fun l => e (2 * Z.of_nat l * d) n) = e (2 * Z.of_nat m * d) n -k one.
Proof.
  intros Hn. induction m as [|m IH]; cbn [sumn].
  - change (2 * Z.of_nat 0 * d) with 0. rewrite (turn_0 A one opp L) by exact Hn. ring.
  - replace (2 * Z.of_nat (S m) * d) with (2 * Z.of_nat m * d + 2 * d) by lia. rewrite (cl_turn_add _ _ _ L) by exact Hn.
    transitivity ((e (2 * d) n -k one) *k sum m (fun l => e (2 * Z.of_nat l * d) n) +k (e (2 * d) n -k one) *k e (2 * Z.of_nat m * d) n); [ring|]. rewrite IH. ring.
Qed.
Lemma sub_zero x y : x -k y = 0k -> x = y.
Proof. intros H. assert (E : x = (x -k y) +k y) by ring. rewrite H in E. rewrite E. ring. Qed.
Lemma orth_zero n d : (0 < n)%nat -> ~ (Z.of_nat n | d) -> sum n (fun l => e (2 * Z.of_nat l * d) (Z.of_nat n)) = 0k.
Proof.
  intros Hn Hd. pose proof (geometric (Z.of_nat n) d n ltac:(lia)) as G.
  assert (E : e (2 * Z.of_nat n * d) (Z.of_nat n) = one).
  { rewrite <- (turn_0 A one opp L (Z.of_nat n)) by lia. apply (turn_congr A one opp L); [lia|]. exists d. lia. }
  rewrite E in G. replace (one -k one) with 0k in G by ring. apply (cl_integral _ _ _ L) in G. destruct G as [G|G]; [exfalso|exact G].
  apply sub_zero in G. apply (cl_turn_one _ _ _ L) in G; [|lia]. apply Hd. destruct G as (q & Hq). exists q. lia.
Qed.
Lemma orth_one n d : (0 < n)%nat -> (Z.of_nat n | d) -> sum n (fun l => e (2 * Z.of_nat l * d) (Z.of_nat n)) = numeral A one n.
Proof.
  intros Hn (q & Hq). transitivity (sum n (fun _ => one)).
  - apply sum_ext. intros l _. rewrite <- (turn_0 A one opp L (Z.of_nat n)) by lia. apply (turn_congr A one opp L); [lia|]. exists (Z.of_nat l * q). subst d. lia.
  - rewrite (sum_const A one opp L). ring.
Qed.

(** The inverse transform *)
Lemma inverse n x k : (k < n)%nat -> sum n (fun l => dft A n x l *k e (- (2 * Z.of_nat l * Z.of_nat k)) (Z.of_nat n)) = numeral A one n *k x k.
Proof.
  intros Hk. transitivity (sum n (fun l => sum n (fun j => x j *k e (2 * Z.of_nat l * (Z.of_nat j - Z.of_nat k)) (Z.of_nat n)))).
  - apply sum_ext. intros l Hl. unfold dft.
    transitivity (e (- (2 * Z.of_nat l * Z.of_nat k)) (Z.of_nat n) *k sum n (fun j => x j *k e (2 * Z.of_nat j * Z.of_nat l) (Z.of_nat n))); [ring|].
    rewrite <- (sum_mul A one opp L). apply sum_ext. intros j Hj.
    replace (2 * Z.of_nat l * (Z.of_nat j - Z.of_nat k)) with (2 * Z.of_nat j * Z.of_nat l + - (2 * Z.of_nat l * Z.of_nat k)) by lia.
    rewrite (cl_turn_add _ _ _ L) by lia. ring.
  - rewrite (sum_swap A one opp L). rewrite (sum_one A one opp L n _ k Hk).
    + rewrite (sum_mul A one opp L), orth_one; [ring|lia|]. exists 0. lia.
    + intros j Hj Hne. rewrite (sum_mul A one opp L), orth_zero; [ring|lia|]. intros (q & Hq). assert (q = 0) by nia. lia.
Qed.

(** A sum over a rotation *)
Lemma rotation n j g : (j < n)%nat -> sum n (fun k => g (Z.to_nat ((Z.of_nat k - Z.of_nat j) mod Z.of_nat n))) = sum n g.
Proof.
  intros Hj. replace n with (j + (n - j))%nat at 1 by lia. rewrite (sum_split A one opp L).
  transitivity (sum ((n - j) + j) g); [|f_equal; lia]. rewrite (sum_split A one opp L).
  transitivity (sum j (fun k => g ((n - j) + k)%nat) +k sum (n - j) g); [|ring]. f_equal; apply sum_ext; intros k Hk; f_equal.
  - rewrite <- (Z.mod_unique_pos (Z.of_nat k - Z.of_nat j) (Z.of_nat n) (-1) (Z.of_nat (n - j + k))); lia.
  - rewrite Z.mod_small; lia.
Qed.

(** The transform of a convolution is the product of the transforms *)
Lemma dft_circular n x y l : dft A n (circular A n x y) l = dft A n x l *k dft A n y l.
Proof.
  destruct (Nat.eq_dec n 0) as [ -> |Hn]; [cbn; ring|].
  transitivity (sum n (fun k => sum n (fun j => x j *k e (2 * Z.of_nat j * Z.of_nat l) (Z.of_nat n) *k
     (fun i => y i *k e (2 * Z.of_nat i * Z.of_nat l) (Z.of_nat n)) (Z.to_nat ((Z.of_nat k - Z.of_nat j) mod Z.of_nat n))))).
  - unfold dft at 1. apply sum_ext. intros k Hk. unfold circular.
    transitivity (e (2 * Z.of_nat k * Z.of_nat l) (Z.of_nat n) *k sum n (fun j => x j *k y (Z.to_nat ((Z.of_nat k - Z.of_nat j) mod Z.of_nat n)))); [ring|].
    rewrite <- (sum_mul A one opp L). apply sum_ext. intros j Hj. cbn beta. set (i := Z.to_nat _).
    assert (E : e (2 * Z.of_nat k * Z.of_nat l) (Z.of_nat n) = e (2 * Z.of_nat j * Z.of_nat l + 2 * Z.of_nat i * Z.of_nat l) (Z.of_nat n)).
    { apply (turn_congr A one opp L); [lia|]. subst i. rewrite Z2Nat.id by (apply Z.mod_pos_bound; lia).
      rewrite Z.mod_eq by lia. exists (((Z.of_nat k - Z.of_nat j) / Z.of_nat n) * Z.of_nat l). ring. }
    rewrite E, (cl_turn_add _ _ _ L) by lia. ring.
  - rewrite (sum_swap A one opp L).
    transitivity (sum n (fun j => dft A n y l *k (x j *k e (2 * Z.of_nat j * Z.of_nat l) (Z.of_nat n)))).
    + apply sum_ext. intros j Hj. rewrite (sum_mul A one opp L).
      rewrite (rotation n j (fun i => y i *k e (2 * Z.of_nat i * Z.of_nat l) (Z.of_nat n)) Hj). fold (dft A n y l). ring.
    + rewrite (sum_mul A one opp L). fold (dft A n x l). ring.
Qed.

Lemma conj_zero : conj A 0k = 0k.
Proof.
  pose proof (cl_conj_add _ _ _ L 0k 0k) as H. replace (0k +k 0k) with 0k in H by ring.
  assert (E : conj A 0k = (conj A 0k +k conj A 0k) -k conj A 0k) by ring. rewrite <- H in E. rewrite E. ring.
Qed.
Lemma conj_sum n f : conj A (sum n f) = sum n (fun j => conj A (f j)).
Proof. induction n as [|n IH]; cbn; [apply conj_zero|]. rewrite (cl_conj_add _ _ _ L), IH. reflexivity. Qed.
Lemma conj_dft n f k : conj A (dft A n (fun l => conj A (f l)) k) = sum n (fun l => f l *k e (- (2 * Z.of_nat l * Z.of_nat k)) (Z.of_nat n)).
Proof.
  unfold dft. rewrite conj_sum. apply sum_ext. intros j _. rewrite (cl_conj_mul _ _ _ L), (cl_conj_conj _ _ _ L), (cl_conj_turn _ _ _ L). reflexivity.
Qed.
(** Conjugate, transform and conjugate: n times the inverse *)
Lemma back_forth n x k : (k < n)%nat -> conj A (dft A n (fun l => conj A (dft A n x l)) k) = numeral A one n *k x k.
Proof. intros Hk. rewrite (conj_dft n (dft A n x)). apply inverse. exact Hk. Qed.
Lemma forth_back n x k : (k < n)%nat -> dft A n (fun l => conj A (dft A n (fun j => conj A (x j)) l)) k = numeral A one n *k x k.
Proof.
  intros Hk. rewrite <- (cl_conj_conj _ _ _ L (dft A n _ k)).
  rewrite (back_forth n (fun j => conj A (x j)) k Hk). rewrite (cl_conj_mul _ _ _ L), (cl_conj_conj _ _ _ L). f_equal.
  clear Hk. induction n as [|n IH]; cbn; [apply conj_zero|]. rewrite (cl_conj_add _ _ _ L), IH. f_equal.
  transitivity (conj A one *k conj A (conj A one)); [rewrite (cl_conj_conj _ _ _ L); ring|]. rewrite <- (cl_conj_mul _ _ _ L).
  transitivity (conj A (conj A one)); [f_equal; ring|apply (cl_conj_conj _ _ _ L)].
Qed.
Lemma product_back n x y k : (k < n)%nat -> conj A (dft A n (fun l => conj A (dft A n x l *k dft A n y l)) k) = numeral A one n *k circular A n x y k.
Proof.
  intros Hk. rewrite <- (back_forth n (circular A n x y) k Hk). f_equal. apply dft_ext. intros j _. f_equal. symmetry. apply dft_circular.
Qed.

(** ** Bluestein *)
Definition chirp (n i : nat) : K := e (Z.of_nat i * Z.of_nat i) (Z.of_nat n).
Lemma table_ok n : (0 < n)%nat -> exp_table A n = list_of n (chirp n).
Proof.
  intros Hn. unfold exp_table, list_of, chirp. apply map_ext. intros i. apply (turn_congr A one opp L); [lia|].
  rewrite Z.mod_eq by lia. exists (- (Z.of_nat i * Z.of_nat i / (Z.of_nat n * 2))). ring.
Qed.
Lemma removelast_list_of n (f : nat -> K) : removelast (list_of n f) = list_of (n - 1) f.
Proof.
  destruct n as [|n]; [reflexivity|]. replace (S n) with (n + 1)%nat by lia. rewrite list_of_app. cbn. rewrite removelast_last. f_equal. lia.
Qed.
Lemma rev_list_of n (f : nat -> K) : rev (list_of n f) = list_of n (fun j => f (n - 1 - j)%nat).
Proof.
  induction n as [|n IH]; [reflexivity|]. replace (S n) with (n + 1)%nat by lia. rewrite list_of_app, rev_app_distr. cbn [list_of map seq rev app].
  rewrite IH. replace (n + 1)%nat with (1 + n)%nat by lia. rewrite list_of_app. cbn. f_equal; [f_equal; lia|]. apply list_of_ext. intros j Hj. f_equal. lia.
Qed.
Lemma glue n a b c (f : nat -> K) : (a + b + c = n)%nat -> list_of a f ++ list_of b (fun j => f (a + j)%nat) ++ list_of c (fun j => f (a + b + j)%nat) = list_of n f.
Proof.
  intros <-. rewrite (list_of_app (a + b) c), (list_of_app a b), app_assoc. reflexivity.
Qed.

Lemma bluestein_ok n x : (0 < n)%nat -> Z.of_nat n < 2 ^ 62 -> transform_bluestein A (list_of n x) = Ok (list_of n (dft A n x)).
Proof.
  intros Hn Hb. unfold transform_bluestein. rewrite list_of_length, (table_ok n Hn).
  set (s := Z.log2_up (Z.of_nat n * 2 + 1)). assert (Hs : 0 <= s) by apply Z.log2_up_nonneg.
  assert (Hm : Z.of_nat n * 2 + 1 <= 2 ^ s) by (apply Z.log2_up_spec; lia).
  set (m := (2 ^ Z.to_nat s)%nat). assert (Em : 2 ^ s = Z.of_nat m) by (unfold m; rewrite Nat2Z.inj_pow, Z2Nat.id by exact Hs; reflexivity).
  rewrite Em in *. rewrite Nat2Z.id. assert (Hmn : (n * 2 + 1 <= m)%nat) by lia.
  assert (Hf : (Z.to_nat s < S m)%nat) by (unfold m; pose proof (Nat.pow_gt_lin_r 2 (Z.to_nat s)); lia).
  rewrite zip_ok by lia. cbn [bind].
  (* the padded vectors *)
  set (a := fun j => if (j <? n)%nat then x j *k chirp n j else 0k).
  replace (repeat 0k m) with ([] ++ repeat 0k n ++ repeat 0k (m - n)) at 1 by (cbn [app]; rewrite <- repeat_app; f_equal; lia).
  rewrite write_range_ok by (rewrite ?list_of_length, ?repeat_length; reflexivity). cbn [bind app].
  replace (list_of n (fun j => x j *k chirp n j) ++ repeat 0k (m - n)) with (list_of m a).
  2:{ rewrite repeat_list_of. replace m with (n + (m - n))%nat at 1 by lia. rewrite list_of_app. f_equal; apply list_of_ext; intros j Hj; unfold a;
      [destruct (Nat.ltb_spec j n)|destruct (Nat.ltb_spec (n + j) n)]; reflexivity || lia. }
  rewrite map_list_of.
  replace (repeat 0k m) with ([] ++ repeat 0k n ++ repeat 0k (m - n)) at 1 by (cbn [app]; rewrite <- repeat_app; f_equal; lia).
  rewrite write_range_ok by (rewrite ?list_of_length, ?repeat_length; reflexivity). cbn [bind app].
  set (start := to_signed 64 (to_size_t (- Z.of_nat n + 1))).
  assert (Est : (if start <? 0 then Z.of_nat m + start else start) = if (1 <? n)%nat then Z.of_nat (m - (n - 1)) else 0).
  { assert (Es : start = - Z.of_nat n + 1).
    { unfold start, to_signed, to_size_t. change (2 ^ 62) with 4611686018427387904 in Hb. change (2 ^ (64 - 1)) with 9223372036854775808. change (2 ^ 64) with 18446744073709551616.
      rewrite Z.add_mod_idemp_l by lia. rewrite Z.mod_small; lia. }
    rewrite Es. destruct (Nat.ltb_spec 1 n); destruct (Z.ltb_spec (- Z.of_nat n + 1) 0); lia. }
  rewrite Est. clear Est start.
  set (b := fun j => if (j <? n)%nat then conj A (chirp n j) else if (m - (n - 1) <=? j)%nat then conj A (chirp n (m - j)) else 0k).
  replace (write_range (list_of n (fun j => conj A (chirp n j)) ++ repeat 0k (m - n)) _ _) with (Ok (list_of m b)).
  2:{ rewrite rev_list_of, map_list_of, removelast_list_of. destruct (Nat.ltb_spec 1 n) as [H1|H1].
      - replace (repeat 0k (m - n)) with (repeat 0k (m - n - (n - 1)) ++ repeat 0k (n - 1) ++ []) by (rewrite app_nil_r, <- repeat_app; f_equal; lia).
        rewrite app_assoc. rewrite write_range_ok by (rewrite ?app_length, ?list_of_length, ?repeat_length; lia).
        f_equal. rewrite app_nil_r, <- app_assoc, repeat_list_of. rewrite <- (glue m n (m - n - (n - 1)) (n - 1) b) by lia. f_equal; [|f_equal]; apply list_of_ext; intros j Hj; unfold b.
        + destruct (Nat.ltb_spec j n); [reflexivity|lia].
        + destruct (Nat.ltb_spec (n + j) n); [lia|]. destruct (Nat.leb_spec (m - (n - 1)) (n + j)); [lia|reflexivity].
        + destruct (Nat.ltb_spec (n + (m - n - (n - 1)) + j) n); [lia|]. destruct (Nat.leb_spec (m - (n - 1)) (n + (m - n - (n - 1)) + j)); [|lia]. do 2 f_equal. lia.
      - assert (n = 1)%nat by lia. subst n. reflexivity. }
  cbn [bind]. unfold m. rewrite !(radix2_ok A one opp L (Z.to_nat s)) by exact Hf. cbn [bind]. fold m.
  rewrite zip_ok by lia. cbn [bind]. rewrite map_list_of. unfold m. rewrite (radix2_ok A one opp L (Z.to_nat s)) by exact Hf. cbn [bind]. fold m.
  rewrite map_list_of, zip_ok by lia. f_equal. apply list_of_ext. intros k Hk.
  rewrite product_back by lia. replace (numeral A one m) with (numeral A one (Z.to_nat (Z.of_nat m))) by (rewrite Nat2Z.id; reflexivity). rewrite (cl_over _ _ _ L) by lia.
  (* the convolution *)
  unfold circular. replace m with (n + (m - n))%nat at 1 by lia. rewrite (sum_split A one opp L).
  rewrite (sum_zero A one opp L (m - n)) by (intros j Hj; unfold a; destruct (Nat.ltb_spec (n + j) n); [lia|ring]).
  transitivity (chirp n k *k sum n (fun j => a j *k b (Z.to_nat ((Z.of_nat k - Z.of_nat j) mod Z.of_nat m)))); [ring|].
  rewrite <- (sum_mul A one opp L). unfold dft. apply sum_ext. intros j Hj.
  assert (Eb : b (Z.to_nat ((Z.of_nat k - Z.of_nat j) mod Z.of_nat m)) = e (- ((Z.of_nat k - Z.of_nat j) * (Z.of_nat k - Z.of_nat j))) (Z.of_nat n)).
  { destruct (Z_le_gt_dec (Z.of_nat j) (Z.of_nat k)) as [Hjk|Hjk].
    - rewrite Z.mod_small by lia. unfold b. destruct (Nat.ltb_spec (Z.to_nat (Z.of_nat k - Z.of_nat j)) n); [|lia]. unfold chirp. rewrite (cl_conj_turn _ _ _ L), Z2Nat.id by lia. reflexivity.
    - rewrite <- (Z.mod_unique_pos (Z.of_nat k - Z.of_nat j) (Z.of_nat m) (-1) (Z.of_nat m - (Z.of_nat j - Z.of_nat k))) by lia. unfold b.
      set (p := Z.to_nat (Z.of_nat m - (Z.of_nat j - Z.of_nat k))). assert (Hp : (p = m - (j - k))%nat) by (subst p; lia).
      destruct (Nat.ltb_spec p n); [lia|]. destruct (Nat.leb_spec (m - (n - 1)) p); [|lia]. unfold chirp. rewrite (cl_conj_turn _ _ _ L). f_equal. replace (m - p)%nat with (j - k)%nat by lia. rewrite Nat2Z.inj_sub by lia. ring. }
  rewrite Eb. unfold a. destruct (Nat.ltb_spec j n); [|lia]. unfold chirp.
  replace (2 * Z.of_nat j * Z.of_nat k) with (Z.of_nat j * Z.of_nat j + (Z.of_nat k * Z.of_nat k + - ((Z.of_nat k - Z.of_nat j) * (Z.of_nat k - Z.of_nat j)))) by ring.
  rewrite !(cl_turn_add _ _ _ L) by lia. ring.
Qed.

Lemma transform_ok n x : (0 < n)%nat -> Z.of_nat n < 2 ^ 62 -> transform A (list_of n x) = Ok (list_of n (dft A n x)).
Proof.
  intros Hn Hb. unfold transform. rewrite list_of_length. destruct (power_of_two (Z.of_nat n)) eqn:E; [|apply bluestein_ok; assumption].
  apply power_of_two_iff in E; [|lia]. destruct E as (k & Hk & E). assert (En : (n = 2 ^ Z.to_nat k)%nat) by (apply Nat2Z.inj; rewrite E, Nat2Z.inj_pow, Z2Nat.id by exact Hk; reflexivity).
  rewrite En. apply (radix2_ok A one opp L). pose proof (Nat.pow_gt_lin_r 2 (Z.to_nat k)). lia.
Qed.
End Laws.
