(** Convolutions. *)
From Coq Require Import List ZArith Lia Bool Arith QArith.
From Verif Require Import Prelude PreludeFacts Access_Model Reduce13_Proofs Line_Model Line_Spec.
Import ListNotations.
Open Scope Z_scope.

Lemma sumn_S f n : sumn f (S n) = sumn f n + f n.
Proof.
  unfold sumn. rewrite seq_S, map_app. cbn [map plus]. generalize (map f (seq 0 n)). induction l as [|x l IH]; cbn; [lia|]. rewrite IH. lia.
Qed.
Lemma sumn_add f a b : sumn f (a + b) = sumn f a + sumn (fun d => f (a + d)%nat) b.
Proof.
  induction b as [|b IH]; [rewrite Nat.add_0_r; unfold sumn at 3; cbn; lia|]. rewrite Nat.add_succ_r, !sumn_S, IH. lia.
Qed.
Lemma sumn_ext f g n : (forall i, (i < n)%nat -> f i = g i) -> sumn f n = sumn g n.
Proof. induction n as [|n IH]; intros H; [reflexivity|]. rewrite !sumn_S, IH, (H n) by (intros; try apply H; lia). reflexivity. Qed.
Lemma sumn_zero f n : (forall i, (i < n)%nat -> f i = 0) -> sumn f n = 0.
Proof. induction n as [|n IH]; intros H; [reflexivity|]. rewrite sumn_S, IH, (H n) by (intros; try apply H; lia). reflexivity. Qed.
Lemma sumn_plus f g n : sumn (fun i => f i + g i) n = sumn f n + sumn g n.
Proof. induction n as [|n IH]; [reflexivity|]. rewrite !sumn_S, IH. lia. Qed.
Lemma sumn_swap (f : nat -> nat -> Z) n m : sumn (fun i => sumn (fun j => f i j) m) n = sumn (fun j => sumn (fun i => f i j) n) m.
Proof.
  induction n as [|n IH].
  - rewrite (sumn_zero (fun j => sumn (fun i => f i j) 0)) by reflexivity. reflexivity.
  - rewrite sumn_S, IH. rewrite <- sumn_plus. apply sumn_ext. intros j _. rewrite sumn_S. reflexivity.
Qed.
Lemma sumn_pick (g : nat -> Z) i k n : sumn (fun j => if (i + j =? k)%nat then g j else 0) n = if ((i <=? k) && (k - i <? n))%nat then g (k - i)%nat else 0.
Proof.
  induction n as [|n IH]; [destruct (i <=? k)%nat; reflexivity|]. rewrite sumn_S, IH. clear IH.
  destruct (Nat.leb_spec i k), (Nat.ltb_spec (k - i) n), (Nat.ltb_spec (k - i) (S n)), (Nat.eqb_spec (i + n) k); cbn [andb]; try lia.
  replace (k - i)%nat with n by lia. lia.
Qed.

Lemma conv_at_sum a v k : conv_at a v k = sumn (fun i => if ((i <=? k) && (k - i <? length v))%nat then nth i a 0 * nth (k - i) v 0 else 0) (length a).
Proof. unfold conv_at. apply sumn_ext. intros i _. apply (sumn_pick (fun j => nth i a 0 * nth j v 0)). Qed.
Lemma conv_at_comm a v k : conv_at a v k = conv_at v a k.
Proof.
  unfold conv_at. rewrite sumn_swap. apply sumn_ext. intros j _. apply sumn_ext. intros i _. rewrite Nat.add_comm. destruct (_ =? _)%nat; [lia|reflexivity].
Qed.

(** The sum over the positions that exist, from jmn to jmx. *)
Lemma conv_at_range a v k jmn cnt : (0 < length v)%nat -> (k < length a + length v - 1)%nat ->
  jmn = (k - (length v - 1))%nat -> (jmn + cnt = S (Nat.min k (length a - 1)))%nat -> (0 < length a)%nat ->
  conv_at a v k = sumn (fun d => nth (jmn + d) a 0 * nth (k - (jmn + d)) v 0) cnt.
Proof.
  intros Hv Hk Hj Hc Ha. rewrite conv_at_sum. set (g := fun i => if ((i <=? k) && (k - i <? length v))%nat then nth i a 0 * nth (k - i) v 0 else 0).
  replace (length a) with (jmn + (cnt + (length a - jmn - cnt)))%nat by lia. rewrite !sumn_add.
  rewrite (sumn_zero g jmn). 2: { intros i Hi. unfold g. destruct (Nat.leb_spec i k), (Nat.ltb_spec (k - i) (length v)); cbn; try reflexivity; lia. }
  rewrite (sumn_zero (fun d => g (jmn + (cnt + d))%nat)).
  2: { intros i Hi. unfold g. destruct (Nat.leb_spec (jmn + (cnt + i)) k), (Nat.ltb_spec (k - (jmn + (cnt + i))) (length v)); cbn; try reflexivity; lia. }
  rewrite Z.add_0_l, Z.add_0_r. apply sumn_ext. intros d Hd. unfold g.
  destruct (Nat.leb_spec (jmn + d) k), (Nat.ltb_spec (k - (jmn + d)) (length v)); cbn; try reflexivity; lia.
Qed.

Lemma upd_upd {A} : forall (l : list A) i x y, upd (upd l i x) i y = upd l i y.
Proof. induction l as [|a l IH]; intros [|i] x y; cbn; [reflexivity..|]. f_equal. apply IH. Qed.
Lemma upd_self {A} : forall (l : list A) i x, nth_error l i = Some x -> upd l i x = l.
Proof. induction l as [|a l IH]; intros [|i] x E; cbn in *; [reflexivity..|congruence|]. f_equal. apply IH. exact E. Qed.

(** out(i) += h(0); ...; out(i) += h(m - 1) *)
Lemma acc_ok (h : nat -> Z) (body : nat -> list Z -> res (list Z)) i : forall m out o,
  (forall d out o, (d < m)%nat -> nth_error out i = Some o -> body d out = wr out i (o + h d)) -> nth_error out i = Some o ->
  for_up body 0 m out = Ok (upd out i (o + sumn h m)).
Proof.
  induction m as [|m IH]; intros out o Hb Ho.
  - cbn. unfold sumn. cbn. rewrite Z.add_0_r, upd_self by exact Ho. reflexivity.
  - replace (S m) with (m + 1)%nat by lia. rewrite for_up_app. rewrite (IH out o); [|intros; apply Hb; [lia|assumption]|exact Ho]. cbn [bind for_up plus].
    assert (L : (i < length out)%nat) by (apply nth_error_Some; congruence).
    rewrite (Hb m _ (o + sumn h m)) by (try lia; apply nth_error_upd_same; exact L).
    rewrite wr_ok by (rewrite upd_length; exact L). cbn [bind]. rewrite upd_upd. rewrite Nat.add_1_r, sumn_S. do 2 f_equal. lia.
Qed.

Lemma fill_ok (val : nat -> Z) (body : nat -> list Z -> res (list Z)) n :
  (forall i out, (i < n)%nat -> length out = n -> nth_error out i = Some 0 -> body i out = Ok (upd out i (val i))) ->
  for_up body 0 n (repeat 0 n) = Ok (map val (seq 0 n)).
Proof.
  intros Hb.
  destruct (for_up_inv (fun k out => length out = n /\ (forall q, (q < n)%nat -> nth_error out q = Some (if (q <? k)%nat then val q else 0))) body 0 n (repeat 0 n))
    as (out & E & L & Hout).
  - rewrite repeat_length. split; [reflexivity|]. intros q Hq. cbn. apply nth_error_repeat. exact Hq.
  - intros i out Hi (L & Ho). exists (upd out i (val i)). split.
    + apply Hb; [lia|exact L|]. rewrite Ho by lia. rewrite Nat.ltb_irrefl. reflexivity.
    + rewrite upd_length. split; [exact L|]. intros q Hq. destruct (Nat.eq_dec q i) as [->|Hne].
      * rewrite nth_error_upd_same by lia. replace (i <? S i)%nat with true by (symmetry; apply Nat.ltb_lt; lia). reflexivity.
      * rewrite nth_error_upd_other by lia. rewrite Ho by exact Hq. destruct (Nat.ltb_spec q i), (Nat.ltb_spec q (S i)); try reflexivity; lia.
  - rewrite E. f_equal. apply nth_error_ext. intros q. destruct (Nat.lt_ge_cases q n) as [Hq|Hq].
    + rewrite Hout by exact Hq. cbn [plus]. replace (q <? n)%nat with true by (symmetry; apply Nat.ltb_lt; exact Hq).
      rewrite nth_error_map. rewrite (nth_error_nth' (seq 0 n) O) by (rewrite seq_length; exact Hq). rewrite seq_nth by exact Hq. reflexivity.
    + rewrite (proj2 (nth_error_None out q)) by lia. symmetry. apply nth_error_None. rewrite map_length, seq_length. exact Hq.
Qed.

Lemma size_t_id z : 0 <= z < 2 ^ 64 -> to_size_t z = z.
Proof. intros H. unfold to_size_t. apply Z.mod_small. exact H. Qed.

Lemma full_ok e1 e2 : e1 <> [] -> e2 <> [] -> Z.of_nat (length e1 + length e2) < 2 ^ 64 ->
  convolve_full e1 e2 = Ok (map (conv_at e1 e2) (seq 0 (length e1 + length e2 - 1))).
Proof.
  intros H1 H2 Hs. assert (L1 : (0 < length e1)%nat) by (destruct e1; [contradiction|cbn; lia]). assert (L2 : (0 < length e2)%nat) by (destruct e2; [contradiction|cbn; lia]).
  unfold convolve_full. rewrite !size_t_id by lia. replace (Z.to_nat (Z.of_nat (length e1) + Z.of_nat (length e2) - 1)) with (length e1 + length e2 - 1)%nat by lia.
  apply fill_ok. intros i out Hi Lo Ho. cbv zeta.
  set (jmn := if Z.of_nat (length e2) - 1 <=? Z.of_nat i then Z.of_nat i - (Z.of_nat (length e2) - 1) else 0).
  set (jmx := if Z.of_nat i <? Z.of_nat (length e1) - 1 then Z.of_nat i else Z.of_nat (length e1) - 1).
  assert (Ej : jmn = Z.of_nat (i - (length e2 - 1))) by (unfold jmn; destruct (Z.leb_spec (Z.of_nat (length e2) - 1) (Z.of_nat i)); lia).
  assert (Ex : jmx = Z.of_nat (Nat.min i (length e1 - 1))) by (unfold jmx; destruct (Z.ltb_spec (Z.of_nat i) (Z.of_nat (length e1) - 1)); lia).
  set (b := (i - (length e2 - 1))%nat) in *. set (cnt := Z.to_nat (jmx - jmn + 1)).
  rewrite (acc_ok (fun d => nth (b + d) e1 0 * nth (i - (b + d)) e2 0) _ i cnt out 0).
  - rewrite Z.add_0_l. do 2 f_equal. symmetry. apply conv_at_range; try assumption; try reflexivity. unfold cnt. fold b. lia.
  - intros d out' o Hd Ho'. rewrite Ej. replace (Z.of_nat b + Z.of_nat d) with (Z.of_nat (b + d)) by lia.
    replace (Z.of_nat i - Z.of_nat (b + d)) with (Z.of_nat (i - (b + d))) by lia.
    rewrite (rdz_ok e1 (Z.of_nat (b + d)) (nth (b + d) e1 0)) by (try lia; rewrite Nat2Z.id; apply nth_error_nth'; lia). cbn [bind].
    rewrite (rdz_ok e2 (Z.of_nat (i - (b + d))) (nth (i - (b + d)) e2 0)) by (try lia; rewrite Nat2Z.id; apply nth_error_nth'; lia). cbn [bind].
    rewrite (rd_ok _ _ _ Ho'). reflexivity.
  - exact Ho.
Qed.

Lemma full_lemma a v : a <> [] -> v <> [] -> Z.of_nat (length a + length v) < 2 ^ 64 ->
  exists out, convolve 1 a 1 v full = Ok out /\ length out = (length a + length v - 1)%nat /\
    forall k, (k < length out)%nat -> nth_error out k = Some (conv_at a v k).
Proof.
  intros Ha Hv Hs. exists (map (conv_at a v) (seq 0 (length a + length v - 1))). split; [|split].
  - unfold convolve. cbn. destruct (_ <? _).
    + rewrite full_ok by (try assumption; lia). rewrite Nat.add_comm. f_equal. apply map_ext. intros k. apply conv_at_comm.
    + apply full_ok; assumption.
  - rewrite map_length, seq_length. reflexivity.
  - intros k Hk. rewrite map_length, seq_length in Hk. rewrite nth_error_map. rewrite (nth_error_nth' _ O) by (rewrite seq_length; exact Hk). rewrite seq_nth by exact Hk. reflexivity.
Qed.

(** valid: lists of the same length give the sum of the products at equal positions; otherwise the
    shorter is read past its end. *)
Lemma valid_same_ok a v : a <> [] -> length a = length v -> Z.of_nat (length a) < 2 ^ 64 ->
  convolve 1 a 1 v valid = Ok [sumn (fun j => nth j a 0 * nth j v 0) (length a)].
Proof.
  intros Ha L Hs. unfold convolve. cbn. replace (Z.of_nat (length a) <? Z.of_nat (length v)) with false by (symmetry; apply Z.ltb_ge; lia).
  unfold convolve_valid. replace (Z.of_nat (length a) - Z.of_nat (length v) + 1) with 1 by lia. change (Z.to_nat (to_size_t 1)) with 1%nat.
  rewrite Nat2Z.id. cbn [repeat for_up]. rewrite (acc_ok (fun j => nth j a 0 * nth j v 0) _ 0%nat (length v) [0] 0).
  - cbn. rewrite L. reflexivity.
  - intros d out o Hd Ho. rewrite Nat.add_0_r. rewrite (rd_ok a d (nth d a 0)) by (apply nth_error_nth'; lia). cbn [bind].
    rewrite (rd_ok v d (nth d v 0)) by (apply nth_error_nth'; lia). cbn [bind]. rewrite (rd_ok _ _ _ Ho). reflexivity.
  - reflexivity.
Qed.

(** A loop whose body fails once has failed. *)
Lemma for_up_ub {St} (P : St -> Prop) (body : nat -> St -> res St) n i s :
  (i < n)%nat -> P s -> (forall k s, (k < i)%nat -> P s -> (exists s', body k s = Ok s' /\ P s') \/ body k s = UB) -> (forall s, P s -> body i s = UB) ->
  for_up body 0 n s = UB.
Proof.
  intros Hi HP Hk HU. replace n with (i + S (n - i - 1))%nat by lia. rewrite for_up_app.
  assert (G : forall m, (m <= i)%nat -> (exists s', for_up body 0 m s = Ok s' /\ P s') \/ for_up body 0 m s = UB).
  { induction m as [|m IH]; intros Hm; [left; exists s; split; [reflexivity|exact HP]|].
    replace (S m) with (m + 1)%nat by lia. rewrite for_up_app. destruct (IH ltac:(lia)) as [(s' & E & HP')|E]; rewrite E; cbn [bind]; [|right; reflexivity].
    cbn [for_up plus]. destruct (Hk m s' ltac:(lia) HP') as [(s'' & E' & HP'')|E']; rewrite E'; cbn [bind]; [left; eauto|right; reflexivity]. }
  destruct (G i ltac:(lia)) as [(s' & E & HP')|E]; rewrite E; cbn [bind]; [|reflexivity]. cbn [for_up plus]. rewrite HU by exact HP'. reflexivity.
Qed.

Lemma valid_long_ub e1 e2 : e2 <> [] -> (length e2 < length e1)%nat -> Z.of_nat (length e1) < 2 ^ 64 -> convolve_valid e1 e2 = UB.
Proof.
  intros H2 L Hs. assert (L2 : (0 < length e2)%nat) by (destruct e2; [contradiction|cbn; lia]).
  unfold convolve_valid. rewrite size_t_id by lia. set (n := Z.to_nat (Z.of_nat (length e1) - Z.of_nat (length e2) + 1)). rewrite Nat2Z.id.
  assert (Hbody : forall i out j, (i < n)%nat -> length out = n -> (j < length e2)%nat -> (j + i < length e2)%nat ->
    exists out', (let* x := rd e1 j in let* y := rd e2 (j + i) in let* o := rd out i in wr out i (o + x * y)) = Ok out' /\ length out' = n).
  { intros i out j Hi Lo Hj Hji. rewrite (rd_ok e1 j (nth j e1 0)) by (apply nth_error_nth'; lia). cbn [bind].
    rewrite (rd_ok e2 (j + i) (nth (j + i) e2 0)) by (apply nth_error_nth'; lia). cbn [bind].
    rewrite (rd_ok out i (nth i out 0)) by (apply nth_error_nth'; lia). cbn [bind]. rewrite wr_ok by lia. eexists. split; [reflexivity|]. rewrite upd_length. exact Lo. }
  apply (for_up_ub (fun out => length out = n) _ n 1%nat); [lia|apply repeat_length| |].
  - intros i out Hi Lo. left. destruct (for_up_inv (fun _ out => length out = n) (fun j out => let* x := rd e1 j in let* y := rd e2 (j + i) in let* o := rd out i in wr out i (o + x * y)) 0 (length e2) out) as (out' & E & L'); [exact Lo| |eauto].
    intros j o Hj Lo'. apply Hbody; lia.
  - intros out Lo. apply (for_up_ub (fun out => length out = n) _ (length e2) (length e2 - 1)%nat); [lia|exact Lo| |].
    + intros j o Hj Lo'. left. apply Hbody; lia.
    + intros o Lo'. rewrite (rd_ok e1 (length e2 - 1) (nth (length e2 - 1) e1 0)) by (apply nth_error_nth'; lia). cbn [bind].
      unfold rd at 1. rewrite (proj2 (nth_error_None e2 (length e2 - 1 + 1))) by lia. reflexivity.
Qed.
Lemma valid_lemma a v : a <> [] -> v <> [] -> length a <> length v -> Z.of_nat (length a) < 2 ^ 64 -> Z.of_nat (length v) < 2 ^ 64 -> convolve 1 a 1 v valid = UB.
Proof.
  intros Ha Hv L H1 H2. unfold convolve. cbn. destruct (Z.ltb_spec (Z.of_nat (length a)) (Z.of_nat (length v))); apply valid_long_ub; try assumption; lia.
Qed.

Lemma valid_partial_lemma a v : a <> [] -> length a = length v -> rev v = v -> Z.of_nat (length a) < 2 ^ 64 ->
  convolve 1 a 1 v valid = Ok [conv_at a v (length a - 1)].
Proof.
  intros Ha L Hr Hs. rewrite valid_same_ok by assumption. do 2 f_equal. assert (L1 : (0 < length a)%nat) by (destruct a; [contradiction|cbn; lia]).
  rewrite (conv_at_range a v (length a - 1) 0 (length a)) by lia. apply sumn_ext. intros j Hj. cbn [plus]. f_equal.
  rewrite <- Hr at 1. rewrite rev_nth by lia. f_equal. lia.
Qed.
