(** Proofs about the accumulation loops, on flat positions. *)
From Coq Require Import List ZArith Lia Bool.
From Verif Require Import Prelude PreludeFacts Strides_Model Strides_Spec Accum_Model.
Import ListNotations.
Open Scope Z_scope.

Lemma for_up_noop {S} (body : nat -> S -> res S) s : (forall i, body i s = Ok s) -> forall n start, for_up body start n s = Ok s.
Proof. intros H. induction n as [|n IH]; intros start; [reflexivity|]. cbn [for_up]. rewrite H. cbn [bind]. apply IH. Qed.

Section Flat.
Context {R : Type} (f : R -> R -> R) (g : R -> R) (A n B : nat).
Hypothesis Hn : (0 < n)%nat.
Variable X0 : nat -> R.

Definition Xg (p : nat) : R := if (p mod (n * B) <? B)%nat then g (X0 p) else X0 p.

Definition holds (data : list R) (v : nat -> R) : Prop :=
  length data = (A * (n * B))%nat /\ forall p, (p < A * (n * B))%nat -> nth_error data p = Some (v p).

Lemma holds_wr data v p x : holds data v -> (p < A * (n * B))%nat ->
  exists d, wrz data (Z.of_nat p) x = Ok d /\ holds d (fun q => if (q =? p)%nat then x else v q).
Proof.
  intros [Hl Hv] Hp. eexists. split; [apply wrz_ok; lia|]. split; [rewrite upd_length; exact Hl|].
  intros q Hq. rewrite Nat2Z.id. destruct (Nat.eqb_spec q p) as [ -> |Hne].
  - apply nth_error_upd_same. lia.
  - rewrite nth_error_upd_other by auto. apply Hv, Hq.
Qed.

Lemma holds_rd data v p : holds data v -> (p < A * (n * B))%nat -> rdz data (Z.of_nat p) = Ok (v p).
Proof. intros [Hl Hv] Hp. apply rdz_ok; [lia|]. rewrite Nat2Z.id. apply Hv, Hp. Qed.

Lemma holds_ext data v w : (forall p, (p < A * (n * B))%nat -> v p = w p) -> holds data v -> holds data w.
Proof. intros H [Hl Hv]. split; [exact Hl|]. intros p Hp. rewrite <- H by exact Hp. apply Hv, Hp. Qed.

Lemma block_mod i j : (j < n * B)%nat -> ((i * (n * B) + j) mod (n * B) = j)%nat.
Proof. intros H. rewrite Nat.add_comm, Nat.mod_add by lia. apply Nat.mod_small, H. Qed.

Lemma block_bound i j : (i < A)%nat -> (j < n * B)%nat -> (i * (n * B) + j < A * (n * B))%nat.
Proof. intros Hi Hj. nia. Qed.

(** ** The initialisation pass *)
Definition Xi (i j p : nat) : R := if ((p mod (n * B) <? B) && (p <? i * (n * B) + j))%nat then g (X0 p) else X0 p.

Lemma init_loop_ok os is data : (A <= 1)%nat \/ os = Z.of_nat (n * B) -> (B <= 1)%nat \/ is = 1 -> holds data X0 ->
  exists d, init_loop g A B os is data = Ok d /\ holds d Xg.
Proof.
  intros Hos His H0. unfold init_loop.
  destruct (Nat.eq_dec B 0) as [HB|HB].
  { exists data. split.
    - apply for_up_noop. intros i. rewrite HB. reflexivity.
    - eapply holds_ext; [|exact H0]. intros p Hp. rewrite HB in Hp. lia. }
  assert (Hnb : (n * B <> 0)%nat) by nia.
  destruct (for_up_inv (fun i d => holds d (Xi i 0))
    (fun i data => let* '(_, data) := for_up (fun _ '(pos, data) =>
        let* x := rdz data pos in let* data := wrz data pos (g x) in Ok (pos + is, data)) 0 B (Z.of_nat i * os, data) in Ok data)
    0 A data) as (d & E & Hd).
  - eapply holds_ext; [|exact H0]. intros p Hp. unfold Xi. cbn. rewrite andb_false_r. reflexivity.
  - intros i d [_ Hi] Hd.
    assert (Epos : Z.of_nat i * os = Z.of_nat (i * (n * B))) by (destruct Hos as [Ha| -> ]; [assert (i = 0)%nat by lia; subst i; reflexivity|lia]).
    rewrite Epos.
    destruct (for_up_inv (fun j '(pos, d) => ((j < B)%nat -> pos = Z.of_nat (i * (n * B) + j)) /\ holds d (Xi i j))
      (fun _ '(pos, data) => let* x := rdz data pos in let* data := wrz data pos (g x) in Ok (pos + is, data))
      0 B (Z.of_nat (i * (n * B)), d)) as ([pos d'] & E & _ & Hd').
    + split; [intros; lia|exact Hd].
    + intros j [pos d1] [_ Hj] [Hp Hd1]. cbn in Hj. specialize (Hp Hj). subst pos.
      assert (HjB : (j < n * B)%nat) by nia. pose proof (block_bound i j Hi HjB) as Hb.
      rewrite (holds_rd _ _ _ Hd1 Hb). cbn [bind]. destruct (holds_wr _ _ _ (g (Xi i j (i * (n * B) + j))) Hd1 Hb) as (d2 & E2 & Hd2).
      rewrite E2. cbn [bind]. eexists. split; [reflexivity|]. split.
      * intros Hj'. destruct His as [His| -> ]; lia.
      * eapply holds_ext; [|exact Hd2]. intros p Hp. cbv beta. unfold Xi. destruct (Nat.eqb_spec p (i * (n * B) + j)) as [ -> |Hne].
        -- rewrite block_mod by exact HjB. replace (j <? B)%nat with true by (symmetry; apply Nat.ltb_lt; exact Hj).
           rewrite Nat.ltb_irrefl. replace (_ <? _)%nat with true by (symmetry; apply Nat.ltb_lt; lia). reflexivity.
        -- destruct (p mod (n * B) <? B)%nat; [|reflexivity]. cbn [andb].
           destruct (Nat.ltb_spec p (i * (n * B) + j)), (Nat.ltb_spec p (i * (n * B) + S j)); reflexivity || lia.
    + rewrite E. cbn [bind]. eexists. split; [reflexivity|]. eapply holds_ext; [|exact Hd'].
      intros p Hp. unfold Xi. destruct (Nat.ltb_spec (p mod (n * B)) B) as [Hm|Hm]; [|reflexivity]. cbn [andb plus].
      pose proof (Nat.div_mod p (n * B) Hnb) as Dm. set (q := (p / (n * B))%nat) in *. set (r := (p mod (n * B))%nat) in *.
      destruct (Nat.ltb_spec p (i * (n * B) + B)), (Nat.ltb_spec p (S i * (n * B) + 0)); try reflexivity; exfalso; [nia|].
      assert (q <= i)%nat by nia. nia.
  - exists d. split; [exact E|]. eapply holds_ext; [|exact Hd]. intros p Hp. unfold Xi, Xg. cbn [plus].
    replace (p <? A * (n * B) + 0)%nat with true by (symmetry; apply Nat.ltb_lt; lia). rewrite andb_true_r. reflexivity.
Qed.

(** ** The accumulation *)
Variable X : nat -> R.
Definition Ff (p : nat) : R :=
  let k := ((p mod (n * B)) / B)%nat in
  fold_left (fun a t => f a (X (p - k * B + t * B)%nat)) (seq 1 k) (X (p - k * B)%nat).

Lemma Ff_first p : (p mod (n * B) < B)%nat -> Ff p = X p.
Proof. intros H. unfold Ff. rewrite Nat.div_small by exact H. cbn. rewrite Nat.sub_0_r. reflexivity. Qed.

Lemma Ff_next i j : (B <> 0)%nat -> (j + B < n * B)%nat -> Ff (i * (n * B) + (j + B)) = f (Ff (i * (n * B) + j)) (X (i * (n * B) + (j + B))).
Proof.
  intros HB Hj. unfold Ff. rewrite !block_mod by lia.
  set (k := (j / B)%nat). assert (Ek : ((j + B) / B = S k)%nat) by (replace (j + B)%nat with (j + 1 * B)%nat by lia; rewrite Nat.div_add by exact HB; unfold k; lia). rewrite Ek. assert (Hk : (k * B <= j)%nat) by (unfold k; rewrite Nat.mul_comm; apply Nat.mul_div_le; exact HB).
  rewrite seq_S, fold_left_app. cbn [fold_left plus].
  replace (i * (n * B) + (j + B) - S k * B)%nat with (i * (n * B) + j - k * B)%nat by nia.
  replace (i * (n * B) + j - k * B + S k * B)%nat with (i * (n * B) + (j + B))%nat by nia. reflexivity.
Qed.

Definition Xa (i j p : nat) : R := if (p <? i * (n * B) + j + B)%nat then Ff p else X p.

Lemma accum_loop_ok data : (n <> 1)%nat -> holds data X -> exists d, accum_loop f A (n * B - B) (Z.of_nat B) data = Ok d /\ holds d Ff.
Proof.
  intros Hn1 H0. unfold accum_loop.
  destruct (Nat.eq_dec B 0) as [HB|HB].
  { assert (E : for_up (fun _ '(pos, data) => let* '(pos, data) := for_up (fun _ '(pos, data) =>
        let* a := rdz data pos in let* b := rdz data (pos + Z.of_nat B) in let* data := wrz data (pos + Z.of_nat B) (f a b) in
        Ok (pos + 1, data)) 0 (n * B - B) (pos, data) in Ok (pos + Z.of_nat B, data)) 0 A (0, data) = Ok (0, data)).
    { apply for_up_noop. intros i. rewrite HB. replace (n * 0 - 0)%nat with 0%nat by lia. reflexivity. }
    rewrite E. cbn [bind]. exists data. split; [reflexivity|]. eapply holds_ext; [|exact H0]. intros p Hp. rewrite HB in Hp. lia. }
  assert (Hnb : (n * B <> 0)%nat) by nia.
  destruct (for_up_inv (fun i '(pos, d) => pos = Z.of_nat (i * (n * B)) /\ holds d (Xa i 0))
    (fun _ '(pos, data) => let* '(pos, data) := for_up (fun _ '(pos, data) =>
        let* a := rdz data pos in let* b := rdz data (pos + Z.of_nat B) in let* data := wrz data (pos + Z.of_nat B) (f a b) in
        Ok (pos + 1, data)) 0 (n * B - B) (pos, data) in Ok (pos + Z.of_nat B, data)) 0 A (0, data)) as ([pos d] & E & _ & Hd).
  - split; [reflexivity|]. eapply holds_ext; [|exact H0]. intros p Hp. unfold Xa. cbn [Nat.mul plus].
    destruct (Nat.ltb_spec p B) as [Hlt|]; [|reflexivity]. symmetry. apply Ff_first. rewrite Nat.mod_small by nia. exact Hlt.
  - intros i [pos d] [_ Hi] [ -> Hd]. cbn in Hi.
    destruct (for_up_inv (fun j '(pos, d) => pos = Z.of_nat (i * (n * B) + j) /\ holds d (Xa i j))
      (fun _ '(pos, data) => let* a := rdz data pos in let* b := rdz data (pos + Z.of_nat B) in let* data := wrz data (pos + Z.of_nat B) (f a b) in
        Ok (pos + 1, data)) 0 (n * B - B) (Z.of_nat (i * (n * B)), d)) as ([pos d'] & E & Ep & Hd').
    + split; [f_equal; lia|exact Hd].
    + intros j [pos d1] [_ Hj] [ -> Hd1]. cbn in Hj.
      assert (Hj2 : (j + B < n * B)%nat) by lia. pose proof (block_bound i (j + B) Hi Hj2) as Hb.
      rewrite (holds_rd _ _ _ Hd1) by lia. cbn [bind].
      replace (Z.of_nat (i * (n * B) + j) + Z.of_nat B) with (Z.of_nat (i * (n * B) + (j + B))) by lia.
      rewrite (holds_rd _ _ _ Hd1 Hb). cbn [bind].
      destruct (holds_wr _ _ _ (f (Xa i j (i * (n * B) + j)) (Xa i j (i * (n * B) + (j + B)))) Hd1 Hb) as (d2 & E2 & Hd2).
      rewrite E2. cbn [bind]. eexists. split; [reflexivity|]. split; [lia|]. eapply holds_ext; [|exact Hd2].
      intros p Hp. cbv beta. unfold Xa. destruct (Nat.eqb_spec p (i * (n * B) + (j + B))) as [ -> |Hne].
      * replace (i * (n * B) + j <? i * (n * B) + j + B)%nat with true by (symmetry; apply Nat.ltb_lt; lia).
        replace (i * (n * B) + (j + B) <? i * (n * B) + j + B)%nat with false by (symmetry; apply Nat.ltb_ge; lia).
        replace (i * (n * B) + (j + B) <? i * (n * B) + S j + B)%nat with true by (symmetry; apply Nat.ltb_lt; lia).
        symmetry. apply Ff_next; assumption.
      * destruct (Nat.ltb_spec p (i * (n * B) + j + B)), (Nat.ltb_spec p (i * (n * B) + S j + B)); reflexivity || lia.
    + rewrite E. cbn [bind]. eexists. split; [reflexivity|]. split; [cbn in Ep; nia|]. eapply holds_ext; [|exact Hd'].
      intros p Hp. unfold Xa. cbn [plus]. replace (i * (n * B) + (n * B - B) + B)%nat with (S i * (n * B))%nat by nia.
      destruct (Nat.ltb_spec p (S i * (n * B))), (Nat.ltb_spec p (S i * (n * B) + 0 + B)); try reflexivity; try lia.
      symmetry. apply Ff_first. replace p with (S i * (n * B) + (p - S i * (n * B)))%nat by lia. rewrite block_mod by nia. lia.
  - rewrite E. cbn [bind]. exists d. split; [reflexivity|]. eapply holds_ext; [|exact Hd]. intros p Hp. unfold Xa. cbn [plus].
    destruct (Nat.ltb_spec p (A * (n * B) + 0 + B)); [reflexivity|lia].
Qed.

Lemma Ff_at a k b : (k < n)%nat -> (b < B)%nat ->
  Ff (a * (n * B) + (k * B + b)) = fold_left (fun v t => f v (X (a * (n * B) + (t * B + b))%nat)) (seq 1 k) (X (a * (n * B) + b)%nat).
Proof.
  intros Hk Hb. unfold Ff. rewrite block_mod by nia.
  assert (E : ((k * B + b) / B = k)%nat) by (rewrite Nat.add_comm, Nat.div_add by lia; rewrite Nat.div_small by exact Hb; reflexivity).
  rewrite E. replace (a * (n * B) + (k * B + b) - k * B)%nat with (a * (n * B) + b)%nat by lia.
  revert k Hk E. assert (forall l v, fold_left (fun v0 t => f v0 (X (a * (n * B) + b + t * B)%nat)) l v = fold_left (fun v0 t => f v0 (X (a * (n * B) + (t * B + b))%nat)) l v) as H.
  { induction l as [|t l IH]; intros v; [reflexivity|]. cbn. rewrite IH. do 3 f_equal. lia. }
  intros. apply H.
Qed.
End Flat.
