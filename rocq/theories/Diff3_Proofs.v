From Coq Require Import List ZArith Bool Lia.
From Verif Require Import Prelude PreludeFacts Strides_Model Strides_Spec Strides_Proofs Access_Model Broadcast_Model Broadcast_Spec Broadcast_Proofs Slice_Model Slice_Spec View_Spec SView_Model SView_Spec
  Reshape_Model Reshape_Proofs Container_Proofs Manip_Model Stepper_Model Stepper_Spec Container_Model Container_Spec Assign_Model Assign_Spec
  Semantic_Model Semantic_Spec Semantic_Proofs Semantic2_Proofs Semantic3_Proofs Stats_Model Diff_Model Diff_Spec Diff_Proofs Diff2_Proofs.
Import ListNotations.
Open Scope Z_scope.

Lemma broadcast_same s : broadcast_of [s; s] s.
Proof.
  split; [intros t [<-|[<-|[]]]; lia|]. split; [right; exists s; split; [left; reflexivity|reflexivity]|].
  intros k. split; [intros t [<-|[<-|[]]]; auto|]. right. exists s. split; [left; reflexivity|reflexivity].
Qed.
Lemma same_unique s t : broadcast_of [s; s] t -> t = s.
Proof. intros H. eapply (broadcast_of_unique [s; s] [s; s]); [tauto|exact H|apply broadcast_same]. Qed.
Lemma compatible_same s : compatible [s; s].
Proof. intros a b k [<-|[<-|[]]] [<-|[<-|[]]]; auto. Qed.

Section Whole.
Context {V : Type}.
Context (g : Z -> setup) (SL : layout) (D : option nat) (DL T : layout) (rs : list V -> Z -> list V) (v : V).
Context (Hg : setups_ok g) (HDL : is_order DL) (HT : is_order T) (Hrs : resizes rs).

Lemma diff_step_ok (sub : V -> V -> V) (ad : cont V) p sh f : well_formed SL D ad -> (p < length sh)%nat -> Forall (fun n => n < 2 ^ 63) sh -> contains ad sh f ->
  exists ad', (forall r, diff_step g SL D DL T rs v sub (Z.of_nat p) ad r <-> r = Done ad') /\ well_formed SL D ad' /\
    contains ad' (at_axis p (fun n => Z.max 0 (n - 1)) sh) (fun ix => sub (f (further p 1 ix)) (f ix)).
Proof.
  intros Hw Hp Hbig (<- & Hf).
  destruct (diff_operand_ok g SL D T v HT sub ad p f Hw Hp Hbig (conj eq_refl Hf)) as (e & Ee & Hv & Hs & Hx).
  set (sh' := at_axis p (fun n => Z.max 0 (n - 1)) (ct_shape ad)) in *.
  assert (HD : rank_matches D e).
  { unfold rank_matches. pose proof Hw as (_ & _ & _ & _ & _ & _ & Hr & _). destruct D as [n|]; [|exact I]. intros s Hb. rewrite Hs in Hb.
    rewrite (same_unique _ _ Hb). unfold sh'. rewrite at_axis_length. exact Hr. }
  destruct (proj1 (operator_assign_ok g SL D DL rs v Hg HDL Hrs ad e Hw Hv HD)) as (ad' & Hiff & Hw' & Hb & Hval).
  { rewrite Hs. apply compatible_same. }
  rewrite Hs in Hb. pose proof (same_unique _ _ Hb) as Esh.
  exists ad'. split; [intros r; unfold diff_step; rewrite Ee; apply Hiff|]. split; [exact Hw'|]. split; [exact Esh|].
  intros ix Hix. destruct (Hval ix ltac:(rewrite Esh; exact Hix)) as (x & X1 & X2). rewrite (Hx ix Hix) in X1. injection X1 as <-. exact X2.
Qed.

Lemma differences_S (sub : V -> V -> V) p n : forall f ix, differences sub p (S n) f ix = differences sub p n (fun jx => sub (f (further p 1 jx)) (f jx)) ix.
Proof.
  induction n as [|n IH]; intros f ix; [reflexivity|]. cbn [differences] in *. rewrite !IH. reflexivity.
Qed.

Lemma diff_loop_ok (sub : V -> V -> V) p n : forall (ad : cont V) sh f, well_formed SL D ad -> (p < length sh)%nat -> Forall (fun n => n < 2 ^ 63) sh -> contains ad sh f ->
  exists ad', (forall r, diff_loop g SL D DL T rs v sub (Z.of_nat p) n ad r <-> r = Done ad') /\ well_formed SL D ad' /\
    contains ad' (match n with O => sh | _ => at_axis p (fun k => Z.max 0 (k - Z.of_nat n)) sh end) (differences sub p n f).
Proof.
  induction n as [|n IH]; intros ad sh f Hw Hp Hbig Hc.
  - exists ad. split; [intros r; reflexivity|]. split; assumption.
  - destruct (diff_step_ok sub ad p sh f Hw Hp Hbig Hc) as (ad1 & H1 & Hw1 & Hc1).
    assert (Hn : 0 <= nth p sh 0).
    { destruct Hw as (Hs & _). destruct Hc as (<- & _). unfold is_shape in Hs. rewrite Forall_forall in Hs. apply Hs. apply nth_In. exact Hp. }
    assert (Hn2 : nth p sh 0 < 2 ^ 63) by (rewrite Forall_forall in Hbig; apply Hbig, nth_In; exact Hp).
    assert (Hbig1 : Forall (fun n => n < 2 ^ 63) (at_axis p (fun n => Z.max 0 (n - 1)) sh)).
    { apply at_axis_all; [exact Hp|exact Hbig|]. cbn beta. change (2 ^ 63) with 9223372036854775808 in *. lia. }
    destruct (IH ad1 _ _ Hw1 ltac:(rewrite at_axis_length; exact Hp) Hbig1 Hc1) as (ad2 & H2 & Hw2 & Es & Hf).
    exists ad2. split; [|split; [exact Hw2|]].
    + intros r. cbn [diff_loop]. split.
      * intros (s & Hs & Hr). apply H1 in Hs. subst s. apply H2. exact Hr.
      * intros ->. exists (Done ad1). split; [apply H1; reflexivity|apply H2; reflexivity].
    + assert (Esh : match n with O => at_axis p (fun k => Z.max 0 (k - 1)) sh | _ => at_axis p (fun k => Z.max 0 (k - Z.of_nat n)) (at_axis p (fun k => Z.max 0 (k - 1)) sh) end =
                    at_axis p (fun k => Z.max 0 (k - Z.of_nat (S n))) sh).
      { destruct n as [|m]; [apply at_axis_ext; [exact Hp|f_equal; lia]|]. rewrite at_axis_twice. apply at_axis_ext; [exact Hp|lia]. }
      rewrite Esh in Es, Hf. split; [exact Es|]. intros ix Hix. rewrite (Hf ix Hix). f_equal. symmetry. apply differences_S.
Qed.

Lemma construct_closed (a : aexp V) sh f : SL <> any -> match D with Some n => length sh = n | None => True end -> has_values g a sh f ->
  exists ad, (forall r, c_construct g SL D DL rs v a r <-> r = Done ad) /\ well_formed SL D ad /\ contains ad sh f.
Proof.
  intros HSL HD (Hv & Hown & Hb & Hval).
  assert (Hc : compatible (operand_shapes a)).
  { destruct Hb as (_ & _ & Hk). intros s t k Hs Ht. destruct (Hk k) as (H & _). destruct (H s Hs), (H t Ht); auto. right. right. congruence. }
  assert (Hr : rank_matches D a).
  { unfold rank_matches. destruct D as [n|]; [|exact I]. intros s Hs. rewrite <- HD. f_equal. eapply broadcast_of_unique; eauto. tauto. }
  destruct (c_assign_closed g SL D DL rs Hg HDL Hrs (c_fresh SL D v) a [] (fresh_wf SL D v HSL) Hv (own_none_closed a Hown) Hr) as (ad & Hiff & Hw & Hb' & Hh); [exact Hc|].
  assert (Esh : ct_shape ad = sh) by (eapply broadcast_of_unique; eauto; tauto).
  exists ad. split; [exact Hiff|]. split; [exact Hw|]. split; [exact Esh|]. intros ix Hix.
  destruct (Hh ix ltac:(rewrite Esh; exact Hix)) as (x & X1 & X2). rewrite (Hval ix Hix) in X1. injection X1 as <-. exact X2.
Qed.

Lemma axis_position dim axis p : Z.of_nat dim < 2 ^ 64 -> axis_names dim axis p -> Reduce_Model.normalize_axis dim axis = Z.of_nat p.
Proof.
  intros Hd (Hp & [ -> | -> ]); unfold Reduce_Model.normalize_axis.
  - destruct (Z.of_nat p <? 0) eqn:E; [apply Z.ltb_lt in E; lia|reflexivity].
  - replace (_ <? 0) with true by (symmetry; apply Z.ltb_lt; lia). unfold to_size_t. rewrite Z.mod_small; lia.
Qed.

Lemma wf_size (ad : cont V) : well_formed SL D ad -> c_size SL ad = prod (ct_shape ad).
Proof. intros (_ & _ & H & _). unfold c_size. destruct (negb _); [exact H|apply compute_size_prod]. Qed.

Lemma upd_at_axis p x : forall l, (p < length l)%nat -> upd l p x = at_axis p (fun _ => x) l.
Proof. induction p; intros [|y l] H; cbn in *; try lia; f_equal. apply IHp. lia. Qed.

Lemma extent_le_prod p : forall sh, is_shape sh -> prod sh <> 0 -> (p < length sh)%nat -> nth p sh 0 <= prod sh.
Proof.
  clear. induction p as [|p IHp]; intros [|n sh] Hs H0 Hp; cbn in Hp; try lia; rewrite prod_cons in *; inversion Hs as [|? ? Hn Hs']; subst;
    pose proof (prod_nn sh Hs'); assert (0 < prod sh) by nia; cbn [nth].
  - nia.
  - specialize (IHp sh Hs' ltac:(lia) ltac:(lia)). assert (1 <= n) by nia. nia.
Qed.

Lemma resize_branch (sub : V -> V -> V) n axis p (ad : cont V) : well_formed SL D ad -> Z.of_nat (length (ct_shape ad)) < 2 ^ 64 -> axis_names (length (ct_shape ad)) axis p -> prod (ct_shape ad) < n ->
  exists ad', (forall r, diff_from g SL D DL T rs v sub n axis ad r <-> r = Done ad') /\ well_formed SL D ad' /\ ct_shape ad' = at_axis p (fun _ => 0) (ct_shape ad).
Proof.
  intros Hw Hd Ha Hn. pose proof Ha as (Hp & _). unfold diff_from. rewrite (axis_position _ _ _ Hd Ha), (wf_size _ Hw).
  replace (n <=? prod (ct_shape ad)) with false by (symmetry; apply Z.leb_gt; lia).
  rewrite wrz_ok by lia. rewrite Nat2Z.id, upd_at_axis by exact Hp. cbn [bind].
  destruct (resize_wf SL D DL rs Hrs HDL ad (at_axis p (fun _ => 0) (ct_shape ad)) Hw) as (ad' & E & Hw' & Es).
  - pose proof Hw as (Hs & _). apply at_axis_all; [exact Hp|exact Hs|lia].
  - pose proof Hw as (_ & _ & _ & _ & _ & _ & HD & _). destruct D; [|exact I]. rewrite at_axis_length. exact HD.
  - exists ad'. rewrite E. split; [intros r; reflexivity|]. split; assumption.
Qed.

Lemma diff_lemma (sub : V -> V -> V) (a : aexp V) n axis sh f p : SL <> any -> match D with Some k => length sh = k | None => True end -> has_values g a sh f -> is_shape sh ->
  Forall (fun n => n < 2 ^ 63) sh -> Z.of_nat (length sh) < 2 ^ 64 -> axis_names (length sh) axis p -> 0 <= n -> prod sh <> 0 \/ n = 0 \/ nth p sh 0 <= 0 ->
  exists ad, (forall r, diff g SL D DL T rs v sub a n axis r <-> r = Done ad) /\ well_formed SL D ad /\
    contains ad (at_axis p (fun k => Z.max 0 (k - n)) sh) (differences sub p (Z.to_nat n) f).
Proof.
  intros HSL HD Ha Hs Hbig Hd Hax Hn Hcase.
  destruct (construct_closed a sh f HSL HD Ha) as (ad0 & H0 & Hw0 & Hc0). pose proof Hc0 as (E0 & _). pose proof Hax as (Hp & _).
  assert (Hpn : 0 <= nth p sh 0) by (unfold is_shape in Hs; rewrite Forall_forall in Hs; apply Hs, nth_In; exact Hp).
  assert (G : forall ad', (forall r, diff_from g SL D DL T rs v sub n axis ad0 r <-> r = Done ad') -> forall r, diff g SL D DL T rs v sub a n axis r <-> r = Done ad').
  { intros ad' H r. unfold diff. split.
    - intros (s & Hs1 & Hs2). apply H0 in Hs1. subst s. apply H. exact Hs2.
    - intros ->. exists (Done ad0). split; [apply H0; reflexivity|apply H; reflexivity]. }
  destruct (Z_lt_le_dec (prod sh) n) as [L|L].
  - destruct (resize_branch sub n axis p ad0 Hw0) as (ad' & H1 & Hw1 & Es); [rewrite E0; exact Hd|rewrite E0; exact Hax|rewrite E0; exact L|].
    exists ad'. split; [apply G; exact H1|]. split; [exact Hw1|]. pose proof (prod_nn sh Hs).
    assert (Ez : ct_shape ad' = at_axis p (fun k => Z.max 0 (k - n)) sh).
    { rewrite Es, E0. apply at_axis_ext; [exact Hp|]. destruct Hcase as [C|[C|C]]; [pose proof (extent_le_prod p sh Hs C Hp)| |]; lia. }
    split; [exact Ez|]. intros ix Hix. exfalso. pose proof (in_at_axis _ _ _ _ Hp Hix) as Hb. cbn beta in Hb.
    destruct Hcase as [C|[C|C]]; [pose proof (extent_le_prod p sh Hs C Hp)| |]; lia.
  - destruct (diff_loop_ok sub p (Z.to_nat n) ad0 sh f Hw0 Hp Hbig Hc0) as (ad' & H1 & Hw1 & Hc1).
    exists ad'. split; [apply G|split; [exact Hw1|]].
    + intros r. unfold diff_from. rewrite E0, (axis_position _ _ _ Hd Hax), (wf_size _ Hw0), E0.
      replace (n <=? prod sh) with true by (symmetry; apply Z.leb_le; lia). apply H1.
    + destruct (Z.to_nat n) as [|m] eqn:Em.
      * assert (n = 0) by lia. subst n. rewrite (at_axis_ext p _ (fun k => k)) by (auto; lia). rewrite at_axis_id by auto. exact Hc1.
      * rewrite (at_axis_ext p (fun k => Z.max 0 (k - n)) (fun k => Z.max 0 (k - Z.of_nat (S m)))) by (auto; f_equal; lia). exact Hc1.
Qed.
End Whole.

(** ** The n-th difference as an alternating sum *)

Lemma further_further p i j ix : further p i (further p j ix) = further p (j + i) ix.
Proof. unfold further. rewrite at_axis_twice. revert ix. induction p; intros [|x ix]; cbn; auto; f_equal; auto. lia. Qed.

Lemma zsum_app a b : zsum (a ++ b) = zsum a + zsum b.
Proof. unfold zsum. induction a; cbn; [reflexivity|]. rewrite IHa. ring. Qed.

Lemma zsum_sub {A} (f h : A -> Z) l : zsum (map f l) - zsum (map h l) = zsum (map (fun x => f x - h x) l).
Proof. unfold zsum. induction l; cbn; [reflexivity|]. lia. Qed.

Lemma zsum_ext {A} (f h : A -> Z) l : (forall x, In x l -> f x = h x) -> zsum (map f l) = zsum (map h l).
Proof. intros H. f_equal. apply map_ext_in. exact H. Qed.

Lemma binomial_over n : forall k, (n < k)%nat -> binomial n k = 0.
Proof. induction n; intros [|k] H; try lia; cbn; [reflexivity|]. rewrite !IHn by lia. reflexivity. Qed.

Lemma even_S n : Nat.even (S n) = negb (Nat.even n).
Proof. rewrite Nat.even_succ, <- Nat.negb_even. reflexivity. Qed.

(** Sums over 0 ... n *)
Lemma zsum_S (h : nat -> Z) n : zsum (map h (seq 0 (S n))) = h 0%nat + zsum (map (fun k => h (S k)) (seq 0 n)).
Proof. cbn [seq map zsum fold_right]. rewrite <- seq_shift, map_map. reflexivity. Qed.
Lemma zsum_last (h : nat -> Z) n : zsum (map h (seq 0 (S n))) = zsum (map h (seq 0 n)) + h n.
Proof. rewrite seq_S, map_app, zsum_app. cbn. lia. Qed.

Lemma binomial_lemma p n (f : list Z -> Z) : forall ix,
  differences Z.sub p n f ix = zsum (map (fun k => alternating n k * binomial n k * f (further p (Z.of_nat k) ix)) (seq 0 (S n))).
Proof.
  induction n as [|n IH]; intros ix.
  - cbn. unfold further. rewrite at_axis_id by (intros; lia). unfold alternating. cbn. lia.
  - cbn [differences]. rewrite !IH.
    rewrite (zsum_S (fun k => alternating (S n) k * binomial (S n) k * f (further p (Z.of_nat k) ix))).
    (* the terms of the second sum, written with one more term, which is 0 *)
    assert (E2 : zsum (map (fun k => alternating n k * binomial n k * f (further p (Z.of_nat k) ix)) (seq 0 (S n))) =
                 alternating n 0 * f (further p 0 ix) + zsum (map (fun k => alternating n (S k) * binomial n (S k) * f (further p (Z.of_nat (S k)) ix)) (seq 0 (S n)))).
    { rewrite zsum_S. rewrite (zsum_last (fun k => alternating n (S k) * binomial n (S k) * f (further p (Z.of_nat (S k)) ix))).
      rewrite (binomial_over n (S n)) by lia. destruct n; cbn [binomial]; change (Z.of_nat 0) with 0; lia. }
    rewrite E2.
    match goal with |- ?a - (?b + ?c) = _ => replace (a - (b + c)) with ((a - c) - b) by ring end.
    rewrite zsum_sub.
    assert (E0 : alternating (S n) 0 * binomial (S n) 0 * f (further p (Z.of_nat 0) ix) = - (alternating n 0 * f (further p 0 ix))).
    { unfold alternating. rewrite !Nat.sub_0_r, even_S. cbn [binomial]. change (Z.of_nat 0) with 0. destruct (Nat.even n); cbn; lia. }
    rewrite E0.
    match goal with |- ?a - ?b = - ?b + ?c => assert (H : a = c); [|lia] end.
    apply zsum_ext. intros k Hk. apply in_seq in Hk. rewrite further_further.
    replace (1 + Z.of_nat k) with (Z.of_nat (S k)) by lia.
    assert (A1 : alternating (S n) (S k) = alternating n k) by reflexivity. rewrite A1. cbn [binomial].
    destruct (Nat.eq_dec k n) as [->|Hkn].
    + rewrite (binomial_over n (S n)) by lia. ring.
    + assert (A2 : alternating n (S k) = - alternating n k).
      { unfold alternating. replace (n - k)%nat with (S (n - S k)) by lia. rewrite even_S. destruct (Nat.even (n - S k)); reflexivity. }
      rewrite A2. ring.
Qed.
