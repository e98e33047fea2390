From Coq Require Import List ZArith Bool Lia Permutation Sorted QArith Qround Lqa.
From Verif Require Import Prelude PreludeFacts Strides_Model Container_Model Manip_Model Sort_Model Sort_Spec Sort5_Proofs Hist_Model Hist_Spec Hist_Proofs Hist2_Proofs.
Import ListNotations.
Open Scope Z_scope.

Lemma q_lt_true x y : q_lt x y = true <-> (x < y)%Q.
Proof.
  unfold q_lt. rewrite negb_true_iff. split; intros H.
  - apply Qnot_le_lt. intros L. apply Qle_bool_iff in L. congruence.
  - destruct (Qle_bool y x) eqn:E; [|reflexivity]. apply Qle_bool_iff in E. lra.
Qed.
Lemma q_lt_false x y : q_lt x y = false <-> (y <= x)%Q.
Proof. unfold q_lt. rewrite negb_false_iff. apply Qle_bool_iff. Qed.
Lemma q_swo l : strict_weak_order q_lt l.
Proof.
  split; [|split].
  - intros x _. apply q_lt_false. lra.
  - intros x y z _ _ _ H1 H2. apply q_lt_true in H1, H2. apply q_lt_true. lra.
  - intros x y z _ _ _ H1 H2 H3 H4. apply q_lt_false in H1, H2, H3, H4. rewrite !q_lt_false. split; lra.
Qed.

Lemma sorted_of_nth {V} (lt : V -> V -> bool) : forall l, (forall i j x y, (i < j)%nat -> nth_error l i = Some x -> nth_error l j = Some y -> lt y x = false) -> sorted lt l.
Proof.
  induction l as [|z l IH]; intros H; [constructor|]. constructor.
  - apply IH. intros i j x y Hij Hx Hy. exact (H (S i) (S j) x y ltac:(lia) Hx Hy).
  - rewrite Forall_forall. intros y Hy. apply In_nth_error in Hy. destruct Hy as (j & Hj). exact (H 0%nat (S j) z y ltac:(lia) eq_refl Hj).
Qed.

Lemma minmax_spec : forall l h w,
  let r := minmax q_lt h w l in
  (fst r <= h)%Q /\ Forall (fun x => (fst r <= x)%Q) l /\ (fst r = h \/ In (fst r) l) /\
  (w <= snd r)%Q /\ Forall (fun x => (x <= snd r)%Q) l /\ (snd r = w \/ In (snd r) l).
Proof.
  unfold minmax. induction l as [|x l IH]; intros h w; cbn [fold_left fst snd].
  { repeat split; try lra; try constructor; reflexivity. }
  specialize (IH (if q_lt x h then x else h) (if q_lt w x then x else w)). cbn zeta in IH.
  set (r := fold_left _ l _) in *. destruct IH as (A1 & A2 & A3 & B1 & B2 & B3). cbn zeta.
  destruct (q_lt x h) eqn:E1; [apply q_lt_true in E1|apply q_lt_false in E1]; destruct (q_lt w x) eqn:E2; try apply q_lt_true in E2; try apply q_lt_false in E2;
    (split; [lra|]; split; [constructor; [lra|exact A2]|]; split; [cbn; intuition congruence|];
     split; [lra|]; split; [constructor; [lra|exact B2]|]; cbn; intuition congruence).
Qed.

Lemma for_up_build {V} (f : nat -> V) n : for_up (fun i acc => bind (Ok (f i)) (fun x => Ok (acc ++ [x]))) 0 n [] = Ok (map f (seq 0 n)).
Proof.
  destruct (for_up_inv (fun k acc => acc = map f (seq 0 k)) (fun i acc => bind (Ok (f i)) (fun x => Ok (acc ++ [x]))) 0 n []) as (r & E & H).
  - reflexivity.
  - intros i acc _ ->. eexists. split; [reflexivity|]. replace (S i) with (i + 1)%nat by lia. rewrite seq_app, map_app. reflexivity.
  - rewrite E, H. reflexivity.
Qed.

Section Equal.
Context (lo hi left right : Q) (bins : nat).
Hypothesis Hlr : (left <= right)%Q.
Hypothesis Hlo : (lo <= left)%Q.
Hypothesis Hhi : (right <= hi)%Q.
Hypothesis Hb : (1 <= bins)%nat.
Let T := type_exact lo hi.
Notation qn := (inject_Z (Z.of_nat bins)).

Lemma qn_pos : (1 <= qn)%Q.
Proof. change 1%Q with (inject_Z 1). rewrite <- Zle_Qle. lia. Qed.

Lemma linspace_exact : exists edges, linspace_edges T left right bins = Ok edges /\ equal_edges left right bins edges.
Proof.
  unfold linspace_edges. cbv zeta.
  set (step := a_div exact _ _).
  assert (Hstep : (step == (right - left) / qn)%Q).
  { unfold step. cbn. unfold a_fmax. cbn. destruct (Qle_bool qn (inject_Z 1)) eqn:E; cbn; [|reflexivity].
    apply Qle_bool_iff in E. pose proof qn_pos. assert (Eq : (qn == 1)%Q) by (change 1%Q with (inject_Z 1) in *; lra). rewrite Eq. reflexivity. }
  set (f := fun i : nat => if (0 <? Z.of_nat bins) && (Z.of_nat i =? Z.of_nat bins) then right else (left + step * inject_Z (Z.of_nat i))%Q).
  exists (map f (seq 0 (bins + 1))). split; [exact (for_up_build f (bins + 1))|].
  split; [rewrite map_length, seq_length; lia|]. intros i e Hi. rewrite nth_error_map in Hi.
  destruct (nth_error (seq 0 (bins + 1)) i) as [k|] eqn:Ek; [|discriminate]. injection Hi as <-.
  assert (Hk : (i < length (seq 0 (bins + 1)))%nat) by (apply nth_error_Some; rewrite Ek; discriminate). rewrite seq_length in Hk.
  apply nth_error_nth with (d := 0%nat) in Ek. rewrite seq_nth in Ek by exact Hk. cbn in Ek. subst k.
  unfold f. rewrite (proj2 (Z.ltb_lt 0 (Z.of_nat bins))) by lia. cbn [andb]. destruct (Z.eqb_spec (Z.of_nat i) (Z.of_nat bins)) as [Ei|Ei].
  - rewrite Ei. pose proof qn_pos. field. lra.
  - rewrite Hstep. ring.
Qed.

Context (edges : list Q).
Hypothesis Ee : equal_edges left right bins edges.
Notation h := ((right - left) / qn)%Q.
Lemma h_nonneg : (0 <= h)%Q.
Proof. pose proof qn_pos. apply Qle_shift_div_l; lra. Qed.
Lemma h_n : (h * qn == right - left)%Q.
Proof. pose proof qn_pos. field. lra. Qed.

Lemma equal_sorted : sorted q_lt edges.
Proof.
  apply sorted_of_nth. intros i j x y Hij Hx Hy. apply q_lt_false. rewrite (proj2 Ee _ _ Hx), (proj2 Ee _ _ Hy).
  assert (inject_Z (Z.of_nat i) <= inject_Z (Z.of_nat j))%Q by (rewrite <- Zle_Qle; lia). pose proof h_nonneg. nra.
Qed.
Lemma equal_edge i : (i <= bins)%nat -> exists e, nth_error edges i = Some e /\ (e == left + inject_Z (Z.of_nat i) * h)%Q.
Proof.
  intros Hi. destruct (nth_error edges i) as [e|] eqn:E; [|apply nth_error_None in E; destruct Ee; lia]. exists e. split; [reflexivity|]. exact (proj2 Ee _ _ E).
Qed.
Lemma equal_bounds : let b := minmax q_lt hi lo edges in (fst b == left)%Q /\ (snd b == right)%Q.
Proof.
  intros b. destruct (minmax_spec edges hi lo) as (A1 & A2 & A3 & B1 & B2 & B3). fold b in A1, A2, A3, B1, B2, B3.
  destruct (equal_edge 0 ltac:(lia)) as (e0 & E0 & Q0). destruct (equal_edge bins ltac:(lia)) as (e1 & E1 & Q1).
  rewrite Forall_forall in A2, B2. pose proof (A2 _ (nth_error_In _ _ E0)) as A. pose proof (B2 _ (nth_error_In _ _ E1)) as B.
  pose proof h_nonneg as Hh. pose proof h_n as Hhn. change (inject_Z (Z.of_nat 0)) with 0%Q in Q0.
  assert (Rng : forall x, In x edges -> (left <= x <= right)%Q).
  { intros x Hx. apply In_nth_error in Hx. destruct Hx as (i & Hi). rewrite (proj2 Ee _ _ Hi).
    assert (i < length edges)%nat by (apply nth_error_Some; rewrite Hi; discriminate). destruct Ee as [L _].
    assert (inject_Z (Z.of_nat i) <= qn)%Q by (rewrite <- Zle_Qle; lia).
    assert (0 <= inject_Z (Z.of_nat i))%Q by (change 0%Q with (inject_Z 0); rewrite <- Zle_Qle; lia). split; nra. }
  split.
  - destruct A3 as [A3|A3]; [rewrite A3 in *; lra|]. pose proof (Rng _ A3). lra.
  - destruct B3 as [B3|B3]; [rewrite B3 in *; lra|]. pose proof (Rng _ B3). lra.
Qed.

Lemma bin_of l' r' x : (l' == left)%Q -> (r' == right)%Q -> (left <= x)%Q -> (x < right)%Q ->
  let b := Qtrunc ((qn * (x - l')) * (1 / (r' - l'))) in
  0 <= b < Z.of_nat bins /\ in_bin q_lt edges (Z.to_nat b) x = true.
Proof.
  intros Hl Hr Hx1 Hx2. cbv zeta. set (t := (qn * (x - l') * (1 / (r' - l')))%Q).
  pose proof qn_pos as Hq. 
  assert (Ht : (t * (right - left) == qn * (x - left))%Q).
  { unfold t. rewrite Hl, Hr. field. lra. }
  assert (T0 : (0 <= t)%Q) by nra. assert (T1 : (t < qn)%Q) by nra.
  unfold Qtrunc. rewrite (proj2 (Qle_bool_iff 0 t)) by exact T0.
  pose proof (Qfloor_le t) as F1. pose proof (Qlt_floor t) as F2. set (b := Qfloor t) in *.
  assert (B0 : 0 <= b). { assert (H : (inject_Z (-1) < inject_Z b)%Q). { rewrite inject_Z_plus in F2. change (inject_Z (-1)) with (-1 # 1)%Q. change (inject_Z 1) with 1%Q in F2. lra. } rewrite <- Zlt_Qlt in H. lia. }
  assert (B1 : b < Z.of_nat bins). { rewrite Zlt_Qlt. lra. }
  split; [lia|].
  destruct (equal_edge (Z.to_nat b) ltac:(lia)) as (e0 & E0 & Q0). destruct (equal_edge (S (Z.to_nat b)) ltac:(lia)) as (e1 & E1 & Q1).
  unfold in_bin. rewrite E0, E1. rewrite Z2Nat.id in Q0 by lia. replace (Z.of_nat (S (Z.to_nat b))) with (b + 1) in Q1 by lia.
  pose proof h_n as Hn'. rewrite inject_Z_plus in Q1, F2. change (inject_Z 1) with 1%Q in Q1, F2.
  assert (X0 : q_lt x e0 = false). { apply q_lt_false. rewrite Q0. assert (inject_Z b * h * qn <= (x - left) * qn)%Q by nra. nra. }
  assert (X1 : q_lt x e1 = true). { apply q_lt_true. rewrite Q1. assert ((x - left) * qn < (inject_Z b + 1) * h * qn)%Q by nra. nra. }
  rewrite X0, X1. reflexivity.
Qed.
End Equal.
