(** Proofs about sorting: what is done to a lane. *)
From Coq Require Import List ZArith Bool Lia Permutation Sorted.
From Verif Require Import Prelude PreludeFacts Strides_Model Strides_Spec Container_Model Container_Spec
  Access_Model Manip_Model Sort_Model Sort_Spec Sort_Proofs.
Import ListNotations.
Open Scope Z_scope.

Lemma swo_incl {A} (lt : A -> A -> bool) l l' : strict_weak_order lt l -> incl l' l -> strict_weak_order lt l'.
Proof. intros (H1 & H2 & H3) I. split; [|split]; intros; eauto. Qed.

(** not less is transitive *)
Lemma nlt_trans {A} (lt : A -> A -> bool) l x y z : strict_weak_order lt l -> In x l -> In y l -> In z l ->
  lt y x = false -> lt z y = false -> lt z x = false.
Proof.
  intros (H1 & H2 & H3) Ix Iy Iz E1 E2. destruct (lt z x) eqn:E; [|reflexivity].
  destruct (lt x y) eqn:E3.
  - rewrite (H2 z x y) in E2 by assumption. discriminate.
  - destruct (lt y z) eqn:E4.
    + rewrite (H2 y z x) in E1 by assumption. discriminate.
    + destruct (H3 x y z) as [_ X]; try assumption. congruence.
Qed.
Lemma lt_nlt {A} (lt : A -> A -> bool) l x y z : strict_weak_order lt l -> In x l -> In y l -> In z l ->
  lt x y = true -> lt z y = false -> lt x z = true.
Proof.
  intros Hs Ix Iy Iz E1 E2. destruct (lt x z) eqn:E; [reflexivity|].
  rewrite (nlt_trans lt l y z x) in E1 by assumption. discriminate.
Qed.
Lemma asym {A} (lt : A -> A -> bool) l x y : strict_weak_order lt l -> In x l -> In y l -> lt x y = true -> lt y x = false.
Proof.
  intros (H1 & H2 & H3) Ix Iy E. destruct (lt y x) eqn:E2; [|reflexivity].
  pose proof (H2 x y x Ix Iy Ix E E2). rewrite H1 in H by exact Ix. discriminate.
Qed.

(** ** partition *)
Lemma parted_perm {A} (lt : A -> A -> bool) j (l l' r : list A) : Permutation l l' -> (length l <= j)%nat ->
  parted lt j (l ++ r) -> parted lt j (l' ++ r).
Proof.
  intros P Hj H x y. specialize (H x y). rewrite firstn_app, skipn_app in *. pose proof (Permutation_length P) as L.
  rewrite firstn_all2, skipn_all2 in * by lia. rewrite <- L. cbn [app] in *. rewrite !in_app_iff in *. intros [Hx|Hx] Hy; apply H; auto.
  left. apply (Permutation_in _ (Permutation_sym P)). exact Hx.
Qed.
Lemma parted_prefix {A} (lt : A -> A -> bool) j (l r : list A) : (j <= length l)%nat -> parted lt j l -> parted lt (length l) (l ++ r) -> parted lt j (l ++ r).
Proof.
  intros Hj H1 H2 x y Hx Hy. rewrite firstn_app in Hx. rewrite skipn_app in Hy. replace (j - length l)%nat with 0%nat in * by lia.
  cbn [firstn skipn] in *. rewrite app_nil_r in Hx. apply in_app_iff in Hy. destruct Hy as [Hy|Hy]; [apply H1; assumption|].
  apply H2.
  - rewrite firstn_app, Nat.sub_diag, firstn_all. cbn [firstn]. rewrite app_nil_r. rewrite <- (firstn_skipn j l). apply in_app_iff. left. exact Hx.
  - rewrite skipn_app, Nat.sub_diag, skipn_all. exact Hy.
Qed.
Lemma parted_in_place {A} (lt : A -> A -> bool) k l : parted lt k l -> parted lt (S k) l -> in_place lt k l.
Proof.
  intros H1 H2 x Hx. split; intros i y Hi Hy.
  - apply H1; [|rewrite (skipn_cons_nth _ _ _ Hx); left; reflexivity].
    apply (nth_error_In _ i). rewrite nth_error_firstn by exact Hi. exact Hy.
  - apply H2.
    + apply (nth_error_In _ k). rewrite nth_error_firstn by lia. exact Hx.
    + apply (nth_error_In _ (i - S k)). rewrite nth_error_skipn. replace (S k + (i - S k))%nat with i by lia. exact Hy.
Qed.

Section Part.
Context {A : Type} (a : algos) (lt : A -> A -> bool).
Hypothesis Ha : std_ok a.
Lemma partition_iter_ok : forall ks K data, strict_weak_order lt data -> (K <= length data)%nat -> parted lt K data ->
  StronglySorted (fun x y => y <= x) ks -> Forall (fun k => 0 <= k <= Z.of_nat K) ks -> Forall (fun k => k < Z.of_nat (length data)) ks ->
  parted lt (S K) data \/ ~ In (Z.of_nat K) ks ->
  exists r, partition_iter a lt ks (Z.of_nat K) data = Ok r /\ Permutation data r /\
    (forall j, (K <= j)%nat -> parted lt j data -> parted lt j r) /\
    forall k, In k ks -> parted lt (Z.to_nat k) r /\ parted lt (S (Z.to_nat k)) r.
Proof.
  induction ks as [|k ks IH]; intros K data Hs HK Hpart Hsort Hb Hr HSK.
  - exists data. cbn. split; [reflexivity|]. split; [reflexivity|]. split; [auto|]. intros k [].
  - inversion Hsort as [|? ? Hsort' Hle]; subst. inversion Hb as [|? ? Hk Hb']; subst. inversion Hr as [|? ? Hkr Hr']; subst.
    cbn [partition_iter]. rewrite (proj2 (Z.ltb_ge k 0)), (proj2 (Z.ltb_ge (Z.of_nat K) k)) by lia. cbn [orb].
    set (pre := firstn K data). set (post := skipn K data).
    assert (Lpre : length pre = K) by (unfold pre; rewrite firstn_length; lia).
    assert (Ed : data = pre ++ post) by (symmetry; apply firstn_skipn).
    set (pre' := if k =? Z.of_nat K then pre else std_nth_element a A lt pre (Z.to_nat k)).
    assert (Hpre : strict_weak_order lt pre) by (apply (swo_incl lt data); [exact Hs|]; rewrite Ed; apply incl_appl, incl_refl).
    assert (HP : Permutation pre pre').
    { unfold pre'. destruct (Z.eqb_spec k (Z.of_nat K)); [reflexivity|]. destruct Ha as (_ & _ & H3). apply (H3 A lt pre (Z.to_nat k) Hpre). lia. }
    rewrite (on_range_ok _ data pre' 0 K); [|lia|reflexivity]. cbn [bind firstn app Nat.add]. fold post.
    assert (Lpre' : length pre' = K) by (rewrite <- (Permutation_length HP); exact Lpre).
    assert (HPd : Permutation data (pre' ++ post)) by (rewrite Ed at 1; apply Permutation_app_tail; exact HP).
    assert (Hkeep : forall j, (K <= j)%nat -> parted lt j data -> parted lt j (pre' ++ post)).
    { intros j Hj H. apply (parted_perm lt j pre); [exact HP|lia|]. rewrite <- Ed. exact H. }
    assert (Hnow : parted lt (Z.to_nat k) (pre' ++ post) /\ parted lt (S (Z.to_nat k)) (pre' ++ post)).
    { destruct (Z.eqb_spec k (Z.of_nat K)) as [E|E].
      - rewrite E, Nat2Z.id. split; apply Hkeep; try lia; [exact Hpart|]. destruct HSK as [H|H]; [exact H|]. exfalso. apply H. left. exact E.
      - destruct Ha as (_ & _ & H3). destruct (H3 A lt pre (Z.to_nat k) Hpre) as (_ & P1 & P2); [lia|].
        assert (Ep : pre' = std_nth_element a A lt pre (Z.to_nat k)) by reflexivity.
        rewrite <- Ep in P1, P2. split; apply parted_prefix; try assumption; try lia; rewrite Lpre'; apply Hkeep; auto. }
    destruct (IH (Z.to_nat k) (pre' ++ post)) as (r & E & P & Hj & Hin).
    + apply (swo_incl lt data); [exact Hs|]. intros x Hx. apply (Permutation_in _ (Permutation_sym HPd)). exact Hx.
    + rewrite <- (Permutation_length HPd). lia.
    + apply Hnow.
    + exact Hsort'.
    + rewrite Forall_forall in *. intros x Hx. specialize (Hle x Hx). specialize (Hb' x Hx). lia.
    + rewrite <- (Permutation_length HPd). exact Hr'.
    + left. apply Hnow.
    + rewrite Z2Nat.id in E by lia. exists r. split; [exact E|]. split; [rewrite HPd; exact P|]. split.
      * intros j H1 H2. apply Hj; [lia|]. apply Hkeep; assumption.
      * intros k' [ <- |Hk']; [|apply Hin; exact Hk']. split; apply Hj; try lia; apply Hnow.
Qed.

Lemma zlt_swo l : strict_weak_order Z.ltb l.
Proof. split; [|split]; intros; rewrite ?Z.ltb_lt, ?Z.ltb_ge in *; lia. Qed.

Lemma sorted_desc l : sorted Z.ltb l -> StronglySorted (fun x y => y <= x) (rev l).
Proof.
  unfold sorted. induction 1 as [|x l Hl IH Hx]; [constructor|]. cbn [rev].
  assert (G : forall l', StronglySorted (fun x y : Z => y <= x) l' -> Forall (fun y => x <= y) l' -> StronglySorted (fun x y => y <= x) (l' ++ [x])).
  { induction 1 as [|y l' Hl' IH' Hy]; intros F; cbn [app]; [constructor; constructor|]. inversion F; subst. constructor; [apply IH'; assumption|].
    apply Forall_app. split; [exact Hy|]. constructor; [lia|constructor]. }
  apply G; [exact IH|]. apply Forall_rev. eapply Forall_impl; [|exact Hx]. cbn. intros y Hy. apply Z.ltb_ge in Hy. exact Hy.
Qed.

Lemma partition_range_ok kth data : strict_weak_order lt data -> Forall (fun k => 0 <= k < Z.of_nat (length data)) kth ->
  exists r, partition_range a lt kth data = Ok r /\ Permutation data r /\ forall k, In k kth -> in_place lt (Z.to_nat k) r.
Proof.
  intros Hs Hk. destruct Ha as (H1 & _). destruct (H1 Z Z.ltb kth (zlt_swo kth)) as [P S].
  assert (Hin : forall k, In k (rev (std_sort a Z Z.ltb kth)) <-> In k kth).
  { intros k. rewrite <- in_rev. split; apply Permutation_in; [apply Permutation_sym|]; exact P. }
  destruct (partition_iter_ok (rev (std_sort a Z Z.ltb kth)) (length data) data Hs (Nat.le_refl _)) as (r & E & Pr & _ & H).
  - intros x y _ Hy. rewrite skipn_all in Hy. destruct Hy.
  - apply sorted_desc. exact S.
  - apply Forall_forall. intros k Hk'. apply Hin in Hk'. rewrite Forall_forall in Hk. specialize (Hk k Hk'). lia.
  - apply Forall_forall. intros k Hk'. apply Hin in Hk'. rewrite Forall_forall in Hk. specialize (Hk k Hk'). lia.
  - right. intros Hk'. apply Hin in Hk'. rewrite Forall_forall in Hk. specialize (Hk _ Hk'). lia.
  - exists r. split; [exact E|]. split; [exact Pr|]. intros k Hk'. apply parted_in_place; apply H, Hin; exact Hk'.
Qed.
End Part.

(** ** Sorting indices *)
Lemma in_iota n i : In i (iota n) <-> 0 <= i < Z.of_nat n.
Proof.
  unfold iota. rewrite in_map_iff. split.
  - intros (k & <- & Hk). apply in_seq in Hk. lia.
  - intros H. exists (Z.to_nat i). split; [lia|]. apply in_seq. lia.
Qed.
Section Idx.
Context {A : Type} (lt : A -> A -> bool) (src : list A) (n : nat).
Hypothesis Hn : (n <= length src)%nat.
Hypothesis Hs : strict_weak_order lt (firstn n src).
Let vals := firstn n src.
Context (cmp : Z -> Z -> bool).
Hypothesis Hcmp : forall i j, In i (iota n) -> In j (iota n) -> cmp i j = cmp_at lt src i j.

Lemma vals_len : length vals = n.
Proof. unfold vals. rewrite firstn_length. lia. Qed.
Lemma val_at i : In i (iota n) -> exists x, rdz src i = Ok x /\ nth_error vals (Z.to_nat i) = Some x /\ In x vals.
Proof.
  intros H. apply in_iota in H. destruct (nth_error vals (Z.to_nat i)) as [x|] eqn:E.
  - exists x. split; [|split; [reflexivity|apply (nth_error_In _ _ E)]]. apply rdz_ok; [lia|]. rewrite <- E. unfold vals. symmetry. apply nth_error_firstn. lia.
  - apply nth_error_None in E. rewrite vals_len in E. lia.
Qed.
Lemma cmp_val i j x y : In i (iota n) -> In j (iota n) -> nth_error vals (Z.to_nat i) = Some x -> nth_error vals (Z.to_nat j) = Some y -> cmp i j = lt x y.
Proof.
  intros Hi Hj Ex Ey. destruct (val_at i Hi) as (x' & E1 & E2 & _). destruct (val_at j Hj) as (y' & E3 & E4 & _).
  rewrite Hcmp by assumption. unfold cmp_at. rewrite E1, E3. congruence.
Qed.
Lemma cmp_swo : strict_weak_order cmp (iota n).
Proof.
  destruct Hs as (H1 & H2 & H3). fold vals in H1, H2, H3. split; [|split].
  - intros i Hi. destruct (val_at i Hi) as (x & E1 & E2 & E3). rewrite (cmp_val i i x x) by assumption. auto.
  - intros i j k Hi Hj Hk. destruct (val_at i Hi) as (x & E1 & E2 & E3). destruct (val_at j Hj) as (y & E4 & E5 & E6). destruct (val_at k Hk) as (z & E7 & E8 & E9).
    rewrite (cmp_val i j x y), (cmp_val j k y z), (cmp_val i k x z) by assumption. eauto.
  - intros i j k Hi Hj Hk. destruct (val_at i Hi) as (x & E1 & E2 & E3). destruct (val_at j Hj) as (y & E4 & E5 & E6). destruct (val_at k Hk) as (z & E7 & E8 & E9).
    rewrite (cmp_val i j x y), (cmp_val j i y x), (cmp_val j k y z), (cmp_val k j z y), (cmp_val i k x z), (cmp_val k i z x) by assumption. eauto.
Qed.
(** The values at a list of positions. *)
Lemma picks_of idx : Permutation (iota n) idx -> exists ws, picks vals idx ws.
Proof.
  intros P. assert (F : Forall (fun i => In i (iota n)) idx) by (apply Forall_forall; intros i Hi; apply (Permutation_in _ (Permutation_sym P)); exact Hi).
  assert (exists ws, Forall2 (fun i w => nth_error vals (Z.to_nat i) = Some w) idx ws) as [ws H].
  { clear P. induction F as [|i idx Hi F [ws IH]]; [exists []; constructor|]. destruct (val_at i Hi) as (x & _ & E & _). exists (x :: ws). constructor; assumption. }
  exists ws. split; [|exact H]. rewrite vals_len. apply Permutation_sym. exact P.
Qed.
Lemma picks_nth idx ws k w : picks vals idx ws -> nth_error ws k = Some w -> exists i, nth_error idx k = Some i /\ In i (iota n) /\ nth_error vals (Z.to_nat i) = Some w.
Proof.
  intros (P & F) Hk. assert (exists i, nth_error idx k = Some i /\ nth_error vals (Z.to_nat i) = Some w) as (i & E1 & E2).
  { clear P. revert k Hk. induction F as [|i w' idx ws' H F IH]; intros [|k] Hk; cbn in *; try discriminate; [|apply IH; exact Hk]. injection Hk as <-. eauto. }
  exists i. split; [exact E1|]. split; [|exact E2]. rewrite vals_len in P. apply (Permutation_in _ P). apply (nth_error_In _ _ E1).
Qed.
Lemma picks_sorted idx ws : picks vals idx ws -> sorted cmp idx -> sorted lt ws.
Proof.
  intros (P & F) S. rewrite vals_len in P.
  assert (G : Forall (fun i => In i (iota n)) idx) by (apply Forall_forall; intros i Hi; apply (Permutation_in _ P); exact Hi).
  clear P. unfold sorted in *. revert S G. induction F as [|i w idx ws H F IH]; intros S G; [constructor|].
  inversion S as [|? ? S' Hle]; subst. inversion G as [|? ? Gi G']; subst. constructor; [apply IH; assumption|].
  clear IH S S' G. induction F as [|j v idx ws H' F IH]; [constructor|]. inversion Hle; subst. inversion G'; subst.
  constructor; [|apply IH; assumption]. rewrite <- (cmp_val j i v w) by assumption. assumption.
Qed.
Lemma picks_in_place idx ws k : picks vals idx ws -> in_place cmp k idx -> in_place lt k ws.
Proof.
  intros Pk H x Hx. destruct (picks_nth idx ws k x Pk Hx) as (i & Ei & Ii & Vi). destruct (H i Ei) as [H1 H2]. split; intros q y Hq Hy;
    destruct (picks_nth idx ws q y Pk Hy) as (j & Ej & Ij & Vj).
  - rewrite <- (cmp_val i j x y) by assumption. apply (H1 q); assumption.
  - rewrite <- (cmp_val j i y x) by assumption. apply (H2 q); assumption.
Qed.
End Idx.

Lemma filter_order {A} (P : A -> bool) : forall l p q x y, (p < q)%nat -> nth_error l p = Some x -> nth_error l q = Some y -> P x = true -> P y = true ->
  exists p' q', (p' < q')%nat /\ nth_error (filter P l) p' = Some x /\ nth_error (filter P l) q' = Some y.
Proof.
  induction l as [|z l IH]; intros [|p] [|q] x y Hpq Hx Hy Px Py; cbn in *; try lia; try discriminate.
  - injection Hx as ->. rewrite Px. apply nth_error_In in Hy. assert (Hf : In y (filter P l)) by (apply filter_In; auto).
    apply In_nth_error in Hf. destruct Hf as (q' & E). exists 0%nat, (S q'). split; [lia|]. auto.
  - destruct (IH p q x y) as (p' & q' & H1 & H2 & H3); try assumption; [lia|]. destruct (P z).
    + exists (S p'), (S q'). split; [lia|]. auto.
    + exists p', q'. auto.
Qed.
Lemma increasing_nth (l : list Z) : StronglySorted Z.lt l -> forall p q x y, (p < q)%nat -> nth_error l p = Some x -> nth_error l q = Some y -> x < y.
Proof.
  induction 1 as [|z l Hl IH Hz]; intros [|p] [|q] x y Hpq Hx Hy; cbn in *; try lia; try discriminate.
  - injection Hx as ->. rewrite Forall_forall in Hz. apply Hz. apply (nth_error_In _ _ Hy).
  - apply (IH p q); try assumption. lia.
Qed.
Lemma iota_sorted n : StronglySorted Z.lt (iota n).
Proof.
  unfold iota. generalize 0%nat as s. induction n as [|n IH]; intros s; cbn [seq map]; [constructor|]. constructor; [apply IH|].
  apply Forall_forall. intros x Hx. apply in_map_iff in Hx. destruct Hx as (k & <- & Hk). apply in_seq in Hk. lia.
Qed.
Lemma filter_sorted (P : Z -> bool) l : StronglySorted Z.lt l -> StronglySorted Z.lt (filter P l).
Proof.
  induction 1 as [|x l Hl IH Hx]; [constructor|]. cbn [filter]. destruct (P x); [|exact IH]. constructor; [exact IH|].
  rewrite Forall_forall in *. intros y Hy. apply filter_In in Hy. apply Hx. apply Hy.
Qed.

Lemma argsort_iter_ok {A} (a : algos) (lt : A -> A -> bool) stable src idx : std_ok a -> (length idx <= length src)%nat ->
  strict_weak_order lt (firstn (length idx) src) ->
  exists r, argsort_iter a lt stable src idx = Ok r /\ length r = length idx /\ sorts lt (firstn (length idx) src) r /\
    (stable = true -> keeps_order lt (firstn (length idx) src) r).
Proof.
  intros (H1 & H2 & _) Hn Hs. set (n := length idx) in *. set (cmp := cmp_at lt src). unfold argsort_iter. fold n cmp.
  rewrite (proj2 (Nat.leb_le _ _)) by exact Hn. cbv zeta.
  set (i0 := if stable then iota n else std_sort a Z cmp (iota n)).
  pose proof (cmp_swo lt src n Hn Hs cmp (fun _ _ _ _ => eq_refl)) as Hc.
  assert (P0 : Permutation (iota n) i0).
  { unfold i0. destruct stable; [reflexivity|]. apply (H1 Z cmp (iota n) Hc). }
  assert (Hc0 : strict_weak_order cmp i0).
  { apply (swo_incl cmp (iota n)); [exact Hc|]. intros x Hx. apply (Permutation_in _ (Permutation_sym P0)). exact Hx. }
  destruct (H2 Z cmp i0 Hc0) as (P & S & K). set (r := std_stable_sort a Z cmp i0) in *.
  assert (Pr : Permutation (iota n) r) by (rewrite P0; exact P).
  exists r. split; [reflexivity|]. split.
  { rewrite <- (Permutation_length Pr). unfold iota. rewrite map_length, seq_length. reflexivity. }
  destruct (picks_of src n Hn r Pr) as (ws & Pk). split.
  - exists ws. split; [exact Pk|]. exact (picks_sorted lt src n Hn cmp (fun _ _ _ _ => eq_refl) r ws Pk S).
  - intros ->. unfold i0 in *. intros p q i j x y Hpq Ei Ej Vx Vy Heq.
    assert (Ii : In i (iota n)) by (apply (Permutation_in _ (Permutation_sym Pr)); apply (nth_error_In _ _ Ei)).
    assert (Ij : In j (iota n)) by (apply (Permutation_in _ (Permutation_sym Pr)); apply (nth_error_In _ _ Ej)).
    assert (Eij : equiv cmp i j = true).
    { unfold equiv in *. rewrite (cmp_val lt src n Hn cmp (fun _ _ _ _ => eq_refl) i j x y), (cmp_val lt src n Hn cmp (fun _ _ _ _ => eq_refl) j i y x) by assumption. exact Heq. }
    assert (Eii : equiv cmp i i = true) by (unfold equiv; destruct Hc as (Hirr & _); rewrite (Hirr i) by assumption; reflexivity).
    destruct (filter_order (equiv cmp i) r p q i j Hpq Ei Ej Eii Eij) as (p' & q' & Hpq' & Fi & Fj).
    rewrite (K i Ii) in Fi, Fj. exact (increasing_nth _ (filter_sorted _ _ (iota_sorted n)) p' q' i j Hpq' Fi Fj).
Qed.
