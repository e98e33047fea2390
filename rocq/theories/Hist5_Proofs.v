From Coq Require Import List ZArith Bool Lia Permutation Sorted QArith Qround Lqa.
From Verif Require Import Prelude PreludeFacts Strides_Model Access_Model Container_Model Manip_Model Sort_Model Sort_Spec Sort5_Proofs Hist_Model Hist_Spec Hist_Proofs Hist2_Proofs Hist3_Proofs Hist4_Proofs.
Import ListNotations.
Open Scope Z_scope.

(** bincount *)
Lemma zminmax : forall l h w,
  let r := minmax Z.ltb h w l in
  fst r <= h /\ Forall (fun x => fst r <= x) l /\ (fst r = h \/ In (fst r) l) /\
  w <= snd r /\ Forall (fun x => x <= snd r) l /\ (snd r = w \/ In (snd r) l).
Proof.
  unfold minmax. induction l as [|x l IH]; intros h w; cbn [fold_left fst snd].
  { repeat split; try lia; try constructor; reflexivity. }
  specialize (IH (if x <? h then x else h) (if w <? x then x else w)). cbn zeta in IH.
  set (r := fold_left _ l _) in *. destruct IH as (A1 & A2 & A3 & B1 & B2 & B3). cbn zeta.
  destruct (Z.ltb_spec x h), (Z.ltb_spec w x);
    (split; [lia|]; split; [constructor; [lia|exact A2]|]; split; [cbn; intuition congruence|];
     split; [lia|]; split; [constructor; [lia|exact B2]|]; cbn; intuition congruence).
Qed.

Section Bincount.
Context {W : Type} (zero : W) (add : W -> W -> W) (lowest highest most : Z).
Hypothesis Hl : lowest < 0.
Hypothesis Hh : highest < 2 ^ 63.

Lemma bincount_lemma data weights minlength : data <> [] -> Forall (fun x => 0 <= x < highest) data -> length weights = length data ->
  0 <= minlength <= most -> Forall (fun x => x < most) data ->
  exists count, bincount zero add lowest highest most data weights minlength = Ok count /\
    (exists top, In top data /\ Forall (fun x => x <= top) data /\ Z.of_nat (length count) = Z.max minlength (top + 1)) /\
    forall x c, nth_error count x = Some c -> c = fold_left add (weights_of data weights (Z.of_nat x)) zero.
Proof.
  intros Hne Hd Hw Hm Hmost. unfold bincount.
  destruct (zminmax data highest lowest) as (A1 & A2 & A3 & B1 & B2 & B3). set (b := minmax Z.ltb highest lowest data) in *. cbv zeta.
  destruct (In_nth_error_first data Hne) as (x0 & H0). rewrite Forall_forall in Hd, A2, B2, Hmost.
  pose proof (Hd _ H0). pose proof (A2 _ H0). pose proof (B2 _ H0).
  destruct B3 as [B3|B3]; [lia|]. pose proof (Hd _ B3) as D3.
  assert (F0 : 0 <= fst b). { destruct A3 as [A3|A3]; [lia|]. apply Hd in A3. lia. }
  rewrite (proj2 (Z.ltb_ge (fst b) 0)) by lia. rewrite (proj2 (Z.eqb_neq (snd b) highest)) by lia.
  assert (Es : to_size_t (snd b + 1) = snd b + 1). { unfold to_size_t. apply Z.mod_small. lia. }
  rewrite Es. set (size := Z.max minlength (snd b + 1)). pose proof (Hmost _ B3).
  rewrite (proj2 (Z.ltb_ge most size)) by lia.
  pose (inb := fun (b : nat) (x : Z) => x =? Z.of_nat b).
  pose (Inv := fun (k : nat) (c : list W) => adds add inb (firstn k (combine data weights)) (repeat zero (Z.to_nat size)) c).
  match goal with |- exists c, for_up ?f _ _ _ = _ /\ _ => destruct (for_up_inv Inv f 0 (length data) (repeat zero (Z.to_nat size))) as (count & E & Hc) end.
  - apply adds_nil.
  - intros i c Hi Hc. destruct (nth_error data i) as [x|] eqn:Ex; [|apply nth_error_None in Ex; lia].
    destruct (nth_error weights i) as [w|] eqn:Ew; [|apply nth_error_None in Ew; lia].
    rewrite (rd_ok _ _ _ Ex), (rd_ok _ _ _ Ew). cbn [bind].
    assert (Ix : In x data) by exact (nth_error_In _ _ Ex). pose proof (Hd _ Ix). pose proof (B2 _ Ix).
    assert (Lc : length c = Z.to_nat size) by (destruct Hc as [L _]; rewrite repeat_length in L; exact L).
    destruct (adds_one add inb x w c (Z.to_nat x)) as (c' & E' & A').
    + lia.
    + unfold inb. apply Z.eqb_eq. lia.
    + intros b' _ Hb'. unfold inb in Hb'. apply Z.eqb_eq in Hb'. lia.
    + rewrite Z2Nat.id in E' by lia. exists c'. split; [exact E'|]. unfold Inv. rewrite (firstn_S_combine data weights i x w Ex Ew).
      exact (adds_trans _ _ _ _ _ _ _ Hc A').
  - unfold Inv in Hc. rewrite firstn_all2 in Hc by (rewrite combine_length; lia).
    exists count. split; [exact E|]. destruct Hc as [L Hc]. rewrite repeat_length in L. split.
    + exists (snd b). split; [exact B3|]. split; [rewrite Forall_forall; exact B2|]. fold size. lia.
    + intros x c Hx. assert (Hz : nth_error (repeat zero (Z.to_nat size)) x = Some zero).
      { apply nth_error_repeat. rewrite <- L. apply nth_error_Some. rewrite Hx. discriminate. }
      rewrite (Hc x zero Hz) in Hx. injection Hx as <-. reflexivity.
Qed.

Lemma bincount_negative data weights minlength : Exists (fun x => x < 0) data -> bincount zero add lowest highest most data weights minlength = Throw runtime_error.
Proof.
  intros Hx. unfold bincount. destruct (zminmax data highest lowest) as (_ & A2 & _). set (b := minmax Z.ltb highest lowest data) in *. cbv zeta.
  apply Exists_exists in Hx. destruct Hx as (x & Ix & Hx). rewrite Forall_forall in A2. pose proof (A2 x Ix).
  rewrite (proj2 (Z.ltb_lt (fst b) 0)) by lia. reflexivity.
Qed.
End Bincount.

(** The integral of a density *)
Lemma integral_lemma (n : Q) : ~ (n == 0)%Q -> forall (count : list Z) (edges probs : list Q), length edges = S (length count) -> length probs = length count ->
  (forall i p, nth_error probs i = Some p -> exists c e0 e1, nth_error count i = Some c /\ nth_error edges i = Some e0 /\ nth_error edges (S i) = Some e1 /\
     ~ (e1 - e0 == 0)%Q /\ p = (inject_Z c / ((e1 - e0) * n))%Q) ->
  (integral probs edges == inject_Z (zsum count) / n)%Q.
Proof.
  intros Hn. induction count as [|c count IH]; intros edges probs Le Lp H.
  - destruct probs; [|discriminate]. cbn. field. exact Hn.
  - destruct probs as [|p probs]; [discriminate|]. destruct edges as [|e0 [|e1 edges]]; [discriminate|discriminate|].
    change (integral (p :: probs) (e0 :: e1 :: edges)) with (p * (e1 - e0) + integral probs (e1 :: edges))%Q.
    rewrite (IH (e1 :: edges) probs); [|cbn in *; lia|cbn in *; lia|].
    + destruct (H 0%nat p eq_refl) as (c' & f0 & f1 & X1 & X2 & X3 & X4 & X5). cbn in X1, X2, X3. injection X1 as <-. injection X2 as <-. injection X3 as <-.
      rewrite X5. change (zsum (c :: count)) with (c + zsum count). rewrite inject_Z_plus. field. split; [exact Hn|]. intros X. apply X4. exact X.
    + intros i q Hq. destruct (H (S i) q Hq) as (c' & f0 & f1 & X). exists c', f0, f1. exact X.
Qed.

(** Every item is counted once *)
Lemma zsum_one (f : nat -> bool) n b : (b < n)%nat -> f b = true -> (forall b', (b' < n)%nat -> f b' = true -> b' = b) ->
  forall s, zsum (map (fun i => if f (i - s)%nat then 1 else 0) (seq s n)) = 1.
Proof.
  revert f b. induction n as [|n IH]; intros f b Hb Hf Hu s; [lia|]. cbn [seq map]. change (zsum (?x :: ?l)) with (x + zsum l). rewrite Nat.sub_diag.
  destruct b as [|b].
  - rewrite Hf. enough (E : zsum (map (fun i => if f (i - s)%nat then 1 else 0) (seq (S s) n)) = 0) by lia.
    assert (H : forall m, (m <= n)%nat -> forall t, (s < t)%nat -> (t + m <= s + S n)%nat -> zsum (map (fun i => if f (i - s)%nat then 1 else 0) (seq t m)) = 0).
    { induction m as [|m IHm]; intros Hm t Ht1 Ht2; [reflexivity|]. cbn [seq map]. change (zsum (?x :: ?l)) with (x + zsum l). rewrite IHm by lia.
      destruct (f (t - s)%nat) eqn:E; [|reflexivity]. apply Hu in E; lia. }
    apply (H n); lia.
  - destruct (f 0%nat) eqn:E; [apply Hu in E; lia|].
    rewrite (map_ext_in _ (fun i => if f (S (i - S s))%nat then 1 else 0)).
    + rewrite (IH (fun i => f (S i)) b); [lia|lia|exact Hf|]. intros b' Hb' E'. apply Hu in E'; lia.
    + intros i Hi. apply in_seq in Hi. replace (i - s)%nat with (S (i - S s)) by lia. reflexivity.
Qed.

Lemma zsum_map_add {B} (f g : B -> Z) l : zsum (map (fun b => f b + g b) l) = zsum (map f l) + zsum (map g l).
Proof. induction l as [|x l IH]; [reflexivity|]. cbn [map]. change (zsum (?x :: ?l)) with (x + zsum l). rewrite IH. change (zsum (?x :: ?l)) with (x + zsum l). lia. Qed.

Lemma all_counted {V} (inb : nat -> V -> bool) n : forall data : list V, (forall x, In x data -> exists b, (b < n)%nat /\ inb b x = true /\ forall b', (b' < n)%nat -> inb b' x = true -> b' = b) ->
  zsum (map (fun b => Z.of_nat (length (filter (inb b) data))) (seq 0 n)) = Z.of_nat (length data).
Proof.
  induction data as [|x data IH]; intros H.
  - clear. change (zsum (map (fun _ : nat => 0) (seq 0 n)) = 0). set (k := 0%nat) at 1. clearbody k. revert k.
    induction n as [|n IHn]; intros k; [reflexivity|]. cbn [seq map]. change (zsum (?x :: ?l)) with (x + zsum l). rewrite IHn. reflexivity.
  - rewrite (map_ext _ (fun b => (if inb (b - 0)%nat x then 1 else 0) + Z.of_nat (length (filter (inb b) data)))).
    + rewrite zsum_map_add, IH by (intros y Hy; apply H; right; exact Hy).
      destruct (H x (or_introl eq_refl)) as (b & Hb & Hi & Hu). rewrite (zsum_one (fun b => inb b x) n b Hb Hi Hu 0). cbn [length]. lia.
    + intros b. rewrite Nat.sub_0_r. cbn [filter]. destruct (inb b x); cbn [length]; lia.
Qed.

Lemma fold_ones : forall ws z, Forall (fun w => w = 1) ws -> fold_left Z.add ws z = z + Z.of_nat (length ws).
Proof. induction ws as [|w ws IH]; intros z H; [cbn; lia|]. inversion H; subst. cbn [fold_left length]. rewrite IH by assumption. lia. Qed.

Lemma filter_combine_fst {V W} (p : V -> bool) : forall (l : list V) (w : list W), length w = length l ->
  length (filter (fun q => p (fst q)) (combine l w)) = length (filter p l).
Proof.
  induction l as [|x l IH]; intros w Hw; [reflexivity|]. destruct w as [|y w]; [discriminate|]. cbn [combine filter fst].
  destruct (p x); cbn [length]; rewrite IH by (cbn in Hw; lia); reflexivity.
Qed.

Lemma total_lemma (edges data : list Q) (count : list Z) (first last : Q) : (2 <= length edges)%nat -> sorted q_lt edges ->
  nth_error edges 0 = Some first -> nth_error edges (length edges - 1) = Some last -> Forall (fun x => (first <= x <= last)%Q) data ->
  is_histogram 0 Z.add q_lt edges data (repeat 1 (length data)) count -> zsum count = Z.of_nat (length data).
Proof.
  intros He Hs E0 E1 Hd [Lc Hc]. set (n := (length edges - 1)%nat) in *.
  rewrite <- (all_counted (in_bin q_lt edges) n data).
  - f_equal. apply nth_ext with (d := 0) (d' := 0); [rewrite map_length, seq_length; exact Lc|]. intros b Hb.
    destruct (nth_error count b) as [c|] eqn:Ec; [|apply nth_error_None in Ec; lia]. rewrite (nth_error_nth _ _ _ Ec).
    rewrite (nth_indep _ 0 (Z.of_nat (length (filter (in_bin q_lt edges 0) data)))) by (rewrite map_length, seq_length; lia).
    rewrite (map_nth (fun b => Z.of_nat (length (filter (in_bin q_lt edges b) data))) (seq 0 n) 0%nat b), seq_nth by lia. cbn [plus].
    destruct (Hc b c Ec) as (ws & P & ->). rewrite fold_ones.
    + rewrite (Permutation_length P). unfold weights_in. rewrite map_length, filter_combine_fst by apply repeat_length. reflexivity.
    + rewrite Forall_forall. intros w Hw. apply (Permutation_in _ P) in Hw. apply in_map_iff in Hw. destruct Hw as ([x w'] & E & Hw). cbn in E. subst w'.
      apply filter_In in Hw. destruct Hw as [Hw _]. apply in_combine_r in Hw. exact (repeat_spec _ _ _ Hw).
  - intros x Hx. rewrite Forall_forall in Hd. destruct (Hd x Hx) as [D0 D1].
    assert (Hn : length edges = S n) by lia. assert (U : incl edges (data ++ edges)) by (intros y Hy; apply in_or_app; right; exact Hy).
    assert (Ix : In x (data ++ edges)) by (apply in_or_app; left; exact Hx).
    destruct (@advance_ok exact (type_exact 0 0) edges data n Hn ltac:(lia) n 0%nat x last first) as (b & _ & Hb & Hin); try assumption; try lia.
    + apply q_lt_false. exact D1.
    + apply q_lt_false. exact D0.
    + exists b. split; [exact Hb|]. split; [exact Hin|]. intros b' _ Hb'.
      exact (in_bin_unique' q_lt edges n (data ++ edges) (q_swo _) U Hs Hn b b' x Ix Hin Hb').
Qed.

Lemma density_lemma (lo hi : Q) (a : algos) (data edges : list Q) (first last : Q) : std_ok a -> (2 <= length edges)%nat -> increasing q_lt edges ->
  nth_error edges 0 = Some first -> nth_error edges (length edges - 1) = Some last -> data <> [] -> Forall (fun x => (first <= x <= last)%Q) data ->
  exists probs, histogram_edges (type_exact lo hi) 0 Z.add inject_Z Qminus inject_Z Qmult Qdiv a data edges (repeat 1 (length data)) true = Ok probs /\
    length probs = (length edges - 1)%nat /\ (integral probs edges == 1)%Q.
Proof.
  intros Ha He Hi E0 E1 Hne Hd.
  assert (Hs : sorted q_lt edges).
  { clear - Hi. induction Hi as [|x l Hi IH Hx]; constructor; [exact IH|]. rewrite Forall_forall in *. intros y Hy. apply Hx in Hy. apply q_lt_true in Hy. apply q_lt_false. lra. }
  destruct (edges_lemma (type_exact lo hi) 0 Z.add inject_Z Qminus inject_Z Qmult Qdiv a data edges (repeat 1 (length data)) true Ha He Hs (q_swo _) (repeat_length _ _))
    as (count & (probs & E & [Lp Hp]) & Hc).
  exists probs. split; [exact E|]. pose proof (total_lemma edges data count first last He Hs E0 E1 Hd Hc) as Ht. destruct Hc as [Lc Hc].
  change (length count = length edges - 1)%nat in Lc. change (length probs = length count) in Lp.
  split; [congruence|].
  assert (Hn : ~ (inject_Z (Z.of_nat (length data)) == 0)%Q).
  { change 0%Q with (inject_Z 0). rewrite inject_Z_injective. destruct data; [congruence|]. cbn. lia. }
  rewrite (integral_lemma (inject_Z (Z.of_nat (length data))) Hn count edges probs); [|lia|exact Lp|].
  - rewrite Ht. field. exact Hn.
  - intros i p Hip. destruct (Hp i p Hip) as (c & e0 & e1 & X1 & X2 & X3 & X4). exists c, e0, e1. split; [exact X1|]. split; [exact X2|]. split; [exact X3|]. split; [|exact X4].
    assert (L : q_lt e0 e1 = true).
    { clear - Hi X2 X3. change (nth_error edges i = Some e0) in X2. change (nth_error edges (S i) = Some e1) in X3. revert i X2 X3. induction Hi as [|x l Hi IH Hx]; intros i X2 X3; [destruct i; discriminate|].
      destruct i as [|i]; cbn in X2, X3; [|exact (IH i X2 X3)]. injection X2 as <-. rewrite Forall_forall in Hx. apply Hx. exact (nth_error_In l 0 X3). }
    apply q_lt_true in L. lra.
Qed.
