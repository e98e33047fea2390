From Coq Require Import List ZArith QArith Lqa Bool Lia Permutation Sorted.
From Verif Require Import Prelude PreludeFacts Strides_Model Strides_Spec Access_Model Container_Model Manip_Model Reduce_Spec SetOp_Model SetOp_Proofs Sort_Model Sort_Spec Sort5_Proofs Sort6_Proofs Container_Spec Container_Proofs Reduce15_Proofs Random_Model Random_Spec Random_Proofs Random2_Proofs.
Import ListNotations.
Open Scope Z_scope.

(** Every order from exactly one sequence of draws *)
Lemma shuffle_loop_scripted {V} pos : NoDup pos -> forall i (mem l : list V) ds, shows pos mem l -> (i < length l)%nat -> countdown i ds ->
  exists mem', shuffle_loop scripted i pos mem ds = Ok (mem', []) /\ shows pos mem' (fst (shuffled scripted i l ds)) /\ length mem' = length mem.
Proof.
  intros Nd. induction i as [|i IH]; intros mem l ds Sh Hi Hc; cbn [shuffle_loop shuffled].
  - destruct ds; [|contradiction]. exists mem. split; [reflexivity|]. split; [exact Sh|reflexivity].
  - destruct ds as [|[b j] ds]; [contradiction|]. destruct Hc as (-> & Hj & Hc). cbn [scripted]. rewrite Z.eqb_refl.
    destruct (swap_at_ok pos mem l (S i) j Nd Sh Hi ltac:(lia)) as (mem1 & E1 & S1 & L1 & O1). rewrite E1. cbn [bind].
    destruct (IH mem1 (lswap (S i) (Z.to_nat j) l) ds S1 ltac:(rewrite lswap_length; lia) Hc) as (mem2 & E2 & S2 & L2).
    exists mem2. split; [exact E2|]. split; [exact S2|congruence].
Qed.

Lemma shuffle1_scripted {V} (l : list V) ds : (1 <= length l)%nat -> Z.of_nat (length l) < 2 ^ 64 -> countdown (length l - 1) ds ->
  shuffle1 scripted (upto (length l)) l ds = Ok (fst (shuffled scripted (length l - 1) l ds), []).
Proof.
  intros H1 H64 Hc. unfold shuffle1. rewrite upto_length.
  replace (Z.to_nat (to_size_t (Z.of_nat (length l) - 1))) with (length l - 1)%nat by (unfold to_size_t; rewrite Z.mod_small by lia; lia).
  destruct (shuffle_loop_scripted (upto (length l)) (upto_nodup _) (length l - 1) l l ds (shows_self l) ltac:(lia) Hc) as (mem' & E & S' & L).
  rewrite E. f_equal. f_equal. exact (shows_upto (length l) mem' _ L S').
Qed.

Lemma shuffle_uniform_lemma {V} (l p : list V) : (1 <= length l)%nat -> Z.of_nat (length l) < 2 ^ 64 -> NoDup l -> Permutation p l ->
  exists! ds, countdown (length l - 1) ds /\ shuffle1 scripted (upto (length l)) l ds = Ok (p, []).
Proof.
  intros H1 H64 Nd P. destruct (draws_exist (length l - 1) l p Nd ltac:(lia) P) as (ds & Hc & E).
  - intros k Hk. rewrite !(proj2 (nth_error_None _ _)); [reflexivity| |]; [|rewrite (Permutation_length P)]; lia.
  - exists ds. split; [split; [exact Hc|]; rewrite shuffle1_scripted by assumption; rewrite E; reflexivity|]. intros ds' (Hc' & E').
    rewrite shuffle1_scripted in E' by assumption. injection E' as E'. apply (draws_unique (length l - 1) l); try assumption; [lia|congruence].
Qed.

(** Sampling with weights *)
Open Scope Q_scope.
Lemma total_nonneg ws : Forall (fun w => 0 <= w) ws -> 0 <= total ws.
Proof. induction 1 as [|w ws Hw H IH]; cbn; [discriminate|]. change (fold_right Qplus 0 ws) with (total ws). lra. Qed.
Lemma cumsum_from_length : forall (ws : list Q) acc, length (cumsum_from Qplus acc ws) = length ws.
Proof. induction ws as [|w ws IH]; intros acc; cbn; [reflexivity|]. rewrite IH. reflexivity. Qed.
Lemma cumsum_length (ws : list Q) : length (cumsum Qplus ws) = length ws.
Proof. destruct ws; cbn; [reflexivity|]. rewrite cumsum_from_length. reflexivity. Qed.
Lemma cumsum_from_nth : forall (ws : list Q) acc k x, nth_error (cumsum_from Qplus acc ws) k = Some x -> x == acc + total (firstn (S k) ws).
Proof.
  induction ws as [|w ws IH]; intros acc [|k] x E; cbn [cumsum_from nth_error] in E; try discriminate.
  - injection E as <-. cbn. ring.
  - apply IH in E. rewrite E. change (firstn (S (S k)) (w :: ws)) with (w :: firstn (S k) ws). change (total (w :: firstn (S k) ws)) with (w + total (firstn (S k) ws)). ring.
Qed.
Lemma cumsum_nth (ws : list Q) k x : nth_error (cumsum Qplus ws) k = Some x -> x == total (firstn (S k) ws).
Proof.
  destruct ws as [|w ws]; [destruct k; discriminate|]. destruct k as [|k]; cbn [cumsum nth_error]; intros E.
  - injection E as <-. cbn. ring.
  - apply cumsum_from_nth in E. rewrite E. change (firstn (S (S k)) (w :: ws)) with (w :: firstn (S k) ws). change (total (w :: firstn (S k) ws)) with (w + total (firstn (S k) ws)). reflexivity.
Qed.
Lemma total_mono ws : Forall (fun w => 0 <= w) ws -> forall a b, (a <= b)%nat -> total (firstn a ws) <= total (firstn b ws).
Proof.
  induction 1 as [|w ws Hw H IH]; intros a b Hab; [rewrite !firstn_nil; cbn; discriminate|].
  destruct a as [|a], b as [|b]; try lia; [cbn; discriminate| |].
  - cbn [firstn]. change (0 <= total (w :: firstn b ws)). apply total_nonneg. constructor; [exact Hw|]. apply Forall_forall. intros x Hx. rewrite Forall_forall in H. apply H. rewrite <- (firstn_skipn b ws). apply in_or_app. left. exact Hx.
  - cbn [firstn]. change (w + total (firstn a ws) <= w + total (firstn b ws)). pose proof (IH a b ltac:(lia)). lra.
Qed.

Lemma qltb_true x y : qltb x y = true <-> x < y.
Proof. unfold qltb. rewrite negb_true_iff. split; intros H; [apply Qnot_le_lt; intros Q; apply Qle_bool_iff in Q; congruence|]. destruct (Qle_bool y x) eqn:E; [|reflexivity]. apply Qle_bool_iff in E. lra. Qed.
Lemma qltb_false x y : qltb x y = false <-> y <= x.
Proof. unfold qltb. rewrite negb_false_iff. apply Qle_bool_iff. Qed.

Lemma pick_ok ws u : Forall (fun w => 0 <= w) ws -> 0 <= u < total ws ->
  exists k, std_upper_bound qltb (cumsum Qplus ws) u = Ok k /\ (k < length ws)%nat /\ total (firstn k ws) <= u < total (firstn (S k) ws).
Proof.
  intros Hw Hu. unfold std_upper_bound.
  assert (Mono : forall i j x y, (i <= j)%nat -> nth_error (cumsum Qplus ws) i = Some x -> nth_error (cumsum Qplus ws) j = Some y -> x <= y).
  { intros i j x y Hij Ei Ej. apply cumsum_nth in Ei. apply cumsum_nth in Ej. rewrite Ei, Ej. apply total_mono; [exact Hw|lia]. }
  destruct (partition_point_ok (fun y => negb (qltb u y)) (cumsum Qplus ws)) as (k & E & Hk & A & B).
  - enough (S : StronglySorted Qle (cumsum Qplus ws)).
    { clear - S. induction S as [|x l Hl IH Hx]; constructor; [exact IH|]. eapply Forall_impl; [|exact Hx]. cbn. intros y Hxy H. apply negb_false_iff in H. apply negb_false_iff. apply qltb_true in H. apply qltb_true. lra. }
    clear - Mono. induction (cumsum Qplus ws) as [|x l IH]; constructor.
    + apply IH. intros i j a b Hij Ei Ej. exact (Mono (S i) (S j) a b ltac:(lia) Ei Ej).
    + apply Forall_forall. intros y Hy. destruct (In_nth_error _ _ Hy) as (j & Ej). exact (Mono 0%nat (S j) x y ltac:(lia) eq_refl Ej).
  - rewrite cumsum_length in Hk. assert (Hlt : (k < length ws)%nat).
    { destruct (Nat.eq_dec k (length ws)) as [Ek|]; [|lia]. exfalso. rewrite firstn_all2 in A by (rewrite cumsum_length; lia).
      destruct ws as [|w ws]; [cbn in Hu; lra|]. destruct (nth_error (cumsum Qplus (w :: ws)) (length ws)) as [x|] eqn:Ex; [|apply nth_error_None in Ex; rewrite cumsum_length in Ex; cbn in Ex; lia].
      pose proof (A x (nth_error_In _ _ Ex)) as H. apply negb_true_iff in H. apply qltb_false in H. apply cumsum_nth in Ex. rewrite (firstn_all2 (n := S (length ws))) in Ex by (cbn; lia). rewrite Ex in H. lra. }
    exists k. split; [exact E|]. split; [exact Hlt|]. split.
    + destruct k as [|k]; [cbn; lra|]. destruct (nth_error (cumsum Qplus ws) k) as [x|] eqn:Ex; [|apply nth_error_None in Ex; rewrite cumsum_length in Ex; lia].
      pose proof (A x) as H. rewrite <- (cumsum_nth ws k x Ex). apply qltb_false. apply negb_true_iff. apply H. apply (nth_error_In _ k). rewrite nth_error_firstn by lia. exact Ex.
    + destruct (nth_error (cumsum Qplus ws) k) as [x|] eqn:Ex; [|apply nth_error_None in Ex; rewrite cumsum_length in Ex; lia].
      rewrite <- (cumsum_nth ws k x Ex). apply qltb_true. apply negb_false_iff. apply B. apply (nth_error_In _ 0). rewrite nth_error_skipn. rewrite Nat.add_0_r. exact Ex.
Qed.

Definition chosen_at ws (f : Q) (i : nat) : Prop := total (firstn i ws) <= f * total ws < total (firstn (S i) ws).

Lemma weighted_lemma {V} (data : list V) n ws junk fs : Forall (fun w => 0 <= w) ws -> 0 < total ws -> length data = length ws -> (Z.of_nat (length ws) < 2 ^ 64)%Z ->
  length fs = n -> Forall (fun f => 0 <= f < 1) fs -> length junk = n ->
  exists result idx, choice_replace qltb Qplus fractions data n ws junk fs = Ok (result, []) /\
    Forall2 (fun f i => total (firstn i ws) <= f * total ws < total (firstn (S i) ws)) fs idx /\ Forall2 (fun i x => nth_error data i = Some x) idx result.
Proof.
  intros Hw Ht HL H64 Hf Hfs Hj. unfold choice_replace.
  assert (L1 : (1 <= length ws)%nat) by (destruct ws; cbn in *; [lra|lia]).
  destruct (nth_error (cumsum Qplus ws) (length ws - 1)) as [tot|] eqn:Et; [|apply nth_error_None in Et; rewrite cumsum_length in Et; lia].
  assert (Eidx : to_size_t (Z.of_nat (length (cumsum Qplus ws)) - 1) = Z.of_nat (length ws - 1)) by (rewrite cumsum_length; unfold to_size_t; rewrite Z.mod_small; lia).
  rewrite Eidx. rewrite (rdz_ok _ _ tot) by (try lia; rewrite Nat2Z.id; exact Et). cbn [bind].
  assert (Etot : tot == total ws) by (apply cumsum_nth in Et; rewrite Et; rewrite firstn_all2 by lia; reflexivity).
  enough (Q : forall fs i r, Forall (fun f => 0 <= f < 1) fs -> length r = (i + length fs)%nat ->
    exists idx tl, for_up (fun i '(result, g) => let '(u, g0) := fractions tot g in let* idx := std_upper_bound qltb (cumsum Qplus ws) u in let* x := rd data idx in let* result0 := wr result i x in Ok (result0, g0)) i (length fs) (r, fs) = Ok (firstn i r ++ tl, []) /\
      Forall2 (chosen_at ws) fs idx /\ Forall2 (fun i x => nth_error data i = Some x) idx tl).
  { destruct (Q fs 0%nat junk Hfs ltac:(lia)) as (idx & tl & E & H1 & H2). rewrite Hf in E. exists tl, idx. split; [exact E|]. split; [exact H1|exact H2]. }
  clear fs n Hf Hfs junk Hj. induction fs as [|f fs IH]; intros i r Hfs Hr; cbn [length] in *.
  - exists [], []. cbn [for_up]. rewrite firstn_all2 by lia. rewrite app_nil_r. split; [reflexivity|]. split; constructor.
  - inversion Hfs as [|? ? Hf Hfs']; subst. cbn [for_up fractions]. destruct (pick_ok ws (f * tot) Hw) as (k & E & Hk & Hb); [rewrite Etot; nra|].
    rewrite E. cbn [bind]. destruct (nth_error data k) as [x|] eqn:Ex; [|apply nth_error_None in Ex; lia]. rewrite (rd_ok _ _ _ Ex). cbn [bind]. rewrite wr_ok by lia. cbn [bind].
    destruct (IH (S i) (upd r i x) Hfs' ltac:(rewrite upd_length; lia)) as (idx & tl & E' & H1 & H2).
    exists (k :: idx), (x :: tl). split; [|split].
    + rewrite E'. f_equal. f_equal. replace (firstn (S i) (upd r i x)) with (firstn i r ++ [x]); [rewrite <- app_assoc; reflexivity|].
      clear - Hr. revert i Hr. induction r as [|y r IH]; intros [|i] Hr; cbn in *; try lia; [reflexivity|]. f_equal. apply IH. lia.
    + constructor; [unfold chosen_at; rewrite <- Etot; exact Hb|exact H1].
    + constructor; [exact Ex|exact H2].
Qed.

Lemma weighted_zero {V} (data : list V) n ws junk (g : list Q) : Forall (fun w => w == 0) ws -> length data = length ws -> (1 <= n)%nat ->
  choice_replace qltb Qplus fractions data n ws junk g = UB.
Proof.
  intros Hz HL Hn. unfold choice_replace. assert (Z0 : forall k, total (firstn k ws) == 0).
  { clear - Hz. induction Hz as [|w ws Hw H IH]; intros [|k]; try reflexivity. change (w + total (firstn k ws) == 0). rewrite IH, Hw. reflexivity. }
  destruct (rdz (cumsum Qplus ws) (to_size_t (Z.of_nat (length (cumsum Qplus ws)) - 1))) as [tot| |] eqn:Et; cbn [bind].
  - destruct n as [|n]; [lia|]. cbn [for_up]. assert (Etot : tot == 0).
    { unfold rdz in Et. destruct (_ <? 0)%Z; [discriminate|]. apply rd_ok_inv in Et. apply cumsum_nth in Et. rewrite Et. apply Z0. }
    assert (Eu : forall u, u == 0 -> std_upper_bound qltb (cumsum Qplus ws) u = Ok (length ws)).
    { intros u Hu. unfold std_upper_bound, partition_point. assert (P : forall y, In y (cumsum Qplus ws) -> negb (qltb u y) = true).
      { intros y Hy. destruct (In_nth_error _ _ Hy) as (i & Ei). apply cumsum_nth in Ei. rewrite Z0 in Ei. apply negb_true_iff. apply qltb_false. rewrite Ei, Hu. discriminate. }
      assert (Ep : prefix_length (fun y => negb (qltb u y)) (cumsum Qplus ws) = length ws).
      { rewrite <- (cumsum_length ws). clear - P. induction (cumsum Qplus ws) as [|y l IH]; [reflexivity|]. cbn [prefix_length]. rewrite (P y) by (left; reflexivity). cbn [length]. f_equal. apply IH. intros z Hz. apply P. right. exact Hz. }
      rewrite Ep. rewrite skipn_all2 by (rewrite cumsum_length; lia). reflexivity. }
    destruct g as [|f g]; cbn [fractions].
    + rewrite Eu by reflexivity. cbn [bind]. unfold rd. rewrite (proj2 (nth_error_None _ _)) by lia. reflexivity.
    + rewrite Eu by (rewrite Etot; ring). cbn [bind]. unfold rd. rewrite (proj2 (nth_error_None _ _)) by lia. reflexivity.
  - exfalso. revert Et. unfold rdz, rd. destruct (_ <? 0)%Z; [discriminate|]. destruct (nth_error _ _); discriminate.
  - reflexivity.
Qed.

(** The n largest keys *)
Lemma keys_ok ws : forall xs acc, length xs = length ws ->
  for_each (fun w '(keys, g) => let '(x, g) := numbers g in Ok (keys ++ [Qdiv w x], g)) ws (acc, xs) = Ok (acc ++ map (fun wx => fst wx / snd wx) (combine ws xs), []).
Proof.
  induction ws as [|w ws IH]; intros [|x xs] acc HL; cbn [length] in HL; try lia; cbn [for_each combine map]; [rewrite app_nil_r; reflexivity|].
  cbn [numbers bind]. rewrite IH by lia. rewrite <- app_assoc. reflexivity.
Qed.

Definition key_of ws xs (i : Z) : Q := nth (Z.to_nat i) ws 0 / nth (Z.to_nat i) xs 0.

Lemma gather_ok {V} (data : list V) idx acc : Forall (fun p => (0 <= p < Z.of_nat (length data))%Z) idx ->
  exists r, for_each (fun i acc => let* x := rdz data i in Ok (acc ++ [x])) idx acc = Ok (acc ++ r) /\ shows idx data r.
Proof.
  intros H. revert acc. induction H as [|p idx Hp H IH]; intros acc; cbn [for_each].
  - exists []. rewrite app_nil_r. split; [reflexivity|constructor].
  - destruct (nth_error data (Z.to_nat p)) as [x|] eqn:Ex; [|apply nth_error_None in Ex; lia]. rewrite (rdz_ok data p x) by (try lia; exact Ex). cbn [bind].
    destruct (IH (acc ++ [x])) as (r & E & S'). exists (x :: r). split; [rewrite E, <- app_assoc; reflexivity|]. constructor; [split; [lia|exact Ex]|exact S'].
Qed.

Lemma nodup_app_left {X} (l m : list X) : NoDup (l ++ m) -> NoDup l.
Proof. induction l as [|x l IH]; cbn; intros H; [constructor|]. apply NoDup_cons_iff in H. destruct H as (H1 & H2). constructor; [intros Hi; apply H1; apply in_or_app; left; exact Hi|exact (IH H2)]. Qed.

Lemma distinct_lemma ps {V} (data : list V) n ws xs : partial_sort_ok ps -> length data = length ws -> length xs = length ws -> (n <= length ws)%nat -> 
  exists result idx, choice_distinct qltb Qdiv numbers ps data n ws xs = Ok (result, []) /\ length idx = n /\ NoDup idx /\
    Forall (fun p => (0 <= p < Z.of_nat (length data))%Z) idx /\ shows idx data result /\
    StronglySorted (fun i j => nth (Z.to_nat j) ws 0 / nth (Z.to_nat j) xs 0 <= nth (Z.to_nat i) ws 0 / nth (Z.to_nat i) xs 0) idx /\
    (forall i j, In i idx -> ~ In j idx -> (0 <= j < Z.of_nat (length data))%Z -> nth (Z.to_nat j) ws 0 / nth (Z.to_nat j) xs 0 <= nth (Z.to_nat i) ws 0 / nth (Z.to_nat i) xs 0).
Proof.
  intros Hps HL Hx Hn. unfold choice_distinct. replace (length ws <? n)%nat with false by (symmetry; apply Nat.ltb_ge; exact Hn).
  change (fun (w : Q) '(keys, g) => let '(x, g0) := numbers g in Ok (keys ++ [w / x], g0)) with (fun (w : Q) '((keys, g) : list Q * list Q) => let '(x, g) := numbers g in Ok (keys ++ [Qdiv w x], g)).
  rewrite (keys_ok ws xs [] Hx). cbn [bind app]. set (keys := map (fun wx => fst wx / snd wx) (combine ws xs)).
  assert (Lk : length keys = length ws) by (unfold keys; rewrite map_length, combine_length; lia).
  assert (Kn : forall i, (0 <= i < Z.of_nat (length ws))%Z -> rdz keys i = Ok (key_of ws xs i)).
  { intros i Hi. apply rdz_ok; [lia|]. unfold keys, key_of. rewrite nth_error_map. 
    destruct (nth_error ws (Z.to_nat i)) as [w|] eqn:Ew; [|apply nth_error_None in Ew; lia]. destruct (nth_error xs (Z.to_nat i)) as [x|] eqn:Ex; [|apply nth_error_None in Ex; lia].
    assert (Ec : nth_error (combine ws xs) (Z.to_nat i) = Some (w, x)). { clear - Ew Ex. revert xs Ex Ew. generalize (Z.to_nat i). induction ws as [|a l IH]; intros [|k] [|b xs] Ex Ew; cbn in *; try discriminate; [congruence|]. exact (IH k xs Ex Ew). }
    rewrite Ec. cbn. rewrite (nth_error_nth _ _ 0 Ew), (nth_error_nth _ _ 0 Ex). reflexivity. }
  rewrite arange_upto.
  set (less := fun i j => match rdz keys i with Ok x => match rdz keys j with Ok y => qltb y x | _ => false end | _ => false end).
  assert (Less : forall i j, In i (upto (length ws)) -> In j (upto (length ws)) -> less i j = qltb (key_of ws xs j) (key_of ws xs i)).
  { intros i j Hi Hj. unfold upto in Hi, Hj. apply in_map_iff in Hi. apply in_map_iff in Hj. destruct Hi as (a & <- & Ha), Hj as (b & <- & Hb). apply in_seq in Ha. apply in_seq in Hb. unfold less. rewrite !Kn by lia. reflexivity. }
  destruct (Hps less n (upto (length ws))) as (P & So & Pt).
  - split; [|split].
    + intros x Hi. rewrite Less by assumption. apply qltb_false. lra.
    + intros x y z Hi Hj Hk. rewrite !Less by assumption. rewrite !qltb_true. lra.
    + intros x y z Hi Hj Hk. rewrite !Less by assumption. rewrite !qltb_false. lra.
  - rewrite upto_length. exact Hn.
  - set (out := ps less n (upto (length ws))) in *. assert (Lo : length out = length ws) by (rewrite (Permutation_length P); apply upto_length).
    assert (No : NoDup out) by (apply (Permutation_NoDup (Permutation_sym P)); apply upto_nodup).
    assert (Io : forall p, In p out <-> (0 <= p < Z.of_nat (length ws))%Z).
    { intros p. split; intros H.
      - apply (Permutation_in _ P) in H. unfold upto in H. apply in_map_iff in H. destruct H as (a & <- & Ha). apply in_seq in Ha. lia.
      - apply (Permutation_in _ (Permutation_sym P)). unfold upto. apply in_map_iff. exists (Z.to_nat p). split; [lia|]. apply in_seq. lia. }
    assert (Ss : forall p, In p (firstn n out) -> In p out) by (intros p Hp; rewrite <- (firstn_skipn n out); apply in_or_app; left; exact Hp).
    assert (Iu : forall p, In p out -> In p (upto (length ws))) by (intros p Hp; apply (Permutation_in _ P); exact Hp).
    destruct (gather_ok data (firstn n out) []) as (r & Er & Sr).
    { apply Forall_forall. intros p Hp. rewrite HL. apply Io. apply Ss. exact Hp. }
    exists r, (firstn n out). rewrite Er. cbn [bind app]. split; [reflexivity|]. split; [rewrite firstn_length; lia|].
    split; [rewrite <- (firstn_skipn n out) in No; exact (nodup_app_left _ _ No)|].
    split; [apply Forall_forall; intros p Hp; rewrite HL; apply Io; apply Ss; exact Hp|]. split; [exact Sr|]. split.
    + unfold sorted in So. clear - So Less Ss Iu. induction (firstn n out) as [|i l IH]; constructor.
      * inversion So; subst. apply IH; [assumption|]. intros p Hp. apply Ss. right. exact Hp.
      * inversion So as [|? ? S1 F1]; subst. apply Forall_forall. intros j Hj. rewrite Forall_forall in F1. pose proof (F1 j Hj) as H. rewrite Less in H by (apply Iu; apply Ss; (left; reflexivity) || (right; exact Hj)). apply qltb_false in H. exact H.
    + intros i j Hi Hj Hb. assert (Hs : In j (skipn n out)).
      { assert (Ho : In j out) by (apply Io; lia). rewrite <- (firstn_skipn n out) in Ho. apply in_app_or in Ho. destruct Ho; [contradiction|assumption]. }
      pose proof (Pt i j Hi Hs) as H. rewrite Less in H; [apply qltb_false in H; exact H|apply Iu; apply Io; lia|apply Iu; apply Ss; exact Hi].
Qed.

Open Scope Z_scope.
(** A container with no rows *)
Lemma shuffle_no_rows {G V} (uniform : Z -> G -> Z * G) (c : cont V) sh' g : ct_shape c = 0 :: sh' -> ct_data c = [] -> row_indices sh' <> [] -> shuffle uniform c g = UB.
Proof.
  intros Hs Hd Hr. unfold shuffle. rewrite Hs. cbn [length]. destruct (S (length sh') =? 1)%nat eqn:E1.
  - cbn [rd nth_error bind]. change (map Z.of_nat (seq 0 (Z.to_nat 0))) with (@nil Z). rewrite shuffle_empty_lemma. reflexivity.
  - cbn [rd nth_error bind]. assert (H : exists k, Z.to_nat (to_size_t (0 - 1)) = S k).
    { exists (Z.to_nat (to_size_t (-1) - 1)). change (0 - 1) with (-1). assert (1 <= to_size_t (-1)) by (vm_compute; discriminate). lia. }
    destruct H as (k & ->). cbn [shuffle_rows]. destruct (uniform (Z.of_nat (S k)) g) as [j g']. unfold read_all at 1. unfold sub_positions at 1. rewrite Hs, Hd. cbn [tl].
    destruct (indices sh') as [|ix l] eqn:El; [exfalso; apply Hr; exact El|]. cbn [map for_each]. unfold rdz, rd at 1. destruct (_ <? 0); [reflexivity|]. destruct (Z.to_nat _); reflexivity.
Qed.

(** Fixtures *)
Definition lcg (i : Z) (g : Z) : Z * Z := (g mod (i + 1), (g * 5 + 3) mod 64).
Lemma lcg_in_range : in_range lcg.
Proof. intros i g Hi. cbn. pose proof (Z.mod_pos_bound g (i + 1) ltac:(lia)). lia. Qed.
Definition full_sort (lt : Z -> Z -> bool) (n : nat) (l : list Z) : list Z := std_sort simple_algos Z lt l.
Lemma full_sort_ok : partial_sort_ok full_sort.
Proof.
  intros lt n l Hs Hn. destruct (proj1 simple_algos_ok Z lt l Hs) as (P & So). unfold full_sort. set (m := std_sort simple_algos Z lt l) in *.
  split; [symmetry; exact P|]. clearbody m. clear - So. unfold sorted in *. revert n. induction So as [|x m Hm IH Hx]; intros n.
  - rewrite firstn_nil, skipn_nil. split; [constructor|]. intros x y [].
  - destruct n as [|n]; cbn [firstn skipn]; [split; [constructor|intros a b []]|]. destruct (IH n) as (S1 & S2). split.
    + constructor; [exact S1|]. apply Forall_forall. intros y Hy. rewrite Forall_forall in Hx. apply Hx. rewrite <- (firstn_skipn n m). apply in_or_app. left. exact Hy.
    + intros a b [ <- | Ha ] Hb; [rewrite Forall_forall in Hx; apply Hx; rewrite <- (firstn_skipn n m); apply in_or_app; right; exact Hb|exact (S2 a b Ha Hb)].
Qed.

Lemma permutation_container_lemma {G V} (uniform : Z -> G -> Z * G) (data : list V) g : in_range uniform -> (1 <= length data)%nat -> Z.of_nat (length data) < 2 ^ 64 ->
  exists l g', permutation_container uniform data g = Ok (data, l, g') /\ Permutation l data.
Proof.
  intros Hu H1 H64. unfold permutation_container. fold (upto (length data)).
  destruct (shuffle1_lemma uniform Hu (upto (length data)) data data g (upto_nodup _) (shows_self data) H1 H64) as (m & l & g' & E & Sh & P & L & _).
  rewrite E. cbn [bind]. exists m, g'. split; [reflexivity|]. rewrite (shows_upto (length data) m l L Sh). exact P.
Qed.

Lemma permutation_view_false :
  ~ (forall (uniform : Z -> Z -> Z * Z) pos (mem l mem' res : list Z) g g', in_range uniform -> NoDup pos -> shows pos mem l -> (1 <= length l)%nat ->
       permutation_view uniform pos mem g = Ok (mem', res, g') -> shows pos mem' l).
Proof.
  intros H. assert (E : permutation_view lcg [1; 3] [10; 11; 12; 13] 0 = Ok ([10; 13; 12; 11], [10; 13; 12; 11], 3)) by (vm_compute; reflexivity).
  assert (S' : shows [1; 3] [10; 13; 12; 11] [11; 13]). { apply (H lcg [1; 3] [10; 11; 12; 13] [11; 13] [10; 13; 12; 11] [10; 13; 12; 11] 0 3 lcg_in_range); [repeat constructor; cbn; lia|repeat constructor; lia|cbn; lia|exact E]. }
  inversion S' as [|? ? ? ? (_ & A) ?]; subst. cbn in A. discriminate.
Qed.

Lemma no_rows_lemma {G V} (uniform : Z -> G -> Z * G) (c : cont V) sh' g : consistent c -> ct_shape c = 0 :: sh' -> row_indices sh' <> [] -> shuffle uniform c g = UB.
Proof.
  intros (_ & _ & _ & Hl & _) Hs. apply shuffle_no_rows; [exact Hs|]. rewrite Hs in Hl. change (Strides_Spec.prod (0 :: sh')) with 0 in Hl. destruct (ct_data c); [reflexivity|cbn [length] in Hl; lia].
Qed.
Definition no_rows : cont Z := ck [0; 2] row_major [].
Lemma no_rows_ok : consistent no_rows.
Proof. unfold no_rows. ckc. Qed.

Lemma choice_scripted_lemma {V} (data junk : list V) ds : Z.of_nat (length data) < 2 ^ 64 -> Forall (fun d => 0 <= d < Z.of_nat (length data)) ds -> length junk = length ds ->
  exists result, choice scripted data (Z.of_nat (length data)) (length ds) true junk (map (fun d => (Z.of_nat (length data) - 1, d)) ds) = Ok (result, []) /\ shows ds data result.
Proof.
  intros H64 Hd Hj. unfold choice. set (top := Z.of_nat (length data) - 1).
  enough (Q : forall ds i r, Forall (fun d => 0 <= d < Z.of_nat (length data)) ds -> length r = (i + length ds)%nat ->
    exists tl, for_up (fun i '(result, g) => let '(k, g) := scripted (to_size_t top) g in let* x := rdz data k in let* result := wr result i x in Ok (result, g)) i (length ds) (r, map (fun d => (top, d)) ds) = Ok (firstn i r ++ tl, []) /\ shows ds data tl).
  { destruct (Q ds 0%nat junk Hd ltac:(lia)) as (tl & E & H). exists tl. split; [exact E|exact H]. }
  clear ds junk Hd Hj. induction ds as [|d ds IH]; intros i r Hd Hr; cbn [length] in *.
  - exists []. cbn [for_up map]. rewrite firstn_all2 by lia. rewrite app_nil_r. split; [reflexivity|constructor].
  - inversion Hd as [|? ? Hd0 Hd']; subst. cbn [for_up scripted map]. replace (to_size_t top =? top) with true by (symmetry; apply Z.eqb_eq; unfold to_size_t, top; rewrite Z.mod_small; lia).
    destruct (nth_error data (Z.to_nat d)) as [x|] eqn:Ex; [|apply nth_error_None in Ex; lia].
    rewrite (rdz_ok data d x) by (try lia; exact Ex). cbn [bind]. rewrite wr_ok by lia. cbn [bind].
    destruct (IH (S i) (upd r i x) Hd' ltac:(rewrite upd_length; lia)) as (tl & E' & H).
    exists (x :: tl). split; [|constructor; [split; [lia|exact Ex]|exact H]]. rewrite E'. f_equal. f_equal. replace (firstn (S i) (upd r i x)) with (firstn i r ++ [x]); [rewrite <- app_assoc; reflexivity|].
    clear - Hr. revert i Hr. induction r as [|y r IH]; intros [|i] Hr; cbn in *; try lia; [reflexivity|]. f_equal. apply IH. lia.
Qed.

Open Scope Q_scope.
Lemma positive_lemma ps (data : list Z) n ws xs : partial_sort_ok ps -> length data = length ws -> length xs = length ws -> Forall (fun w => 0 <= w) ws -> Forall (fun x => 0 < x) xs ->
  (n <= length (filter (qltb 0) ws))%nat ->
  exists result idx, choice_distinct qltb Qdiv numbers ps data n ws xs = Ok (result, []) /\ shows idx data result /\ NoDup idx /\ length idx = n /\
    Forall (fun i => 0 < nth (Z.to_nat i) ws 0) idx.
Proof.
  intros Hps HL Hx Hw Hxs Hn.
  assert (Hn' : (n <= length ws)%nat). { clear - Hn. revert n Hn. induction ws as [|w l IH]; intros n Hn; cbn [filter length] in *; [exact Hn|]. destruct (qltb 0 w); cbn [length] in Hn; [destruct n as [|n]; [lia|]; pose proof (IH n ltac:(lia)); lia|pose proof (IH n Hn); lia]. }
  destruct (distinct_lemma ps data n ws xs Hps HL Hx Hn') as (result & idx & E & L & Nd & B & Sh & So & Out).
  exists result, idx. split; [exact E|]. split; [exact Sh|]. split; [exact Nd|]. split; [exact L|].
  apply Forall_forall. intros i Hi. rewrite Forall_forall in B. pose proof (B i Hi) as Bi. rewrite HL in Bi.
  assert (Wn : forall j, 0 <= nth (Z.to_nat j) ws 0). { intros j. destruct (Nat.lt_ge_cases (Z.to_nat j) (length ws)) as [H|H]; [rewrite Forall_forall in Hw; apply Hw; apply nth_In; exact H|rewrite nth_overflow by exact H; discriminate]. }
  assert (Xp : forall j, (0 <= j < Z.of_nat (length ws))%Z -> 0 < nth (Z.to_nat j) xs 0) by (intros j Hj; rewrite Forall_forall in Hxs; apply Hxs; apply nth_In; lia).
  destruct (Qlt_le_dec 0 (nth (Z.to_nat i) ws 0)) as [|Hle]; [assumption|]. exfalso.
  assert (Hz : nth (Z.to_nat i) ws 0 == 0) by (pose proof (Wn i); lra).
  (* every positive weight is at a chosen position *)
  assert (All : forall j, (j < length ws)%nat -> 0 < nth j ws 0 -> In (Z.of_nat j) idx).
  { intros j Hj Hp. destruct (in_dec Z.eq_dec (Z.of_nat j) idx) as [|Hno]; [assumption|]. exfalso.
    pose proof (Out i (Z.of_nat j) Hi Hno ltac:(lia)) as K. rewrite Nat2Z.id in K.
    assert (K0 : nth (Z.to_nat i) ws 0 / nth (Z.to_nat i) xs 0 == 0) by (rewrite Hz; unfold Qdiv; ring).
    rewrite K0 in K. pose proof (Xp (Z.of_nat j) ltac:(lia)) as Xj. rewrite Nat2Z.id in Xj.
    assert (0 < nth j ws 0 / nth j xs 0) by (apply Qlt_shift_div_l; [exact Xj|]; rewrite Qmult_0_l; exact Hp). lra. }
  (* so there are more chosen positions than n *)
  set (posi := filter (fun j => qltb 0 (nth j ws 0)) (seq 0 (length ws))).
  assert (Lp : length posi = length (filter (qltb 0) ws)).
  { unfold posi. clear. enough (H : forall pre, length (filter (fun j => qltb 0 (nth j (pre ++ ws) 0)) (seq (length pre) (length ws))) = length (filter (qltb 0) ws)) by exact (H []).
    induction ws as [|w l IH]; intros pre; cbn [length seq filter]; [reflexivity|]. rewrite app_nth2 by lia. rewrite Nat.sub_diag. cbn [nth].
    specialize (IH (pre ++ [w])). rewrite app_length, <- app_assoc in IH. cbn [length app] in IH. rewrite Nat.add_1_r in IH. destruct (qltb 0 w); cbn [length]; rewrite IH; reflexivity. }
  assert (Ni : NoDup (i :: map Z.of_nat posi)).
  { constructor.
    - intros H. apply in_map_iff in H. destruct H as (j & <- & Hj). unfold posi in Hj. apply filter_In in Hj. destruct Hj as (_ & Hj). apply qltb_true in Hj. rewrite Nat2Z.id in Hz. rewrite Hz in Hj. lra.
    - apply nodup_map_in; [intros a b _ _; lia|]. apply NoDup_filter. apply seq_NoDup. }
  assert (Hincl : incl (i :: map Z.of_nat posi) idx).
  { intros z [ <- | Hz' ]; [exact Hi|]. apply in_map_iff in Hz'. destruct Hz' as (j & <- & Hj). unfold posi in Hj. apply filter_In in Hj. destruct Hj as (Hj1 & Hj2). apply in_seq in Hj1. apply qltb_true in Hj2. apply All; [lia|exact Hj2]. }
  pose proof (NoDup_incl_length Ni Hincl) as Q. cbn [length] in Q. rewrite map_length, Lp, L in Q. lia.
Qed.
