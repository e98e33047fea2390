(** Proofs about quantile: quantiles of samples. *)
From Coq Require Import List ZArith Bool Lia QArith Qcanon Qround Permutation Sorted Qfield.
From Verif Require Import Prelude PreludeFacts Strides_Model Strides_Spec Strides_Proofs Access_Model Broadcast_Model Broadcast_Spec Container_Model Container_Spec
  Stepper_Model Stepper_Spec Semantic_Spec Reduce_Model Accum_Spec Sort_Model Sort_Spec Sort3_Proofs Sort6_Proofs Sort8_Proofs Stats_Model
  Quantile_Model Quantile_Spec Quantile_Proofs Quantile2_Proofs Quantile3_Proofs.
Import ListNotations.
Open Scope Z_scope.

Section Main.
Variables (SL DL : layout) (fresh : list Qc -> Z -> list Qc) (n0 : nat) (v0 : Qc) (a : algos).
Hypothesis (Hfresh : resizes fresh) (HDL : is_order DL) (Ha : std_ok a).
Variables (c : cont Qc) (ev : list Z -> Qc) (axis : Z).
Hypothesis (Hc : consistent c) (Hdoc : documented c) (Hl : is_order (ct_layout c)) (Hlay : sort_type SL DL n0 c).
Hypothesis He : forall jx, in_bounds (ct_shape c) jx -> elt c jx = Ok (ev jx).
Hypothesis (Hdim : (1 <= length (ct_shape c))%nat) (Hsmall : Z.of_nat (length (ct_shape c)) < 2 ^ 63) (Haxis : valid_axis (length (ct_shape c)) axis).
Hypothesis Hext : Forall (fun d => d < 2 ^ 64) (ct_shape c).
Let sh := ct_shape c.
Let ax := the_axis (length sh) axis.
Let n := nth ax sh 0.
Hypothesis Hn : 1 <= n.
Variables (probas : list Qc) (alpha beta : Qc).
Hypothesis Hprobas : 2 * Z.of_nat (length probas) < 2 ^ 64.

Lemma split_shape (l : list Z) k : (k < length l)%nat -> l = firstn k l ++ nth k l 0 :: skipn (S k) l.
Proof.
  intros H. rewrite <- (firstn_skipn k l) at 1. f_equal. revert l H. induction k; intros [|x l] H; cbn in *; try lia; [reflexivity|]. apply IHk. lia.
Qed.

Lemma clip_range n' j : 1 <= n' < 2 ^ 64 -> clip_index n' j = Z.max 0 (Z.min j (n' - 1)) /\ 0 <= clip_index n' j < n'.
Proof. intros H. unfold clip_index, to_size_t. rewrite Z.mod_small by lia. lia. Qed.

Lemma quantile_lemma : exists r, quantile row_major SL DL fresh n0 v0 a c probas axis alpha beta = Ok r /\
  q_shape r = Z.of_nat (length probas) :: without_axis ax sh /\
  forall i p ix s, nth_error probas i = Some p -> in_bounds sh ix -> Permutation (lane ev ax n ix) s -> increasing s ->
    q_at r (Z.of_nat i :: without_axis ax ix) = Ok (Some (sample_quantile alpha beta s p)).
Proof.
  destruct (norm_axis_eq (length sh) axis Hdim Hsmall Haxis) as [Eax Hax]. fold ax in Eax, Hax.
  assert (Hsh : is_shape sh) by (destruct Hc; assumption).
  set (pre := firstn ax sh). set (post := skipn (S ax) sh). assert (Es : sh = pre ++ n :: post) by (apply split_shape; exact Hax).
  assert (Lp : length pre = ax) by (unfold pre; rewrite firstn_length; lia).
  assert (Hsplit : is_shape pre /\ is_shape post /\ Forall (fun d => d < 2 ^ 64) pre /\ Forall (fun d => d < 2 ^ 64) post /\ n < 2 ^ 64).
  { fold sh in Hext. unfold is_shape in Hsh. rewrite Es in Hsh, Hext. apply Forall_app in Hsh as [A B]. apply Forall_app in Hext as [C D]. inversion B; inversion D; subst. repeat split; assumption. }
  destruct Hsplit as (H1 & H2 & H3 & H4 & H5).
  set (js := map qc_floor (map (Quantile_Model.position n alpha beta) probas)). set (ks := map (clip_index n) (js ++ map (fun k => k + 1) js)).
  set (gam := map (fun x => x - qc_of (qc_floor x))%Qc (map (Quantile_Model.position n alpha beta) probas)). set (gs := map (fun g => 1 - g)%Qc gam ++ gam).
  assert (Ljs : length js = length probas) by (unfold js; rewrite !map_length; reflexivity).
  assert (Lgam : length gam = length probas) by (unfold gam; rewrite !map_length; reflexivity).
  assert (Lks : length ks = (2 * length probas)%nat) by (unfold ks; rewrite map_length, app_length, map_length; lia).
  assert (Lgs : length gs = length ks) by (unfold gs; rewrite app_length, map_length; lia).
  assert (Hks : Forall (fun k => 0 <= k < n) ks).
  { unfold ks. rewrite Forall_map. apply Forall_forall. intros j _. apply clip_range. lia. }
  assert (Hva : valid_axis (length sh) (Z.of_nat ax)) by (unfold valid_axis; lia).
  assert (Eta : the_axis (length sh) (Z.of_nat ax) = ax) by (unfold the_axis; rewrite Z.mod_small by lia; apply Nat2Z.id).
  destruct (partition_lemma SL DL fresh n0 v0 a qc_lt Hfresh HDL Ha c ev (Z.of_nat ax) Hc Hdoc Hl Hlay He Hdim Hsmall Hva (qc_swo _) ks) as (part & ev' & Ep & _ & Hpart & Hlanes).
  { fold sh. rewrite Eta. exact Hks. }
  fold sh in Hpart, Hlanes. rewrite Eta in Hlanes. fold n in Hlanes. rewrite Es in Hpart.
  assert (Hd' : Z.of_nat (length (pre ++ n :: post)) < 2 ^ 63) by (rewrite <- Es; exact Hsmall).
  destruct (rest_lemma pre post n ks gs part ev' (length probas) H1 H2 H3 H4 Hpart Hks Hprobas Lks Lgs Hd') as (r & Er & Eq & Hr).
  exists r. split; [|split].
  - unfold quantile. fold sh. rewrite Eax. rewrite (rdz_ok sh (Z.of_nat ax) n) by (try lia; rewrite Nat2Z.id; apply nth_error_nth'; exact Hax). cbn [bind].
    unfold quantile_kth_gamma. fold js gam. fold ks gs. rewrite Ep. cbn [bind]. unfold rest in Er. rewrite Lp in Er. rewrite Es. exact Er.
  - rewrite Eq. reflexivity.
  - intros i p ix s Hp Hi Ps Hinc. assert (Hip : (i < length probas)%nat) by (apply nth_error_Some; congruence).
    destruct (Hlanes ix Hi) as [P1 P2]. rewrite Es in Hi. destruct (split_bounds _ _ _ _ Hi) as (x & z & y & Ei & Lx & Ly & Hx & Hz & Hy).
    assert (Ew : without_axis ax ix = x ++ y).
    { unfold without_axis. rewrite Ei, <- Lp, <- Lx, firstn_app, Nat.sub_diag, firstn_all, skipn_app, skipn_all2 by lia. replace (S (length x) - length x)%nat with 1%nat by lia. cbn. rewrite app_nil_r. reflexivity. }
    rewrite Ew, (Hr x y i Hx Hy Hip). do 2 f_equal.
    assert (Ls : Z.of_nat (length s) = n) by (rewrite <- (Permutation_length Ps); unfold lane; rewrite map_length, seq_length; lia).
    assert (Hos : forall j, In (clip_index n j) ks -> ev' (x ++ clip_index n j :: y) = order_statistic s j).
    { intros j Hj. destruct (clip_range n j) as [Ec Hc']; [lia|]. unfold order_statistic. rewrite Ls, <- Ec. set (k := clip_index n j) in *.
      assert (Hnk : nth_error (lane ev' ax n ix) (Z.to_nat k) = Some (ev' (x ++ k :: y))).
      { unfold lane. rewrite nth_error_map, (nth_error_nth' _ 0%nat) by (rewrite seq_length; lia). rewrite seq_nth by lia. cbn [option_map]. do 2 f_equal.
        rewrite Nat.add_0_l, Z2Nat.id by lia. rewrite Ei, <- Lp, <- Lx. apply upd_mid. }
      destruct (in_place_sorted qc_lt (lane ev' ax n ix) s (Z.to_nat k) _ (qc_swo _) (Permutation_trans (Permutation_sym P1) Ps) (increasing_sorted s Hinc) (P2 k Hj) Hnk) as (w & Hw & Eqv).
      apply qc_equiv in Eqv. rewrite Eqv. symmetry. apply nth_error_nth. exact Hw. }
    assert (Npos : nth_error (map (Quantile_Model.position n alpha beta) probas) i = Some (Quantile_Model.position n alpha beta p)) by (rewrite nth_error_map, Hp; reflexivity).
    set (h := Quantile_Model.position n alpha beta p) in *.
    assert (Njs : nth_error js i = Some (qc_floor h)) by (unfold js; rewrite nth_error_map, Npos; reflexivity).
    assert (Ngam : nth_error gam i = Some (h - qc_of (qc_floor h))%Qc) by (unfold gam; rewrite nth_error_map, Npos; reflexivity).
    assert (K1 : nth_error ks i = Some (clip_index n (qc_floor h))) by (unfold ks; rewrite nth_error_map, nth_error_app1, Njs by lia; reflexivity).
    assert (K2 : nth_error ks (length probas + i) = Some (clip_index n (qc_floor h + 1))).
    { unfold ks. rewrite nth_error_map, nth_error_app2 by lia. rewrite Ljs. replace (length probas + i - length probas)%nat with i by lia. rewrite nth_error_map, Njs. reflexivity. }
    assert (G1 : nth_error gs i = Some (1 - (h - qc_of (qc_floor h)))%Qc) by (unfold gs; rewrite nth_error_app1, nth_error_map, Ngam by (rewrite map_length; lia); reflexivity).
    assert (G2 : nth_error gs (length probas + i) = Some (h - qc_of (qc_floor h))%Qc).
    { unfold gs. rewrite nth_error_app2; rewrite map_length; [|lia]. rewrite Lgam. replace (length probas + i - length probas)%nat with i by lia. exact Ngam. }
    unfold combined. rewrite (nth_error_nth _ _ _ K1), (nth_error_nth _ _ _ K2), (nth_error_nth _ _ _ G1), (nth_error_nth _ _ _ G2).
    rewrite !Hos by (eapply nth_error_In; eassumption). unfold sample_quantile. rewrite Ls. reflexivity.
Qed.
End Main.
