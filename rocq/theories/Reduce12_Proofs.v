(** Immediate reduction: assembling the proof. *)
From Coq Require Import List ZArith Lia Bool Sorted.
From Verif Require Import Prelude PreludeFacts Strides_Model Strides_Spec Strides_Proofs Stepper_Proofs Assign4_Proofs Manip_Proofs Container_Model Container_Spec Container_Proofs
  Reduce_Model Reduce_Spec Reduce_Proofs Reduce3_Proofs Reduce4_Proofs Reduce5_Proofs Reduce8_Proofs Reduce9_Proofs Reduce10_Proofs Reduce11_Proofs.
Import ListNotations.
Open Scope Z_scope.

Lemma Forall_skipn {A} (P : A -> Prop) n l : Forall P l -> Forall P (skipn n l).
Proof. intros H. rewrite <- (firstn_skipn n l) in H. apply Forall_app in H. apply H. Qed.
Lemma Forall_firstn {A} (P : A -> Prop) n l : Forall P l -> Forall P (firstn n l).
Proof. intros H. rewrite <- (firstn_skipn n l) in H. apply Forall_app in H. apply H. Qed.

Lemma skipn_skipn' {A} : forall b a (l : list A), skipn a (skipn b l) = skipn (b + a) l.
Proof. induction b; intros a l; [reflexivity|]. destruct l; [rewrite !skipn_nil; reflexivity|]. cbn [skipn Nat.add]. apply IHb. Qed.
Lemma sorted_rev : forall l, StronglySorted Z.lt l -> StronglySorted Z.gt (rev l).
Proof.
  induction l as [|a l IH]; intros H; [constructor|]. inversion H as [|? ? HS HA]; subst. cbn [rev].
  assert (G : forall (l1 : list Z) x, StronglySorted Z.gt l1 -> Forall (fun y => y > x) l1 -> StronglySorted Z.gt (l1 ++ [x])).
  { induction l1 as [|z l1 IHl]; intros x Hs Hf; [repeat constructor|]. inversion Hs; subst. inversion Hf; subst. cbn. constructor; [apply IHl; assumption|].
    apply Forall_app. split; [assumption|]. constructor; [lia|constructor]. }
  apply G; [apply IH; exact HS|]. apply Forall_rev. eapply Forall_impl; [|exact HA]. cbn. intros. lia.
Qed.

Section Kernel.
Context {T R : Type} (f : rfun T R) (keep : bool) (axes esh st : list Z).
Hypothesis Hpos : Forall (fun d => 0 < d) esh.
Hypothesis Hv : valid_axes (length esh) axes.
Hypothesis Hne : axes <> [].
Hypothesis Hlaw : (length axes <= 1)%nat \/ merge_law f.
Let lead := Z.to_nat (last axes 0).
Lemma lead_ok : Z.of_nat lead = last axes 0 /\ (lead < length esh)%nat /\ In (Z.of_nat lead) axes.
Proof.
  destruct Hv as [HS HF]. rewrite Forall_forall in HF. pose proof (last_In axes 0 Hne) as Hi. pose proof (HF _ Hi). unfold lead.
  split; [lia|]. split; [lia|]. rewrite Z2Nat.id by lia. exact Hi.
Qed.
Variables (data : list T) (ev : list Z -> T) (istr : list Z) (buf : list R).
Hypothesis Hdata : forall jx, in_bounds esh jx -> nth_error data (Z.to_nat (row_pos esh jx)) = Some (ev jx).
Hypothesis Hdlen : Z.of_nat (length data) = prod esh.
Hypothesis Hblen : Z.of_nat (length buf) = prod (red_shape keep axes esh).
Hypothesis Hilen : length istr = length esh.
Hypothesis Hdot : forall jx, in_bounds esh jx -> dot jx istr = row_pos (red_shape keep axes esh) (red_index keep axes jx).

Lemma kernel_lemma fuel : (Z.to_nat (prod esh) <= fuel)%nat ->
  exists L o, merge_loops esh (tl (rev axes)) (nth lead esh 0) (last axes 0) = Ok (o, Z.of_nat L) /\ (L <= lead)%nat /\
  exists d, reduce_loop f fuel data (Z.to_nat o) (Z.to_nat (prod (skipn (S lead) esh))) (firstn L esh) (firstn L istr)
      (repeat 0 (length (firstn L esh))) 0 0 0 false buf = Ok d /\ length d = length buf /\
    forall rx, in_bounds (red_shape keep axes esh) rx ->
      nth_error d (Z.to_nat (row_pos (red_shape keep axes esh) rx)) =
      Some (fold_left (rf_reduce f) (map ev (filter (fun jx => eqb_idx (red_index keep axes jx) rx) (row_indices esh))) (rf_init f)).
Proof.
  intros Hf. destruct lead_ok as (El & Hl & Hi). destruct Hv as [HS HF].
  assert (Er : rev axes = last axes 0 :: tl (rev axes)).
  { rewrite (app_removelast_last 0 Hne) at 1 3. rewrite rev_unit. reflexivity. }
  destruct (merge_row esh axes lead Hl (tl (rev axes)) lead) as (L & EL & HL & HJ).
  - lia.
  - rewrite El, <- Er. apply sorted_rev. exact HS.
  - apply Forall_forall. intros a Ha. assert (In a axes) as Ha' by (apply in_rev; rewrite Er; right; exact Ha).
    split; [|exact Ha']. rewrite Forall_forall in HF. apply HF in Ha'. lia.
  - intros j Hj. assert (j = lead) by lia. subst j. exact Hi.
  - replace (lead + 1 - lead)%nat with 1%nat in EL by lia. rewrite (skipn_nth 0 esh lead Hl) in EL. cbn [firstn] in EL. rewrite prod_cons, prod_nil, Z.mul_1_r in EL.
    exists L, (prod (firstn (lead + 1 - L) (skipn L esh))). rewrite <- El. split; [exact EL|]. split; [exact HL|].
    set (A := firstn L esh). set (M := firstn (lead + 1 - L) (skipn L esh)). set (P := skipn (S lead) esh).
    assert (Es : esh = A ++ M ++ P).
    { unfold A, M, P. rewrite <- (firstn_skipn L esh) at 1. f_equal. rewrite <- (firstn_skipn (lead + 1 - L) (skipn L esh)) at 1. f_equal.
      rewrite skipn_skipn'. f_equal. lia. }
    assert (LA : length A = L) by (unfold A; rewrite firstn_length_le by lia; reflexivity).
    assert (LM : length M = (lead + 1 - L)%nat) by (unfold M; rewrite firstn_length_le; [reflexivity|rewrite skipn_length; lia]).
    assert (HA : Forall (fun d => 0 < d) A) by (apply Forall_firstn; exact Hpos).
    assert (HM : Forall (fun d => 0 < d) M) by (apply Forall_firstn, Forall_skipn; exact Hpos).
    assert (HP : Forall (fun d => 0 < d) P) by (apply Forall_skipn; exact Hpos).
    assert (HM' : forall j, (j < length M)%nat -> In (Z.of_nat (length A) + Z.of_nat j) axes).
    { intros j Hj. rewrite LA, <- Nat2Z.inj_add. apply HJ. lia. }
    assert (HP' : forall j, (j < length P)%nat -> ~ In (Z.of_nat (length A) + Z.of_nat (length M) + Z.of_nat j) axes).
    { intros j Hj Hin. apply (last_max axes _ HS) in Hin. rewrite <- El in Hin. lia. }
    assert (Hpa : (Z.to_nat (prod A) <= fuel)%nat).
    { rewrite Es, !prod_app in Hf. pose proof (prod_pos A HA). pose proof (prod_pos M HM). pose proof (prod_pos P HP). assert (1 <= prod M * prod P) by nia. assert (prod A <= prod A * (prod M * prod P)) by nia. lia. }
    rewrite Es in Hdata, Hdlen, Hblen, Hdot |- *.
    apply core_lemma; try assumption.
    + destruct Hlaw as [H1|H1]; [left|right; exact H1]. intros j Hj Hin. destruct axes as [|a [|b t]]; try (cbn in H1; lia); [congruence|].
      cbn in Hin, Hi. lia.
    + intros ix Hb.
      assert (Ep : dot ix (firstn L istr) = dot (ix ++ repeat 0 (length M) ++ repeat 0 (length P)) istr).
      { rewrite <- (firstn_skipn L istr) at 2. pose proof (in_bounds_length _ _ Hb) as Lx. rewrite dot_app by (rewrite firstn_length_le by lia; lia).
        rewrite <- repeat_app. assert (Z0 : forall n s, dot (repeat 0 n) s = 0) by (induction n; intros [|s0 s]; cbn; try reflexivity; apply IHn).
        rewrite Z0. lia. }
      rewrite inner_product_dot, Z.add_0_l, Ep.
      assert (Bz : forall s, Forall (fun d => 0 < d) s -> in_bounds s (repeat 0 (length s))) by (intros; apply zeros_in_bounds; assumption).
      rewrite Hdot by (apply Forall2_app; [exact Hb|apply Forall2_app; apply Bz; assumption]).
      rewrite (core_index keep axes A M P) by (try assumption; rewrite ?repeat_length; try reflexivity; apply in_bounds_length; exact Hb).
      rewrite (core_shape keep axes A M P) by assumption. rewrite row_pos_app by (apply in_bounds_length, rix_bounds; exact Hb).
      rewrite row_pos_app by (destruct keep; rewrite ?repeat_length; reflexivity).
      rewrite row_pos_repeat0, prod_app. destruct keep; rewrite ?prod_ones, ?row_pos_repeat0, ?prod_nil; cbn [row_pos]; lia.
Qed.
End Kernel.

