(** Proofs about assignment when shapes are part of types, continued. *)
From Coq Require Import List ZArith Bool Lia.
From Verif Require Import Prelude PreludeFacts Strides_Model Strides_Spec Strides_Proofs Broadcast_Model Broadcast_Spec
  Broadcast_Proofs Broadcast2_Proofs Layout_Model Slice_Model Access_Model
  Stepper_Model Stepper_Spec Stepper_Proofs Stepper3_Proofs Stepper4_Proofs Container_Model Container_Spec Container_Proofs
  Assign_Model Assign_Spec Assign_Proofs Assign2_Proofs Assign6_Proofs Assign7_Proofs Semantic_Model Semantic_Spec Semantic_Proofs
  Semantic2_Proofs Semantic3_Proofs Fixed_Model Fixed_Spec Fixed_Proofs Fixed2_Proofs.
Import ListNotations.
Open Scope Z_scope.

Section S.
Context {V : Type} (g : Z -> setup) (SL : layout) (D : option nat) (DL : layout) (rs : list V -> Z -> list V) (FD FR : bool).
Hypothesis Hg : setups_ok g.
Hypothesis HDL : is_order DL.
Hypothesis Hrs : resizes rs.

(** What the caller has to ensure about the shapes. *)
Definition shapes_suit (a : cont V) (e : aexp V) : Prop :=
  (if FD then broadcast_of (operand_shapes e) (ct_shape a) else rank_matches D e) /\
  (FR = true -> plain_operands e /\ visible_broadcast e).

Lemma rhs_any (e : aexp V) : Forall real_shape (operand_shapes e) -> compatible (operand_shapes e) ->
  (FR = true -> plain_operands e /\ visible_broadcast e) ->
  exists sh t, (if FR then static_rhs e else rhs_shape e) = Ok (sh, t) /\ broadcast_of (operand_shapes e) sh /\
    (t = true -> Forall (fun s => s = sh) (operand_shapes e)).
Proof.
  intros HR HC HF. destruct FR.
  - destruct (HF eq_refl) as [H1 H2]. apply static_rhs_ok; assumption.
  - apply (rhs_shape_ok e HR). exact HC.
Qed.

Lemma compat_broadcast (ss : list (list Z)) o : broadcast_of ss o -> compatible ss.
Proof.
  intros (_ & _ & B) s t k Hs Ht. destruct (B k) as [B1 _]. destruct (B1 s Hs) as [|E1]; [auto|]. destruct (B1 t Ht) as [|E2]; [auto|].
  right. right. congruence.
Qed.

Lemma s_assign_direct (a : cont V) e mem0 : well_formed SL D a -> valid_operands g mem0 e -> compatible (operand_shapes e) ->
  shapes_suit a e -> (closed e \/ exists sh, broadcast_of (operand_shapes e) sh /\ prod sh = 0) ->
  exists a', (forall r, s_assign_xexpression g SL D DL rs FD FR a e r <-> r = Done a') /\ well_formed SL D a' /\ holds_value mem0 e a' /\
    (FD = true -> ct_shape a' = ct_shape a).
Proof.
  intros Hw Hv Hcomp [HS HFR] Hcl. pose proof (valid_real _ _ _ Hv) as Hreal.
  destruct (rhs_any e Hreal Hcomp HFR) as (sh & t & E & Hb & Ht).
  assert (Hsh : is_shape sh) by (apply real_is_shape; eapply broadcast_is_shape; eassumption).
  assert (Hstep : exists a1, (FD = true -> a1 = a) /\ (FD = false -> c_resize SL DL rs a sh false = Ok a1) /\ well_formed SL D a1 /\ ct_shape a1 = sh).
  { destruct FD.
    - exists a. split; [auto|]. split; [discriminate|]. split; [exact Hw|]. eapply broadcast_of_unique; [|exact HS|exact Hb]. tauto.
    - assert (HD' : match D with Some n => length sh = n | None => True end) by (destruct D; [apply HS; exact Hb|exact I]).
      destruct (resize_wf SL D DL rs Hrs HDL a sh Hw Hsh HD') as (a1 & E1 & Hw1 & Es1). exists a1. split; [discriminate|]. auto. }
  destruct Hstep as (a1 & A1 & A2 & Hw1 & Es1).
  assert (Hred : forall r, s_assign_xexpression g SL D DL rs FD FR a e r <-> c_assign_data g SL D a1 (if FD then e else rebind SL D a a1 e) t r).
  { intros r. unfold s_assign_xexpression. rewrite E. destruct FD; [rewrite A1 by reflexivity; tauto|rewrite A2 by reflexivity; tauto]. }
  destruct (Z.eq_dec (prod sh) 0) as [H0|H0].
  - exists a1. split; [|split; [exact Hw1|split]].
    + intros r. rewrite Hred. unfold c_assign_data. pose proof Hw1 as (_ & (L1 & _) & _).
      set (e' := if FD then e else rebind SL D a a1 e).
      assert (Hd : leaves_ok (fun _ k => (length (k_strides k) <= length sh)%nat) e).
      { eapply leaf_dims; [|apply Hv]. intros s Hs. eapply broadcast_fits; eassumption. }
      cbn in L1.
      assert (Hm : forall d, assign_data (g (compute_size (ct_shape a1))) (c_meta SL D a1) (c_strided a1) e' t (ct_data a1) d <-> d = Ok (ct_data a1)).
      { intros d. apply assign_empty; cbn.
        - rewrite Es1. exact Hsh.
        - rewrite Es1. exact H0.
        - rewrite compute_size_prod, Es1, H0. apply Hg. lia.
        - rewrite L1, Es1. unfold e'. destruct FD; [exact Hd|]. apply rebind_dims; [rewrite L1, Es1; lia|exact Hd]. }
      split.
      * intros (d & Hdd & ->). apply Hm in Hdd. subst d. destruct a1; reflexivity.
      * intros ->. exists (Ok (ct_data a1)). split; [apply Hm; reflexivity|destruct a1; reflexivity].
    + split; [rewrite Es1; exact Hb|]. intros ix Hix. rewrite Es1 in Hix. exfalso. eapply empty_no_index; eassumption.
    + intros HF. rewrite A1 by exact HF. reflexivity.
  - assert (Hc : closed e).
    { destruct Hcl as [|(sh' & Hb' & H0')]; [assumption|]. exfalso. apply H0. rewrite <- H0'. f_equal. eapply broadcast_of_unique; [|exact Hb|exact Hb']. tauto. }
    destruct Hv as (V1 & V2 & V3 & V4 & V5).
    assert (Hop : operands_ok (ct_shape a1) (inst (ct_data a1) e)).
    { apply operands_inst with (mem1 := mem0). apply operands_fit; [|exact V1]. intros s Hs. rewrite Es1. eapply broadcast_fits; eassumption. }
    destruct (c_assign_data_ok g SL D a1 e t Hg Hw1 Hop) as (a' & Hiff & Hw' & Es' & Hval).
    + eapply closed_storage; eassumption.
    + exact V3.
    + exact V4.
    + intros Htt. rewrite Es1. apply (leaves_shapes e (fun s => s = sh)). auto.
    + apply closed_elementwise; assumption.
    + exists a'. split; [|split; [exact Hw'|split]].
      * intros r. rewrite Hred. rewrite rebind_closed by assumption. destruct FD; apply Hiff.
      * split; [rewrite Es', Es1; exact Hb|]. intros ix Hix. rewrite Es' in Hix. destruct (Hval ix Hix) as (x & X1 & X2).
        exists x. split; [|exact X2]. rewrite <- X1. apply closed_value; assumption.
      * intros HF. rewrite Es'. rewrite A1 by exact HF. reflexivity.
Qed.

(** The overlap check: it answers, and if it says no the expression does not read the
    destination. *)
Lemma overlap_ok (a : cont V) e : well_formed SL D a -> valid_operands g (ct_data a) e -> compatible (operand_shapes e) ->
  exists b, check_overlap (c_strided a) e = Ok b /\
    (b = false -> closed e \/ exists sh, broadcast_of (operand_shapes e) sh /\ prod sh = 0).
Proof.
  intros Hw Hv Hcomp. pose proof (valid_real _ _ _ Hv) as Hreal. pose proof Hw as (Hs & Hst & Hlen & HSL & _).
  destruct (proj1 (rhs_shape_ok e Hreal) Hcomp) as (sh & t & E & Hb & Ht).
  assert (Hsh : is_shape sh) by (apply real_is_shape; eapply broadcast_is_shape; eassumption).
  assert (Hfit : forall s, In s (operand_shapes e) -> fits s sh) by (intros s Hin; eapply broadcast_fits; eassumption).
  destruct (Z.eq_dec (prod sh) 0) as [H0|H0].
  - exists false. split; [|intros _; right; exists sh; auto]. unfold check_overlap.
    destruct (dst_range (c_strided a)) as [rg|]; [apply (expr_overlaps_empty rg e sh t E H0)|reflexivity].
  - assert (Hall : all_leaves (fun s leaf => fits s sh /\ (real_shape s /\ match leaf with XStrided c _ => strided_ok c | XIndexed _ _ => s <> [] | _ => True end) /\
                match leaf with XStrided c buf => forall ix, in_bounds (k_shape c) ix -> 0 <= k_begin c + dot ix (k_strides c) < Z.of_nat (length buf) | _ => True end) (inst (ct_data a) e)).
    { eapply all_leaves_shapes with (P := fun s => fits s sh); [|apply Forall_forall; exact Hfit].
      destruct Hv as (V1 & V2 & _). clear - V1 V2. unfold storage_ok in V2. revert V1 V2. generalize (inst (ct_data a) e). intros x.
      induction x as [y|c b|s f|f args IH] using sexp_ind'; cbn; auto.
      rewrite !fr_and, !Forall_forall. rewrite Forall_forall in IH. auto. }
    unfold check_overlap. destruct (Z.eq_dec (prod (ct_shape a)) 0) as [Ha0|Ha0].
    + assert (dst_range (c_strided a) = None) as ->.
      { unfold dst_range. rewrite compute_size_prod. cbn [c_strided k_shape]. rewrite Ha0. reflexivity. }
      exists false. split; [reflexivity|]. intros _. left. apply own_none_closed. eapply own_leaves_imp with (P := fun _ => True); [apply own_leaves_true|exact Hall|].
      cbn. intros c _ (Hf & (Hr & _) & Hin).
      assert (Hc0 : prod (k_shape c) <> 0) by (intros Hz; apply H0; eapply fits_zero; [apply real_is_shape; exact Hr|exact Hf|exact Hz]).
      assert (Hkp : Forall (fun d => 0 < d) (k_shape c)) by (apply prod_nonneg_pos; [apply real_is_shape; exact Hr|pose proof (prod_nn _ (real_is_shape _ Hr)); lia]).
      pose proof (Hin _ (zeros_in_bounds _ Hkp)). lia.
    + rewrite (dst_range_some (c_strided a)) by assumption. set (rg := (_, _)).
      destruct (expr_overlaps_ok rg e sh) as (b & Eb & Hbf); auto.
      { unfold rg. cbn. lia. }
      exists b. split; [exact Eb|]. intros ->. left. apply own_none_closed. eapply own_leaves_imp; [apply Hbf; reflexivity|exact Hall|].
      cbn. intros c Hap (Hf & (Hr & Hso) & Hin).
      assert (Hc0 : prod (k_shape c) <> 0) by (intros Hz; apply H0; eapply fits_zero; [apply real_is_shape; exact Hr|exact Hf|exact Hz]).
      eapply wf_overlap; [exact Hw|exact Ha0|apply real_is_shape; exact Hr|exact Hc0|exact Hso|exact Hin|exact Hap].
Qed.

Lemma frozen_plain mem (e : aexp V) : plain_operands e -> plain_operands (frozen mem e).
Proof. unfold plain_operands. rewrite frozen_shapes. auto. Qed.
Lemma frozen_visible mem (e : aexp V) : visible_broadcast e -> visible_broadcast (frozen mem e).
Proof.
  intros H sh Hb. rewrite frozen_shapes in *. destruct (H sh Hb) as [Ha|Ha]; [left; exact Ha|right].
  destruct e as [y|m k [b|]|s f|f args]; cbn; auto. destruct Ha as (x & Hx & Hn). exists (frozen mem x).
  split; [apply in_map; exact Hx|]. rewrite frozen_shapes. exact Hn.
Qed.

Lemma s_assign_lemma (fresh a : cont V) e : well_formed SL D a -> well_formed SL D fresh -> (FD = true -> ct_shape fresh = ct_shape a) ->
  valid_operands g (ct_data a) e -> compatible (operand_shapes e) -> shapes_suit a e ->
  exists a', (forall r, s_operator_assign g SL D DL rs FD FR fresh a e r <-> r = Done a') /\ well_formed SL D a' /\ holds_value (ct_data a) e a' /\
    (FD = true -> ct_shape a' = ct_shape a).
Proof.
  intros Hw Hwf Hsf Hv Hcomp HS. destruct (overlap_ok a e Hw Hv Hcomp) as (b & Eb & Hbf).
  unfold s_operator_assign. rewrite Eb. destruct b.
  - destruct (s_assign_direct fresh (frozen (ct_data a) e) []) as (t & Hiff & Hwt & (Hb & Hval) & Hst).
    + exact Hwf.
    + apply frozen_valid. exact Hv.
    + rewrite frozen_shapes. exact Hcomp.
    + destruct HS as [H1 H2]. split.
      * destruct FD; [rewrite frozen_shapes, Hsf by reflexivity; exact H1|]. unfold rank_matches in *. rewrite frozen_shapes. exact H1.
      * intros HF. destruct (H2 HF) as [H3 H4]. split; [apply frozen_plain; exact H3|apply frozen_visible; exact H4].
    + left. apply frozen_closed.
    + exists t. split; [|split; [exact Hwt|split]].
      * intros r. split.
        -- intros (x & Hx & ->). apply Hiff in Hx. subst x. reflexivity.
        -- intros ->. exists (Done t). split; [apply Hiff; reflexivity|reflexivity].
      * split; [rewrite frozen_shapes in Hb; exact Hb|]. intros ix Hix. rewrite <- (frozen_inst (ct_data a) []). apply Hval. exact Hix.
      * intros HF. rewrite (Hst HF). auto.
  - apply s_assign_direct; auto.
Qed.
End S.
