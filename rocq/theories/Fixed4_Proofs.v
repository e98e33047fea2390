(** Witnesses for statically shaped containers. *)
From Coq Require Import List ZArith Bool Lia.
From Verif Require Import Prelude PreludeFacts Strides_Model Strides_Spec Strides_Proofs Broadcast_Model Broadcast_Spec
  Broadcast_Proofs Broadcast2_Proofs Layout_Model Slice_Model Access_Model
  Stepper_Model Stepper_Spec Stepper_Proofs Stepper3_Proofs Stepper4_Proofs Container_Model Container_Spec Container_Proofs
  Assign_Model Assign_Spec Assign_Proofs Assign2_Proofs Assign6_Proofs Assign7_Proofs Semantic_Model Semantic_Spec Semantic_Proofs
  Semantic2_Proofs Semantic3_Proofs Semantic4_Proofs Semantic6_Proofs Fixed_Model Fixed_Spec Fixed_Proofs Fixed2_Proofs Fixed3_Proofs.
Import ListNotations.
Open Scope Z_scope.

(** A fixed container as an operand. *)
Definition fx (X : list Z) (d : list Z) : aexp Z :=
  ALeaf (mk_meta KContainer row_major (Some (length X)) row_major) (c_strided (fixed row_major X d)) (Some d).

Lemma valid_fun g (mem : list Z) f args : Forall (valid_operands g mem) args -> valid_operands g mem (AFun f args).
Proof.
  intros H. unfold valid_operands, storage_ok. cbn. rewrite !fr_and, !Forall_map. rewrite Forall_forall in H.
  split; [apply Forall_forall; intros x Hx; apply (H x Hx)|].
  split; [apply Forall_forall; intros x Hx; apply (H x Hx)|].
  split; [apply Forall_forall; intros x Hx; apply (H x Hx)|].
  split; [intros n; rewrite fr_and; apply Forall_forall; intros x Hx; apply (H x Hx)|].
  apply Forall_forall; intros x Hx; apply (H x Hx).
Qed.
Lemma fx_valid g mem X d : real_shape X -> fixed_storage X d -> valid_operands g mem (fx X d).
Proof.
  intros HX Hd. assert (Hw : well_formed row_major (Some (length X)) (fixed row_major X d)).
  { apply fixed_wf; [left; reflexivity|apply real_is_shape; exact HX|exact Hd]. }
  pose proof (wf_writable _ _ _ Hw) as (_ & Hst & Hpos & _). pose proof (wf_truthful _ _ _ Hw) as Ht.
  split; [cbn; split; [exact HX|exact Hst]|]. split; [exact Hpos|]. split; [exact Ht|]. split; [intros n _ H; discriminate H|exact I].
Qed.
Lemma self_valid' g X (d mem : list Z) : real_shape X -> fixed_storage X d -> mem = d ->
  valid_operands g mem (self row_major (Some (length X)) (fixed row_major X d)).
Proof.
  intros HX Hd ->. assert (Hw : well_formed row_major (Some (length X)) (fixed row_major X d)).
  { apply fixed_wf; [left; reflexivity|apply real_is_shape; exact HX|exact Hd]. }
  pose proof (wf_writable _ _ _ Hw) as (_ & Hst & Hpos & _). pose proof (wf_truthful _ _ _ Hw) as Ht.
  split; [cbn; split; [exact HX|exact Hst]|]. split; [exact Hpos|]. split; [exact Ht|]. split; [intros n _ H; discriminate H|exact I].
Qed.

Definition zero23 : cont Z := fixed row_major [2; 3] [0; 0; 0; 0; 0; 0].
Lemma zero23_wf : well_formed row_major (Some 2%nat) zero23.
Proof. apply (fixed_wf row_major [2; 3]); [left; reflexivity|repeat constructor; lia|reflexivity]. Qed.

(** -(x + y) with x of shape (2,3) and y of shape (3). *)
Definition neg1 (l : list Z) : Z := - hd 0 l.
Definition hidden : aexp Z := AFun neg1 [AFun add2 [fx [2; 3] [1; 2; 3; 4; 5; 6]; fx [3] [10; 20; 30]]].
Lemma compat_23_3 ss : (forall s, In s ss -> s = [2; 3] \/ s = [3]) -> compatible ss.
Proof. intros H s t k Hs Ht. destruct (H s Hs) as [ -> | -> ], (H t Ht) as [ -> | -> ]; destruct k as [|[|[|k]]]; cbn; auto. Qed.
Lemma bcast_23_3 : broadcast_of [[2; 3]; [3]] [2; 3].
Proof.
  split; [intros s [ <- |[ <- |[]]]; cbn; lia|]. split; [right; exists [2; 3]; split; [left; reflexivity|reflexivity]|].
  intros k. split.
  - intros s [ <- |[ <- |[]]]; destruct k as [|[|[|k]]]; cbn; auto.
  - right. exists [2; 3]. split; [left; reflexivity|reflexivity].
Qed.

Lemma hidden_broadcast_lemma : exists (g : Z -> setup) (rs : list Z -> Z -> list Z) (a : cont Z) (e : aexp Z),
  setups_ok g /\ resizes rs /\ well_formed row_major (Some 2%nat) a /\ valid_operands g (ct_data a) e /\ own_leaves (fun _ => False) e /\
  compatible (operand_shapes e) /\ broadcast_of (operand_shapes e) (ct_shape a) /\ plain_operands e /\
  (forall FD, s_operator_assign g row_major (Some 2%nat) row_major rs FD true a a e Undefined) /\
  (exists a', s_operator_assign g row_major (Some 2%nat) row_major rs false false a a e (Done a') /\ ct_data a' = [-11; -22; -33; -14; -25; -36]).
Proof.
  exists g0, rs0, zero23, hidden. split; [apply g0_ok|]. split; [apply rs0_ok|]. split; [apply zero23_wf|].
  split. { apply valid_fun. constructor; [|constructor]. apply valid_fun.
    repeat (constructor; [apply fx_valid; [repeat constructor; lia|reflexivity]|]). constructor. }
  split; [cbn; auto|]. split; [apply compat_23_3; cbn; intros s [ <- |[ <- |[]]]; auto|]. split; [exact bcast_23_3|].
  split. { unfold plain_operands. cbn. repeat (constructor; [split; [discriminate|repeat constructor; lia]|]). constructor. }
  split.
  - intros [|]; exists UB; (split; [|reflexivity]); eapply out_ub with (sched := repeat 0%nat 8); vm_compute; reflexivity.
  - eexists. split; [|shelve]. exists (Ok [-11; -22; -33; -14; -25; -36]). split; [|reflexivity].
    eapply out_phase with (sched := repeat 0%nat 12); [vm_compute; reflexivity|repeat constructor|apply out_done].
    Unshelve. reflexivity.
Qed.

(** Sources of other shapes. *)
Lemma shape_mismatch_lemma : exists (g : Z -> setup) (rs : list Z -> Z -> list Z) (a a' : cont Z) (e1 e2 : aexp Z),
  setups_ok g /\ resizes rs /\ well_formed row_major (Some 2%nat) a /\ ct_shape a = [2; 3] /\
  valid_operands g (ct_data a) e1 /\ own_leaves (fun _ => False) e1 /\ broadcast_of (operand_shapes e1) [3; 2] /\
  valid_operands g (ct_data a) e2 /\ own_leaves (fun _ => False) e2 /\ broadcast_of (operand_shapes e2) [2; 2] /\
  (s_operator_assign g row_major (Some 2%nat) row_major rs true false a a e1 (Done a') /\ ct_shape a' = [2; 3] /\
   elt a' [0; 2] = Ok 3 /\ x_value [1; 0] (inst [] e1) = Ok 3) /\
  s_operator_assign g row_major (Some 2%nat) row_major rs true false a a e2 Undefined.
Proof.
  exists g0, rs0, zero23, (fixed row_major [2; 3] [1; 2; 3; 4; 5; 6]), (fx [3; 2] [1; 2; 3; 4; 5; 6]), (fx [2; 2] [1; 2; 3; 4]).
  split; [apply g0_ok|]. split; [apply rs0_ok|]. split; [apply zero23_wf|]. split; [reflexivity|].
  split; [apply fx_valid; [repeat constructor; lia|reflexivity]|]. split; [cbn; auto|]. split; [apply broadcast_single|].
  split; [apply fx_valid; [repeat constructor; lia|reflexivity]|]. split; [cbn; auto|]. split; [apply broadcast_single|].
  split.
  - split; [|repeat split; reflexivity]. exists (Ok [1; 2; 3; 4; 5; 6]). split; [|reflexivity].
    eapply out_phase with (sched := repeat 0%nat 12); [vm_compute; reflexivity|repeat constructor|apply out_done].
  - exists UB. split; [|reflexivity]. eapply out_ub with (sched := repeat 0%nat 9). vm_compute. reflexivity.
Qed.

(** A 0-dimensional fixed container plus a scalar. *)
Definition zero_d : aexp Z := AFun add2 [fx [] [5]; AScalar 2].
Lemma zero_d_lemma : exists (g : Z -> setup) (rs : list Z -> Z -> list Z) (a a' : cont Z) (e : aexp Z),
  setups_ok g /\ resizes rs /\ well_formed row_major None a /\ valid_operands g (ct_data a) e /\ own_leaves (fun _ => False) e /\ one_level e /\
  broadcast_of (operand_shapes e) [] /\
  s_operator_assign g row_major None row_major rs false true a a e (Done a') /\ ct_shape a' = [1].
Proof.
  exists g0, rs0, (vec [9]), (mk_cont [1] [0] [0] row_major [7]), zero_d. split; [apply g0_ok|]. split; [apply rs0_ok|]. split; [apply vec_wf|].
  split. { apply valid_fun. constructor; [apply fx_valid; [constructor|reflexivity]|]. constructor; [|constructor]. cbn.
    unfold valid_operands, storage_ok. cbn. auto. }
  split; [cbn; auto|]. split; [cbn; repeat constructor|]. split; [apply broadcast_single|]. split; [|reflexivity].
  exists (Ok [7]). split; [|reflexivity]. eapply out_phase with (sched := repeat 0%nat 2); [vm_compute; reflexivity|repeat constructor|apply out_done].
Qed.

(** is_contiguous looks at the last (first) stride, which is 0 for an axis of extent 1. *)
Lemma contiguous_lemma {V} L X (d : list V) : is_order L ->
  (fixed_is_contiguous (fixed L X d) = true <-> X = [] \/ (L = row_major /\ last X 0 <> 1) \/ (L = column_major /\ hd 0 X <> 1)).
Proof.
  intros HL. unfold fixed_is_contiguous. cbn [fixed ct_strides ct_layout].
  destruct X as [|x X]; [cbn; tauto|].
  assert (Es : fixed_strides L (x :: X) = (if x =? 1 then 0 else calculate_stride L 0 (x :: X)) ::
     map (fun i => if nth i (x :: X) 0 =? 1 then 0 else calculate_stride L i (x :: X)) (seq 1 (length X))) by reflexivity.
  assert (Hlast : last (fixed_strides L (x :: X)) 0 = if last (x :: X) 0 =? 1 then 0 else calculate_stride L (length X) (x :: X)).
  { unfold fixed_strides. cbn [length]. rewrite seq_S, map_app. cbn [map Nat.add]. rewrite last_last.
    replace (nth (length X) (x :: X) 0) with (last (x :: X) 0); [reflexivity|]. revert x Es. induction X as [|y X IH]; intros x _; [reflexivity|]. exact (IH y eq_refl). }
  rewrite Es. rewrite Es in Hlast. rewrite Hlast.
  destruct HL as [ -> | -> ]; cbn [layout_eqb andb orb].
  - rewrite orb_false_r. assert (calculate_stride row_major (length X) (x :: X) = 1) as ->.
    { unfold calculate_stride. cbn [length]. replace (S (length X) - length X - 1)%nat with 0%nat by lia. reflexivity. }
    destruct (Z.eqb_spec (last (x :: X) 0) 1); split.
    + intros H. discriminate H.
    + intros [H|[[_ H]|[H _]]]; [discriminate H|contradiction|discriminate H].
    + auto.
    + reflexivity.
  - cbn [calculate_stride calculate_stride_column_major hd]. destruct (Z.eqb_spec x 1); split.
    + intros H. discriminate H.
    + intros [H|[[H _]|[_ H]]]; [discriminate H|discriminate H|contradiction].
    + auto.
    + reflexivity.
Qed.

(** The assignment a = a + y of the examples. *)
Definition one23 : cont Z := fixed row_major [2; 3] [1; 2; 3; 4; 5; 6].
Definition visible : aexp Z := AFun add2 [self row_major (Some 2%nat) one23; fx [3] [10; 20; 30]].
Lemma visible_case : well_formed row_major (Some 2%nat) one23 /\ valid_operands g0 (ct_data one23) visible /\
  compatible (operand_shapes visible) /\ broadcast_of (operand_shapes visible) (ct_shape one23) /\ plain_operands visible /\ one_level visible /\
  check_overlap (c_strided one23) visible = Ok true.
Proof.
  split; [apply (fixed_wf row_major [2; 3]); [left; reflexivity|repeat constructor; lia|reflexivity]|].
  split. { apply valid_fun. constructor; [apply (self_valid' g0 [2; 3]); [repeat constructor; lia|reflexivity|reflexivity]|].
    constructor; [apply fx_valid; [repeat constructor; lia|reflexivity]|constructor]. }
  split; [apply compat_23_3; cbn; intros s [ <- |[ <- |[]]]; auto|]. split; [exact bcast_23_3|].
  split. { unfold plain_operands. cbn. repeat (constructor; [split; [discriminate|repeat constructor; lia]|]). constructor. }
  split; [cbn; repeat constructor|]. reflexivity.
Qed.
