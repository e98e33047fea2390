(** Adaptors: situations in which they go wrong, and cases. *)
From Coq Require Import List ZArith Bool Lia.
From Verif Require Import Prelude PreludeFacts Strides_Model Strides_Spec Strides_Proofs Broadcast_Model Broadcast_Spec
  Broadcast_Proofs Broadcast2_Proofs Layout_Model Slice_Model Access_Model
  Stepper_Model Stepper_Spec Stepper_Proofs Stepper3_Proofs Stepper4_Proofs Container_Model Container_Spec Container_Proofs
  Assign_Model Assign_Spec Assign_Proofs Assign2_Proofs Assign6_Proofs Assign7_Proofs Semantic_Model Semantic_Spec Semantic_Proofs
  Semantic2_Proofs Semantic3_Proofs Semantic4_Proofs Semantic5_Proofs Semantic6_Proofs SView_Proofs Adapt_Model Adapt_Spec Adapt_Proofs.
Import ListNotations.
Open Scope Z_scope.

Lemma rs0_keeps : keeps rs0.
Proof. intros d. unfold rs0. rewrite Nat2Z.id, firstn_all, Nat.sub_diag. cbn. apply app_nil_r. Qed.

(** An expression of shape (2,2) with its own memory *)
Definition square2 : aexp Z := ALeaf vm (mk_container [2; 2] [2; 1] [2; 1] 0) (Some [10; 20; 30; 40]).
Lemma square2_valid mem : valid_operands g0 mem square2.
Proof.
  assert (S : stored_as row_major (mk_container [2; 2] [2; 1] [2; 1] 0)).
  { intros ix Hb. apply in_bounds2 in Hb. destruct Hb as (i & j & -> & Hi & Hj). cbn. rewrite prod_cons, prod_nil. lia. }
  split; [split; [repeat (constructor; [lia|]); constructor|split; [reflexivity|split; [reflexivity|intros [|[|j]] Hj; cbn in *; lia]]]|].
  split; [intros ix Hb; apply in_bounds2 in Hb; destruct Hb as (i & j & -> & Hi & Hj); cbn; lia|].
  split; [split; [exact S|split; [exact S|exact I]]|]. split; [intros n _ H; discriminate H|exact I].
Qed.
Lemma square2_broadcast sh : broadcast_of (operand_shapes square2) sh -> sh = [2; 2].
Proof. intros H. eapply broadcast_of_unique; [|exact H|apply broadcast_single]. cbn. tauto. Qed.

(** An adaptor with a dynamic layout, column-major, and its transpose *)
Definition square_c : cont Z := mk_cont [2; 2] [1; 2] [1; 2] column_major [1; 2; 3; 4].
Lemma square_c_wf : well_formed dynamic None square_c.
Proof.
  split; [repeat (constructor; [lia|]); constructor|]. split; [split; [reflexivity|split; [reflexivity|intros [|[|j]] Hj; cbn in *; lia]]|].
  split; [reflexivity|]. split; [discriminate|]. split; [discriminate|]. split; [congruence|]. split; [exact I|].
  exists column_major. split; [right; reflexivity|]. split; [reflexivity|]. intros ix Hb. apply in_bounds2 in Hb.
  destruct Hb as (i & j & -> & Hi & Hj). cbn. lia.
Qed.
Definition square_t : aexp Z := ALeaf (mk_meta KStridedView dynamic None dynamic) (mk_container [2; 2] [2; 1] [2; 1] 0) None.
Lemma square_t_valid : valid_operands g0 (ct_data square_c) square_t.
Proof.
  split; [split; [repeat (constructor; [lia|]); constructor|split; [reflexivity|split; [reflexivity|intros [|[|j]] Hj; cbn in *; lia]]]|].
  split; [intros ix Hb; apply in_bounds2 in Hb; destruct Hb as (i & j & -> & Hi & Hj); cbn; lia|].
  split; [split; [intros ix _; exact I|split; [intros ix _; exact I|exact I]]|]. split; [intros n H; discriminate H|exact I].
Qed.
Lemma dynamic_layout_lemma : exists a', b_operator_assign true g0 dynamic None row_major rs0 0 square_c square_t (Done a') /\
  ct_layout a' = column_major /\ ct_strides a' = [2; 1] /\ ~ well_formed dynamic None a'.
Proof.
  exists (mk_cont [2; 2] [2; 1] [2; 1] column_major [1; 2; 3; 4]). split; [|split; [|split]]; try reflexivity.
  - unfold b_operator_assign. replace (check_overlap (c_strided square_c) square_t) with (Ok true) by (vm_compute; reflexivity).
    exists (Done (mk_cont [2; 2] [2; 1] [2; 1] row_major [1; 2; 3; 4])). split; [|vm_compute; reflexivity].
    exists (Ok [1; 2; 3; 4]). split; [|reflexivity]. eapply out_phase with (sched := repeat 0%nat 8); [vm_compute; reflexivity|repeat constructor|]. apply out_done.
  - intros (_ & _ & _ & _ & _ & _ & _ & l & _ & H & E). rewrite (H (or_intror eq_refl)) in E.
    specialize (E [0; 1] ltac:(repeat constructor; lia)). vm_compute in E. discriminate E.
Qed.
