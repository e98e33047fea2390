(** C90: adaptors. *)
From Coq Require Import List ZArith Bool Lia.
From Verif Require Import Prelude Strides_Model Strides_Spec Broadcast_Spec Access_Model Stepper_Model Container_Model Container_Spec
  Assign_Model Assign_Spec Semantic_Model Semantic_Spec Semantic6_Proofs Adapt_Model Adapt_Spec Adapt_Proofs Adapt2_Proofs.
Import ListNotations.
Open Scope Z_scope.

(** adapt(buffer, shape, layout) shows the elements of the buffer in the order of the layout (DEFAULT for dynamic), and copies nothing. A vector of
    another size is resized. *)
Theorem C90_adapt : forall (V : Type) fixed SL D DL (rs : list V -> Z -> list V) buffer sh l,
  is_order DL -> resizes rs -> is_shape sh -> SL <> any -> l <> any -> (SL <> dynamic -> l = SL) ->
  match D with Some n => length sh = n | None => True end -> (fixed = true -> Z.of_nat (length buffer) = prod sh) ->
  exists a, adapt fixed SL D DL rs buffer sh l = Done a /\ well_formed SL D a /\
    shows a (if fixed then buffer else rs buffer (prod sh)) sh (if layout_eqb l dynamic then DL else l).
Proof. exact (fun V fixed SL D DL rs buffer sh l H1 H2 => adapt_lemma fixed SL D DL rs H1 H2 buffer sh l). Qed.
Print Assumptions C90_adapt.

(** A buffer of a fixed size must have the size of the shape, and the layout must be the static one. Otherwise adapt throws, and the buffer is as it was. *)
Theorem C90_adapt_throws : forall (V : Type) fixed SL D DL (rs : list V -> Z -> list V) buffer sh l,
  (fixed = true /\ (SL <> dynamic -> l = SL) /\ Z.of_nat (length buffer) <> prod sh) \/ (SL <> dynamic /\ l <> SL) ->
  exists a, adapt fixed SL D DL rs buffer sh l = Threw runtime_error a /\ ct_data a = buffer.
Proof.
  intros V fixed SL D DL rs buffer sh l [ (H1 & H2 & H3) | (H1 & H2) ]; [apply adapt_size_lemma|apply adapt_layout_lemma]; assumption.
Qed.
Print Assumptions C90_adapt_throws.

(** adapt(buffer, shape, strides). Partial: the size of the buffer must be the size of the shape (see C90_strides_refuted). *)
Theorem C90_adapt_strides_partial : forall (V : Type) fixed D (rs : list V -> Z -> list V) buffer sh strides,
  is_shape sh -> length strides = length sh -> (fixed = true -> Z.of_nat (length buffer) = prod sh) ->
  exists a, adapt_with_strides fixed dynamic D rs buffer sh strides = Done a /\
    shows_strided a (if fixed then buffer else rs buffer (prod sh)) sh strides.
Proof. exact (fun V fixed D rs buffer sh strides => adapt_strides_lemma fixed dynamic D rs buffer sh strides eq_refl). Qed.
Print Assumptions C90_adapt_strides_partial.

(** Strides that leave gaps: the buffer is long enough for every element, and yet a buffer of a fixed size is refused, and a vector is cut short: the last element
    is then outside. *)
Theorem C90_strides_refuted : exists (buffer : list Z) (sh strides : list Z),
  (forall ix, in_bounds sh ix -> exists x, rdz buffer (dot ix strides) = Ok x) /\
  (exists a, adapt_with_strides true dynamic None rs0 buffer sh strides = Threw runtime_error a) /\
  exists a, adapt_with_strides false dynamic None rs0 buffer sh strides = Done a /\ in_bounds (ct_shape a) [1; 1] /\ elt a [1; 1] = UB.
Proof.
  exists [1; 2; 3; 4; 5; 6], [2; 2], [4; 1]. split; [|split].
  - intros ix Hb. apply in_bounds2 in Hb. destruct Hb as (i & j & -> & Hi & Hj).
    assert (i = 0 \/ i = 1) as [ -> | -> ] by lia; (assert (j = 0 \/ j = 1) as [ -> | -> ] by lia); eexists; reflexivity.
  - eexists. vm_compute. reflexivity.
  - eexists. split; [vm_compute; reflexivity|]. split; [repeat constructor; cbn; lia|reflexivity].
Qed.
Print Assumptions C90_strides_refuted.

(** adaptor = expression: the adaptor takes the shape of the expression, and the buffer its values, also when the expression reads the buffer. If the shapes cannot be broadcast,
    nothing changes. Partial: a buffer of a fixed size must have the size of the expression (see C90_size), the reported layout is right only for static layouts
    (see C90_dynamic_layout_refuted), and generators must not read the buffer (C36_generator_alias_refuted). *)
Theorem C90_assign_partial : forall (V : Type) fixed (g : Z -> setup) SL D DL (rs : list V -> Z -> list V) (v : V) (a : cont V) (e : aexp V),
  setups_ok g -> is_order DL -> resizes rs ->
  well_formed SL D a -> valid_operands g (ct_data a) e -> rank_matches D e ->
  (fixed = true -> keeps rs /\ forall sh, broadcast_of (operand_shapes e) sh -> prod sh = prod (ct_shape a)) ->
  (compatible (operand_shapes e) ->
     exists a', (forall r, b_operator_assign fixed g SL D DL rs v a e r <-> r = Done a') /\ (SL <> dynamic -> well_formed SL D a') /\ holds_value (ct_data a) e a') /\
  (~ compatible (operand_shapes e) -> forall r, b_operator_assign fixed g SL D DL rs v a e r <-> r = Threw broadcast_error a).
Proof.
  intros V fixed g SL D DL rs v a e Hg HDL Hrs Hw Hv HD Hf. split.
  - exact (b_operator_assign_lemma fixed g SL D DL rs v Hg HDL Hrs a e Hw Hv HD Hf).
  - exact (b_operator_assign_incompatible fixed g SL D DL rs v Hg HDL Hrs a e Hw Hv HD).
Qed.
Print Assumptions C90_assign_partial.

(** A buffer of a fixed size and an expression of another size: the assignment throws and the buffer is as it was. The adaptor has the shape of the expression. *)
Theorem C90_size : forall (V : Type) (g : Z -> setup) SL D DL (rs : list V -> Z -> list V) (v : V) (a : cont V) (e : aexp V) sh,
  setups_ok g -> is_order DL -> resizes rs ->
  well_formed SL D a -> valid_operands g (ct_data a) e -> rank_matches D e -> broadcast_of (operand_shapes e) sh -> prod sh <> prod (ct_shape a) ->
  exists a', (forall r, b_operator_assign true g SL D DL rs v a e r <-> r = Threw runtime_error a') /\ ct_data a' = ct_data a /\ ct_shape a' = sh.
Proof. exact (fun V g SL D DL rs v a e sh Hg HDL Hrs => b_operator_assign_size true g SL D DL rs v Hg HDL Hrs a e sh eq_refl). Qed.
Print Assumptions C90_size.

(** After that exception the adaptor is not usable: an index within its shape is outside the buffer. *)
Theorem C90_size_refuted : exists (a a' : cont Z) (e : aexp Z), well_formed row_major None a /\ valid_operands g0 (ct_data a) e /\
  b_operator_assign true g0 row_major None row_major rs0 0 a e (Threw runtime_error a') /\
  exists ix, in_bounds (ct_shape a') ix /\ elt a' ix = UB.
Proof.
  exists (vec [1; 2; 3]), (mk_cont [2; 2] [2; 1] [2; 1] row_major [1; 2; 3]), square2. split; [apply vec_wf|]. split; [apply square2_valid|].
  split; [vm_compute; reflexivity|]. exists [1; 1]. split; [repeat constructor; cbn; lia|reflexivity].
Qed.
Print Assumptions C90_size_refuted.

(** An adaptor with a dynamic layout that is assigned an expression reading its own buffer: the strides are those of the temporary, the layout is not. *)
Theorem C90_dynamic_layout_refuted : exists (a a' : cont Z) (e : aexp Z), well_formed dynamic None a /\ valid_operands g0 (ct_data a) e /\
  b_operator_assign true g0 dynamic None row_major rs0 0 a e (Done a') /\
  ct_layout a' = column_major /\ ct_strides a' = [2; 1] /\ ~ well_formed dynamic None a'.
Proof.
  destruct dynamic_layout_lemma as (a' & H). exists square_c, a', square_t. split; [apply square_c_wf|]. split; [apply square_t_valid|]. exact H.
Qed.
Print Assumptions C90_dynamic_layout_refuted.

(** Assigning an adaptor of a pointer to another one does not assign the elements: the buffer of the first is as it was, and the first refers to the buffer of the second. *)
Theorem C90_copy_refuted : exists (memory memory' : list (list Z)) (a b a' : pointer_adaptor),
  well_formed row_major None (p_cont memory a) /\ well_formed row_major None (p_cont memory b) /\ p_shape a = p_shape b /\
  p_assign memory a b = (a', memory') /\ nth (p_buffer a) memory' [] <> nth (p_buffer b) memory' [] /\ memory' = memory /\ p_buffer a' = p_buffer b /\ p_buffer a <> p_buffer b.
Proof.
  exists [[1; 2]; [3; 4]], [[1; 2]; [3; 4]], (mk_padaptor [2] [1] [1] row_major 0), (mk_padaptor [2] [1] [1] row_major 1), (mk_padaptor [2] [1] [1] row_major 1).
  split; [exact (vec_wf [1; 2])|]. split; [exact (vec_wf [3; 4])|]. repeat split; cbn; discriminate.
Qed.
Print Assumptions C90_copy_refuted.

(** A buffer of four elements shown as a vector and assigned a (2,2) array; the same with a vector of three *)
Example C90_case_adapt : exists a, adapt true row_major None row_major rs0 [1; 2; 3; 4] [4] row_major = Done a /\ well_formed row_major None a /\
  valid_operands g0 (ct_data a) square2 /\ keeps rs0 /\ (forall sh, broadcast_of (operand_shapes square2) sh -> prod sh = prod (ct_shape a)) /\
  b_operator_assign true g0 row_major None row_major rs0 0 a square2 (Done (mk_cont [2; 2] [2; 1] [2; 1] row_major [10; 20; 30; 40])).
Proof.
  exists (vec [1; 2; 3; 4]). split; [vm_compute; reflexivity|]. split; [apply vec_wf|]. split; [apply square2_valid|]. split; [apply rs0_keeps|].
  split; [intros sh H; apply square2_broadcast in H; subst sh; reflexivity|].
  unfold b_operator_assign. replace (check_overlap _ _) with (Ok false) by (vm_compute; reflexivity).
  exists (Ok [10; 20; 30; 40]). split; [|reflexivity]. eapply out_phase with (sched := repeat 0%nat 8); [vm_compute; reflexivity|repeat constructor|]. apply out_done.
Qed.
Example C90_case_vector : adapt false column_major (Some 2%nat) row_major rs0 [1; 2; 3] [2; 2] column_major = Done (mk_cont [2; 2] [1; 2] [1; 2] column_major [1; 2; 3; 0]) /\
  adapt false dynamic None row_major rs0 [1; 2; 3; 4] [2; 2] dynamic = Done (mk_cont [2; 2] [2; 1] [2; 1] row_major [1; 2; 3; 4]) /\
  (exists a, adapt_with_strides true dynamic None rs0 [1; 2; 3; 4] [2; 2] [1; 2] = Done a /\ elt a [0; 1] = Ok 3) /\
  (exists a, adapt true row_major None row_major rs0 [1; 2; 3] [2; 2] row_major = Threw runtime_error a) /\
  (exists a, adapt false row_major None row_major rs0 [1; 2; 3; 4] [2; 2] column_major = Threw runtime_error a).
Proof. repeat split; try (eexists; split); try eexists; vm_compute; reflexivity. Qed.
