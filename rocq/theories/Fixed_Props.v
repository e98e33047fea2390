(** C81: containers whose shape is part of their type. *)
From Coq Require Import List ZArith Bool Lia.
From Verif Require Import Prelude Strides_Model Strides_Spec Broadcast_Model Broadcast_Spec Broadcast_Proofs Stepper_Model Stepper_Spec
  Container_Model Container_Spec Assign_Model Assign_Spec Semantic_Model Semantic_Spec Semantic6_Proofs
  Fixed_Model Fixed_Spec Fixed_Proofs Fixed2_Proofs Fixed3_Proofs Fixed4_Proofs.
Import ListNotations.
Open Scope Z_scope.

(** The strides, backstrides and size that the compiler computes are those that resizing an
    xarray or xtensor of the same layout computes, so an xtensor_fixed has the same element
    order. *)
Theorem C81_strides :
  forall (V : Type) (L DL : layout) (rs : list V -> Z -> list V) (X : list Z) (d : list V) (c : cont V),
  is_order L -> is_shape X -> fixed_storage X d ->
  Z.of_nat (length d) = prod X /\ consistent (fixed L X d) /\ well_formed L (Some (length X)) (fixed L X d) /\
  (ct_layout c = L -> rs (ct_data c) (prod X) = d -> c_resize L DL rs c X true = Ok (fixed L X d)).
Proof.
  exact (fun V L DL rs X d c HL HX Hd => conj (eq_trans Hd (fixed_size_ok X)) (conj (fixed_consistent L X d HL HX Hd)
    (conj (fixed_wf L X d HL HX Hd) (fun Hl Hr => fixed_resize L DL rs c X d HL Hl Hr)))).
Qed.
Print Assumptions C81_strides.

(** Construction: from a single value only with one element; with a shape and a value all
    elements have that value. *)
Theorem C81_construct :
  forall (V : Type) (L : layout) (X : list Z) (d : list V) (v : V) (shape : list Z) (l : layout),
  is_order L -> is_shape X -> fixed_storage X d ->
  (prod X = 1 -> exists a, fixed_from_value L X d v = Ok a /\ ct_shape a = X /\ consistent a /\ forall ix, in_bounds X ix -> elt a ix = Ok v) /\
  (prod X <> 1 -> fixed_from_value L X d v = Throw runtime_error) /\
  (exists a, fixed_filled L X d shape v l = Ok a /\ ct_shape a = X /\ consistent a /\ forall ix, in_bounds X ix -> elt a ix = Ok v).
Proof.
  exact (fun V L X d v shape l HL HX Hd => conj (proj1 (from_value_ok L X d v HL HX Hd)) (conj (proj2 (from_value_ok L X d v HL HX Hd))
    (filled_ok L X d shape v l HL HX Hd))).
Qed.
Print Assumptions C81_construct.

(** reshape accepts the shape and layout of the type and throws for others. Partial: shapes
    with more axes are not covered (refuted below). *)
Theorem C81_reshape_partial :
  forall (V : Type) (a : cont V) (shape : list Z) (l : layout),
  (length shape <= length (ct_shape a))%nat ->
  (shape = ct_shape a /\ l = ct_layout a -> fixed_reshape a shape l = Ok a) /\
  (~ (shape = ct_shape a /\ l = ct_layout a) -> fixed_reshape a shape l = Throw runtime_error).
Proof. exact (fun V a shape l H => reshape_ok a shape l H). Qed.
Print Assumptions C81_reshape_partial.

Theorem C81_reshape_longer_refuted :
  exists (a : cont Z) (shape : list Z), consistent a /\ fixed row_major [2; 3] [1; 2; 3; 4; 5; 6] = a /\
  prod shape = prod (ct_shape a) /\ fixed_reshape a shape row_major = UB.
Proof. exact reshape_longer_lemma. Qed.
Print Assumptions C81_reshape_longer_refuted.

(** Every xtensor_fixed is contiguous, but is_contiguous() denies it when the last (row
    major) or first (column major) extent is 1. *)
Theorem C81_is_contiguous :
  forall (V : Type) (L : layout) (X : list Z) (d : list V),
  is_order L -> is_shape X -> fixed_storage X d ->
  (forall ix, in_bounds X ix -> dot ix (ct_strides (fixed L X d)) = rank L X ix) /\
  (fixed_is_contiguous (fixed L X d) = true <-> X = [] \/ (L = row_major /\ last X 0 <> 1) \/ (L = column_major /\ hd 0 X <> 1)).
Proof.
  intros V L X d HL HX Hd. split; [|exact (contiguous_lemma L X d HL)].
  intros ix Hb. destruct (fixed_wf L X d HL HX Hd) as (_ & _ & _ & _ & _ & _ & _ & l & _ & Hl & Hr).
  rewrite (Hr ix Hb), (Hl HL). reflexivity.
Qed.
Print Assumptions C81_is_contiguous.

(** a = e, where a is an xtensor_fixed (FD) or all operands of e are (FR): whatever the
    build and the schedule, a ends with the value e had before, also when e reads a.
    Partial: e must have the shape of an xtensor_fixed it is assigned to; and if all operands
    are fixed they must have axes and elements and broadcasting must be visible in the
    arguments of the outermost function (each refuted below). *)
Theorem C81_assign_partial :
  forall (V : Type) (g : Z -> setup) (SL : layout) (D : option nat) (DL : layout) (rs : list V -> Z -> list V) (FD FR : bool) (fresh a : cont V) (e : aexp V),
  setups_ok g -> is_order DL -> resizes rs ->
  well_formed SL D a -> well_formed SL D fresh -> (FD = true -> ct_shape fresh = ct_shape a) ->
  valid_operands g (ct_data a) e -> compatible (operand_shapes e) ->
  (if FD then broadcast_of (operand_shapes e) (ct_shape a) else rank_matches D e) ->
  (FR = true -> plain_operands e /\ visible_broadcast e) ->
  exists a', (forall r, s_operator_assign g SL D DL rs FD FR fresh a e r <-> r = Done a') /\ well_formed SL D a' /\ holds_value (ct_data a) e a' /\
    (FD = true -> ct_shape a' = ct_shape a).
Proof.
  exact (fun V g SL D DL rs FD FR fresh a e Hg HDL Hrs Hw Hwf Hsf Hv Hc H1 H2 =>
    s_assign_lemma g SL D DL rs FD FR Hg HDL Hrs fresh a e Hw Hwf Hsf Hv Hc (conj H1 H2)).
Qed.
Print Assumptions C81_assign_partial.

(** Broadcasting is visible when the outermost function is applied to containers and scalars. *)
Theorem C81_one_level :
  forall (V : Type) (e : aexp V), plain_operands e -> one_level e -> visible_broadcast e.
Proof. exact (fun V e => one_level_visible e). Qed.
Print Assumptions C81_one_level.

(** r = -(x + y) with fixed shapes (2,3) and (3) reads past the end of y; with run-time
    shapes the result is correct. *)
Theorem C81_hidden_broadcast_refuted :
  exists (g : Z -> setup) (rs : list Z -> Z -> list Z) (a : cont Z) (e : aexp Z),
  setups_ok g /\ resizes rs /\ well_formed row_major (Some 2%nat) a /\ valid_operands g (ct_data a) e /\ own_leaves (fun _ => False) e /\
  compatible (operand_shapes e) /\ broadcast_of (operand_shapes e) (ct_shape a) /\ plain_operands e /\
  (forall FD, s_operator_assign g row_major (Some 2%nat) row_major rs FD true a a e Undefined) /\
  (exists a', s_operator_assign g row_major (Some 2%nat) row_major rs false false a a e (Done a') /\ ct_data a' = [-11; -22; -33; -14; -25; -36]).
Proof. exact hidden_broadcast_lemma. Qed.
Print Assumptions C81_hidden_broadcast_refuted.

(** An expression of another shape assigned to an xtensor_fixed: shape (3,2) to (2,3) keeps
    the shape and copies in storage order, shape (2,2) to (2,3) reads past the end. *)
Theorem C81_shape_mismatch_refuted :
  exists (g : Z -> setup) (rs : list Z -> Z -> list Z) (a a' : cont Z) (e1 e2 : aexp Z),
  setups_ok g /\ resizes rs /\ well_formed row_major (Some 2%nat) a /\ ct_shape a = [2; 3] /\
  valid_operands g (ct_data a) e1 /\ own_leaves (fun _ => False) e1 /\ broadcast_of (operand_shapes e1) [3; 2] /\
  valid_operands g (ct_data a) e2 /\ own_leaves (fun _ => False) e2 /\ broadcast_of (operand_shapes e2) [2; 2] /\
  (s_operator_assign g row_major (Some 2%nat) row_major rs true false a a e1 (Done a') /\ ct_shape a' = [2; 3] /\
   elt a' [0; 2] = Ok 3 /\ x_value [1; 0] (inst [] e1) = Ok 3) /\
  s_operator_assign g row_major (Some 2%nat) row_major rs true false a a e2 Undefined.
Proof. exact shape_mismatch_lemma. Qed.
Print Assumptions C81_shape_mismatch_refuted.

(** A 0-dimensional xtensor_fixed plus a scalar has shape (1) instead of (). *)
Theorem C81_zero_d_scalar_refuted :
  exists (g : Z -> setup) (rs : list Z -> Z -> list Z) (a a' : cont Z) (e : aexp Z),
  setups_ok g /\ resizes rs /\ well_formed row_major None a /\ valid_operands g (ct_data a) e /\ own_leaves (fun _ => False) e /\ one_level e /\
  broadcast_of (operand_shapes e) [] /\
  s_operator_assign g row_major None row_major rs false true a a e (Done a') /\ ct_shape a' = [1].
Proof. exact zero_d_lemma. Qed.
Print Assumptions C81_zero_d_scalar_refuted.

(** Non-vacuity: a = a + y with a of shape (2,3) and y of shape (3), all fixed. *)
Example C81_case_hypotheses :
  setups_ok g0 /\ resizes rs0 /\ well_formed row_major (Some 2%nat) one23 /\ valid_operands g0 (ct_data one23) visible /\
  compatible (operand_shapes visible) /\ broadcast_of (operand_shapes visible) (ct_shape one23) /\
  plain_operands visible /\ visible_broadcast visible /\ check_overlap (c_strided one23) visible = Ok true.
Proof.
  destruct visible_case as (H1 & H2 & H3 & H4 & H5 & H6 & H7).
  exact (conj g0_ok (conj rs0_ok (conj H1 (conj H2 (conj H3 (conj H4 (conj H5 (conj (one_level_visible _ H5 H6) H7)))))))).
Qed.
Example C81_case_result :
  s_operator_assign g0 row_major (Some 2%nat) row_major rs0 true true zero23 one23 visible (Done (fixed row_major [2; 3] [11; 22; 33; 14; 25; 36])).
Proof.
  exists (Done (fixed row_major [2; 3] [11; 22; 33; 14; 25; 36])). split; [|reflexivity].
  exists (Ok [11; 22; 33; 14; 25; 36]). split; [|reflexivity].
  eapply out_phase with (sched := repeat 0%nat 12); [vm_compute; reflexivity|repeat constructor|apply out_done].
Qed.
Example C81_case_strides : fixed_strides row_major [2; 1; 3] = [3; 0; 1] /\ fixed_strides column_major [2; 1; 3] = [1; 0; 2] /\
  fixed_backstrides [2; 1; 3] [3; 0; 1] = [3; 0; 2] /\ fixed_is_contiguous (fixed row_major [2; 1] [7; 8]) = false.
Proof. repeat split; reflexivity. Qed.
Example C81_case_construct : fixed_from_value row_major [1; 1] [0] 7 = Ok (fixed row_major [1; 1] [7]) /\
  fixed_from_value row_major [2; 1] [0; 0] 7 = Throw runtime_error /\ fixed_reshape one23 [3; 2] row_major = Throw runtime_error.
Proof. repeat split; reflexivity. Qed.
