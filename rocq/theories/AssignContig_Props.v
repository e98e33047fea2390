(** Property C15: when a container counts as contiguous. *)
From Coq Require Import List ZArith Bool Lia.
From Verif Require Import Prelude Strides_Model Strides_Spec Strides_Proofs Layout_Model Stepper_Model Assign_Model AssignContig_Proofs.
Import ListNotations.
Open Scope Z_scope.

(** A row or column major container with the strides that the library computes for its
    shape is contiguous, whatever its shape. *)
Theorem C15_computed_contiguous : forall m c l st0 bs0, m_kind m = KContainer -> m_layout m = l ->
  l = row_major \/ l = column_major -> length st0 = length (k_shape c) -> length bs0 = length (k_shape c) ->
  compute_strides (m_static m) (k_shape c) l st0 (Some bs0) = Ok (k_strides c, Some (k_backstrides c), prod (k_shape c)) ->
  m_static m = l \/ m_static m = dynamic -> is_contiguous m c = true.
Proof.
  intros m c l st0 bs0 Hk Hm Hl H1 H2 E Hs.
  destruct (documented_strides_lemma l (k_shape c) st0 bs0 Hl H1 H2) as (st & bs & E1 & E2 & _ & L1 & _ & N).
  assert (E3 : k_strides c = st).
  { destruct Hs as [Hs | Hs]; rewrite Hs in E; rewrite E in *; [injection E1 as ? ?|injection E2 as ? ?]; assumption. }
  assert (E4 : k_strides c = spec_strides l (k_shape c)).
  { rewrite E3. apply strides_eq; [exact L1|exact Hl|]. intros k Hk'. exact (proj1 (N k Hk')). }
  unfold is_contiguous. rewrite Hk, Hm, E4. destruct Hl as [-> | ->]; simpl spec_strides.
  - destruct (row_last (k_shape c)) as [(-> & _)| ->]; reflexivity.
  - destruct (col_first (k_shape c)) as [-> | ->]; reflexivity.
Qed.
Print Assumptions C15_computed_contiguous.
Example C15_case_contiguous :
  compute_strides dynamic [2; 3; 1] row_major [0; 0; 0] (Some [0; 0; 0]) = Ok ([3; 1; 0], Some [3; 2; 0], 6) /\
  is_contiguous (mk_meta KContainer dynamic None row_major) (mk_container [2; 3; 1] [3; 1; 0] [3; 2; 0] 0) = true /\
  is_contiguous (mk_meta KContainer dynamic None row_major) (mk_container [2; 3; 1] [6; 2; 0] [6; 4; 0] 0) = false.
Proof. repeat split; vm_compute; reflexivity. Qed.

(** is_contiguous does not look at the outer strides: for a container with the layout row
    major and gaps between its rows it is true. *)
Theorem C15_contiguous_gaps : exists m c ix, m_kind m = KContainer /\ m_layout m = row_major /\
  is_contiguous m c = true /\ in_bounds (k_shape c) ix /\ prod (k_shape c) <= dot ix (k_strides c).
Proof.
  exists (mk_meta KContainer dynamic None row_major), (mk_container [2; 3] [10; 1] [10; 2] 0), [1; 0].
  split; [reflexivity|]. split; [reflexivity|]. split; [reflexivity|].
  split; [repeat constructor; simpl; lia|]. vm_compute. discriminate.
Qed.
Print Assumptions C15_contiguous_gaps.

(** A container with the layout dynamic is not contiguous, even with the strides of a row
    major one. *)
Theorem C15_dynamic_not_contiguous : forall m c, m_kind m = KContainer -> m_layout m = dynamic ->
  is_contiguous m c = true <-> k_strides c = [].
Proof.
  intros m c Hk Hm. unfold is_contiguous. rewrite Hk, Hm. destruct (k_strides c); split; intros H; try reflexivity; discriminate H.
Qed.
Print Assumptions C15_dynamic_not_contiguous.
