(** Property C06: machine arithmetic. *)
From Coq Require Import List ZArith.
From Verif Require Import Prelude Strides_Model Strides_Spec Machine_Model Machine_Spec Machine_Proofs.
Import ListNotations.
Open Scope Z_scope.

(** C06. When the product of the extents (empty axes counting as 1) is below
    2^63, the 64-bit computations of size, strides, backstrides and of every
    in-bounds offset never overflow and give the mathematical results. *)
Theorem C06_no_overflow :
  forall (L l : layout) (sh st0 bs0 : list Z),
  is_shape sh -> fits64 sh -> length st0 = length sh -> length bs0 = length sh ->
  m_compute_size sh = prod sh /\
  m_compute_strides L sh l st0 (Some bs0) = compute_strides L sh l st0 (Some bs0) /\
  m_compute_strides L sh l st0 None = compute_strides L sh l st0 None /\
  (forall st bs ds ix, compute_strides L sh l st0 (Some bs0) = Ok (st, bs, ds) -> in_bounds sh ix ->
     m_raw_data_offset st ix = Ok (element_offset st ix) /\
     m_inner_product ix st 0 = element_offset st ix).
Proof. exact machine_lemma. Qed.
Print Assumptions C06_no_overflow.

Example C06_case :
  m_compute_strides row_major [2 ^ 31; 0; 2 ^ 31] row_major [0;0;0] (Some [0;0;0])
  = Ok ([0; 2 ^ 31; 1], Some [0; - 2 ^ 31; 2 ^ 31 - 1], 0)
  /\ fits64 [2 ^ 31; 0; 2 ^ 31].
Proof. vm_compute. split; reflexivity. Qed.

(** C06. Without the hypothesis the computed size can be smaller than the number
    of elements: a 2^32 x 2^32 array has computed size 0. *)
Theorem C06_size_wraps_refuted :
  exists sh, is_shape sh /\ Forall (fun d => d < 2 ^ 63) sh /\ m_compute_size sh < prod sh.
Proof. exact size_refuted_lemma. Qed.
Print Assumptions C06_size_wraps_refuted.

(** C06. Counting empty axes as 1 is needed: the strides of an empty array can
    overflow (undefined behaviour) although it has no element. *)
Theorem C06_empty_overflow_refuted :
  exists sh, is_shape sh /\ Forall (fun d => d < 2 ^ 63) sh /\ prod sh = 0 /\
  m_compute_strides row_major sh row_major (repeat 0 (length sh)) None = UB.
Proof. exact empty_overflow_lemma. Qed.
Print Assumptions C06_empty_overflow_refuted.
