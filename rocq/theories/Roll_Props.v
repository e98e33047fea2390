(** Property C25: roll. [s] and [r] are the elements of the argument and of the
    result in row-major order (the default traversal, C11): the element at index ix
    is entry [row_pos shape ix]. *)
From Coq Require Import List ZArith Lia.
From Verif Require Import Prelude Strides_Model Strides_Spec Roll_Model Roll_Proofs.
Import ListNotations.
Open Scope Z_scope.

(** C25, flat: any signed shift of a non-empty array, in either traversal order. *)
Theorem C25_roll_flat_partial : forall (V : Type) (s : list V) (shape : list Z) (shift : Z),
  Z.of_nat (length s) = prod shape -> 0 < prod shape ->
  exists r, roll_flat s shape shift = Ok r /\ length r = length s /\
    forall k, 0 <= k < prod shape -> nth_error r (Z.to_nat k) = nth_error s (Z.to_nat ((k - shift) mod prod shape)).
Proof. exact roll_flat_lemma. Qed.
Print Assumptions C25_roll_flat_partial.

(** An empty array: division by zero, or an endless loop. *)
Theorem C25_roll_flat_empty_refuted : forall (V : Type) (shape : list Z) (shift : Z), prod shape = 0 ->
  roll_flat (@nil V) shape shift = UB.
Proof. exact roll_flat_empty_lemma. Qed.
Print Assumptions C25_roll_flat_empty_refuted.

(** C25, along an axis: the element at ix moves circularly by shift. Partial: the axis
    is not negative, the shift is at most the extent, a negative shift needs a
    non-zero extent, and the traversal is row-major; each is refuted below. *)
Theorem C25_roll_axis_partial : forall (V : Type) (s : list V) (shape : list Z) (shift : Z) (axis : nat),
  is_shape shape -> Z.of_nat (length s) = prod shape -> (axis < length shape)%nat ->
  shift <= nth axis shape 0 -> (shift < 0 -> 0 < nth axis shape 0) ->
  exists r, roll_axis s shape shift (Z.of_nat axis) = Ok r /\ length r = length s /\
    forall ix, in_bounds shape ix ->
      nth_error r (Z.to_nat (row_pos shape (upd ix axis ((nth axis ix 0 + shift) mod nth axis shape 0)))) =
      nth_error s (Z.to_nat (row_pos shape ix)).
Proof. exact roll_axis_lemma. Qed.
Print Assumptions C25_roll_axis_partial.

Example C25_case :
  roll_axis [1; 2; 3; 4; 5; 6] [2; 3] (-4) 1 = Ok [2; 3; 1; 5; 6; 4] /\
  roll_axis [1; 2; 3; 4; 5; 6] [2; 3] 1 0 = Ok [4; 5; 6; 1; 2; 3] /\
  roll_axis [1; 2; 3; 4; 5; 6; 7; 8] [2; 2; 2] 1 1 = Ok [3; 4; 1; 2; 7; 8; 5; 6] /\
  roll_flat [1; 2; 3; 4; 5; 6] [2; 3] (-8) = Ok [3; 4; 5; 6; 1; 2] /\
  roll_axis [1; 2; 3; 4; 5; 6] [2; 3] 1 2 = Throw runtime_error.
Proof. repeat split; vm_compute; reflexivity. Qed.

(** An axis beyond the dimension is rejected. *)
Theorem C25_roll_axis_throws : forall (V : Type) (s : list V) (shape : list Z) (shift axis : Z),
  Z.of_nat (length shape) <= axis -> roll_axis s shape shift axis = Throw runtime_error.
Proof. exact roll_axis_throws_lemma. Qed.
Print Assumptions C25_roll_axis_throws.

(** So is every negative axis, also a valid one. *)
Theorem C25_negative_axis_refuted : forall (V : Type) (s : list V) (shape : list Z) (shift axis : Z),
  axis < 0 -> roll_axis s shape shift axis = Throw runtime_error.
Proof. exact roll_negative_axis_lemma. Qed.
Print Assumptions C25_negative_axis_refuted.

(** A shift larger than the extent of a non-empty array reads outside it. *)
Theorem C25_large_shift_refuted : forall (V : Type) (s : list V) (shape : list Z) (shift : Z) (axis : nat),
  Forall (fun d => 0 < d) shape -> (axis < length shape)%nat -> nth axis shape 0 < shift ->
  roll_axis s shape shift (Z.of_nat axis) = UB.
Proof. exact roll_large_lemma. Qed.
Print Assumptions C25_large_shift_refuted.

(** A negative shift along an axis of extent 0 never ends. *)
Theorem C25_endless_refuted : forall (V : Type) (shape : list Z) (shift : Z) (axis : nat),
  (axis < length shape)%nat -> nth axis shape 0 = 0 -> shift < 0 ->
  roll_axis (@nil V) shape shift (Z.of_nat axis) = UB.
Proof. exact roll_diverges_lemma. Qed.
Print Assumptions C25_endless_refuted.

(** With column-major default traversal the wrong elements are moved. *)
Theorem C25_column_major_refuted :
  exists r, roll_axis [1; 2; 3; 4; 5; 6] [2; 3] 1 0 = Ok r /\ in_bounds [2; 3] [0; 0] /\
    nth_error r (Z.to_nat (col_pos [2; 3] (upd [0; 0] 0 ((0 + 1) mod 2)))) <> nth_error [1; 2; 3; 4; 5; 6] (Z.to_nat (col_pos [2; 3] [0; 0])).
Proof. exact roll_column_lemma. Qed.
Print Assumptions C25_column_major_refuted.
