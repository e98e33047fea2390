(** Vocabulary for C90. *)
From Coq Require Import List ZArith.
From Verif Require Import Prelude Strides_Model Strides_Spec Access_Model Container_Model Container_Spec.
Import ListNotations.
Open Scope Z_scope.

(** Resizing a storage to its own size does not change it. *)
Definition keeps {V} (rs : list V -> Z -> list V) : Prop := forall d, rs d (Z.of_nat (length d)) = d.

(** [a] shows [buffer] as an array of shape [sh]: the element at an index is the one whose place in the buffer is the rank of the index in the order [l]. *)
Definition shows {V} (a : cont V) (buffer : list V) (sh : list Z) (l : layout) : Prop :=
  ct_data a = buffer /\ ct_shape a = sh /\ forall ix, in_bounds sh ix -> elt a ix = rdz buffer (rank l sh ix).
(** The same, the place being given by strides *)
Definition shows_strided {V} (a : cont V) (buffer : list V) (sh strides : list Z) : Prop :=
  ct_data a = buffer /\ ct_shape a = sh /\ forall ix, in_bounds sh ix -> elt a ix = rdz buffer (dot ix strides).
