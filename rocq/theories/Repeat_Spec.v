(** What xt::repeat should give. *)
From Coq Require Import List ZArith.
From Verif Require Import Prelude Strides_Spec.
Import ListNotations.
Open Scope Z_scope.

(** Sum of the repeats: the extent of the result along the axis. *)
Definition total (r : list Z) : Z := fold_right Z.add 0 r.

(** Position [i] along the axis of the result comes from position [j] of the
    argument: i lies in the block of the j-th repeat. *)
Definition source (r : list Z) (i : Z) (j : nat) : Prop :=
  (j < length r)%nat /\ total (firstn j r) <= i < total (firstn (S j) r).

(** [l] with [v] at position [k]. *)
Definition at_axis (l : list Z) (k : nat) (v : Z) : list Z := firstn k l ++ v :: skipn (S k) l.

(** The arguments repeat accepts: an axis of the expression, one count per
    position along it. *)
Definition repeatable (esh repeats : list Z) (axis : nat) : Prop :=
  is_shape esh /\ nth_error esh axis = Some (Z.of_nat (length repeats)) /\ Forall (fun r => 0 <= r) repeats.
