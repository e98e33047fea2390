(** Specification vocabulary for checked and periodic access. *)
From Coq Require Import List ZArith.
Import ListNotations.
Open Scope Z_scope.

(** Each index reduced modulo the extent of its axis. *)
Fixpoint wrap_index (sh ix : list Z) : list Z :=
  match sh, ix with
  | d :: sh', i :: ix' => (i mod d) :: wrap_index sh' ix'
  | _, _ => []
  end.

(** An index that at() accepts: in range, or on an axis of extent 1. *)
Definition acceptable (sh ix : list Z) : Prop :=
  Forall2 (fun d i => d = 1 \/ 0 <= i < d) sh ix.

(** Values representable in std::ptrdiff_t. *)
Definition fits (x : Z) : Prop := - 2 ^ 63 <= x < 2 ^ 63.

(** The same index up to the axes of extent 1. *)
Definition same_index (sh ix jx : list Z) : Prop :=
  length ix = length sh /\ length jx = length sh /\
  forall k, (k < length sh)%nat -> nth k sh 0 = 1 \/ nth k ix 0 = nth k jx 0.
