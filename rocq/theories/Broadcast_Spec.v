(** What broadcasting should compute. *)
From Coq Require Import List ZArith.
From Verif Require Import Broadcast_Model.
Import ListNotations.
Open Scope Z_scope.

(** Extent of the k-th axis from the right; an absent axis counts as 1. *)
Definition axis (s : list Z) (k : nat) : Z := nth k (rev s) 1.

(** No two shapes have different extents, both different from 1, on an axis. *)
Definition compatible (ss : list (list Z)) : Prop :=
  forall s t k, In s ss -> In t ss -> axis s k = 1 \/ axis t k = 1 \/ axis s k = axis t k.

(** [out] is the common shape: as many axes as the longest shape; on each axis
    every shape has extent 1 or that of [out], and some shape has that of [out]
    unless it is 1. *)
Definition broadcast_of (ss : list (list Z)) (out : list Z) : Prop :=
  (forall s, In s ss -> (length s <= length out)%nat) /\
  (out = [] \/ exists s, In s ss /\ length s = length out) /\
  forall k,
    (forall s, In s ss -> axis s k = 1 \/ axis s k = axis out k) /\
    (axis out k = 1 \/ exists s, In s ss /\ axis s k = axis out k).

(** The shapes of the non-scalar leaves of an expression, left to right. *)
Fixpoint leaves (e : expr) : list (list Z) :=
  match e with
  | EScalar => []
  | ELeaf s => [s]
  | EFun es => flat_map leaves es
  end.

(** Shapes of objects that exist: extents between 0 and 2^64-2. *)
Definition real_shape (s : list Z) : Prop := Forall (fun d => 0 <= d < 2 ^ 64 - 1) s.
Definition real_expr (e : expr) : Prop := Forall real_shape (leaves e).

(** The element of an operand of shape [e] seen at index [ix] of the broadcast:
    the last axes of [ix], with index 0 on the axes of extent 1. *)
Fixpoint zero_unit (e ix : list Z) : list Z :=
  match e, ix with
  | d :: e', i :: ix' => (if d =? 1 then 0 else i) :: zero_unit e' ix'
  | _, _ => []
  end.
Definition bc_index (e ix : list Z) : list Z :=
  zero_unit e (skipn (length ix - length e) ix).

(** Observations of an expression that always reflect its current operands. *)
Fixpoint ideal (e : expr) (ops : list fop) : list fobs :=
  match ops with
  | [] => []
  | Resize e' :: ops' => O_none :: ideal e' ops'
  | Q_dim :: ops' => O_dim (dimension e) :: ideal e ops'
  | Q_shape :: ops' =>
      O_shape (Prelude.bind (expr_shape e) (fun '(s, _) => Prelude.Ok s)) :: ideal e ops'
  | Q_assign :: ops' => O_assign (expr_shape e) :: ideal e ops'
  end.
