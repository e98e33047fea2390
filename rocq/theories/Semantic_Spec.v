(** What the assignment operators should do. *)
From Coq Require Import List ZArith Bool.
From Verif Require Import Prelude Strides_Model Strides_Spec Broadcast_Model Broadcast_Spec Stepper_Model Stepper_Spec
  Container_Model Container_Spec Assign_Model Assign_Spec Semantic_Model.
Import ListNotations.
Open Scope Z_scope.

(** A container as the library builds it: dense in some order (the reported one
    when that is row or column major), one value per element, stride 0 on axes of
    extent 1; the layout is the one of the type, and so is the number of
    dimensions, when these are static. *)
Definition well_formed {V} (SL : layout) (D : option nat) (a : cont V) : Prop :=
  is_shape (ct_shape a) /\ strided_ok (c_strided a) /\ Z.of_nat (length (ct_data a)) = prod (ct_shape a) /\
  SL <> any /\ ct_layout a <> any /\ (SL <> dynamic -> ct_layout a = SL) /\
  match D with Some n => length (ct_shape a) = n | None => True end /\
  exists l, is_order l /\ (is_order (ct_layout a) -> l = ct_layout a) /\
    forall ix, in_bounds (ct_shape a) ix -> dot ix (ct_strides a) = rank l (ct_shape a) ix.

(** Generators do not read the memory that is assigned to. *)
Fixpoint pure_generators {V} (e : aexp V) : Prop :=
  match e with
  | AIndexed _ f => forall mem1 mem2 ix, f mem1 ix = f mem2 ix
  | AFun _ args => fold_right (fun a acc => pure_generators a /\ acc) True args
  | _ => True
  end.

(** Valid operands: consistent strides, elements inside their storage, truthful
    layouts; no 0-dimensional generator, no generator reading the destination, and
    with SIMD no offset strided view with a static layout (see C14). *)
Definition valid_operands {V} (g : Z -> setup) (mem : list V) (e : aexp V) : Prop :=
  all_leaves (fun s leaf => real_shape s /\
    match leaf with XStrided c _ => strided_ok c | XIndexed _ _ => s <> [] | _ => True end) (inst mem e) /\
  storage_ok (inst mem e) /\ leaves_ok truthful e /\ (forall n, leaves_ok (simd_offset_ok (g n)) e) /\ pure_generators e.

(** The shapes of the operands and the shape they broadcast to. *)
Definition operand_shapes {V} (e : aexp V) : list (list Z) := leaves (a_expr e).

(** [a'] has the common shape of the operands and its element at every index is the
    value of the expression there, the operands being what they were before the
    assignment ([mem]). *)
Definition holds_value {V} (mem : list V) (e : aexp V) (a' : cont V) : Prop :=
  broadcast_of (operand_shapes e) (ct_shape a') /\
  forall ix, in_bounds (ct_shape a') ix -> exists x, x_value ix (inst mem e) = Ok x /\ elt a' ix = Ok x.

(** All strides of an operand or destination point in the same direction. *)
Definition one_direction (c : container) : Prop :=
  Forall (fun s => 0 <= s) (k_strides c) \/ Forall (fun s => s <= 0) (k_strides c).
Fixpoint own_leaves {V} (P : container -> Prop) (e : aexp V) : Prop :=
  match e with
  | ALeaf _ c None => P c
  | AFun _ args => fold_right (fun a acc => own_leaves P a /\ acc) True args
  | _ => True
  end.

(** The expression fits the view: each operand, and so the whole, can be broadcast
    to the shape of the view. *)
Definition fits_view {V} (e : aexp V) (c : container) : Prop :=
  forall s, In s (operand_shapes e) -> fits s (k_shape c).

(** A destination with a static number of dimensions gets an expression of that
    dimension. *)
Definition rank_matches {V} (D : option nat) (e : aexp V) : Prop :=
  match D with
  | Some n => forall sh, broadcast_of (operand_shapes e) sh -> length sh = n
  | None => True
  end.

(** What the build and the run-time system may choose, for every size. *)
Definition setups_ok (g : Z -> setup) : Prop := forall n, 0 <= n -> setup_ok (g n) n.

(** What resizing a storage guarantees. *)
Definition resizes {V} (rs : list V -> Z -> list V) : Prop := forall d n, 0 <= n -> Z.of_nat (length (rs d n)) = n.

(** No axis on which the container has extent 1 and the expression extent 0. *)
Definition no_vanishing_axis {V} (a : cont V) (e : aexp V) : Prop :=
  forall s k, In s (operand_shapes e) -> axis s k = 0 -> axis (ct_shape a) k <> 1.
