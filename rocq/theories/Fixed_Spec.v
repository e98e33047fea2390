(** What a container with a shape in its type, and an expression of such containers,
    should be. *)
From Coq Require Import List ZArith Bool.
From Verif Require Import Prelude Strides_Model Strides_Spec Broadcast_Model Broadcast_Spec Container_Model Assign_Model
  Semantic_Model Semantic_Spec.
Import ListNotations.
Open Scope Z_scope.

(** Operands with a positive number of axes and of elements. *)
Definition plain_operands {V} (e : aexp V) : Prop :=
  Forall (fun s => s <> [] /\ Forall (fun d => 0 < d) s) (operand_shapes e).

(** Broadcasting can be seen in the arguments of the outermost function: all operands have
    the shape of the result, or one of the arguments has another shape. *)
Definition visible_broadcast {V} (e : aexp V) : Prop :=
  forall sh, broadcast_of (operand_shapes e) sh ->
    (forall s, In s (operand_shapes e) -> s = sh) \/
    match e with AFun _ args => exists x, In x args /\ ~ broadcast_of (operand_shapes x) sh | _ => True end.

(** The arguments of the outermost function are not functions. *)
Definition one_level {V} (e : aexp V) : Prop :=
  match e with
  | AFun _ args => Forall (fun x => match x with AFun _ _ => False | _ => True end) args
  | _ => True
  end.
