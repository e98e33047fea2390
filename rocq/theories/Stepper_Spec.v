(** What iterating over an expression should visit. *)
From Coq Require Import List ZArith Bool.
From Verif Require Import Prelude Strides_Model Strides_Spec Broadcast_Spec Stepper_Model.
Import ListNotations.
Open Scope Z_scope.

(** Position of an index in the traversal order of a layout. *)
Definition order_pos (l : layout) (sh ix : list Z) : Z :=
  match l with row_major => row_pos sh ix | _ => col_pos sh ix end.

(** The value of an expression at an index of the result: every operand is read
    at the broadcast index. *)
Fixpoint x_value {V} (ix : list Z) (e : sexp V) : res V :=
  match e with
  | XScalar v => Ok v
  | XStrided c buf => rdz buf (k_begin c + dot (bc_index (k_shape c) ix) (k_strides c))
  | XIndexed esh f => Ok (f (bc_index esh ix))
  | XFun f args => let* vs := seqM (map (x_value ix) args) in Ok (f vs)
  end.

(** An operand shape fits the result shape: right aligned, every extent is 1 or
    that of the result. *)
Definition fits (s sh : list Z) : Prop :=
  (length s <= length sh)%nat /\ forall k, axis s k = 1 \/ axis s k = axis sh k.

(** What the library maintains about strides: one stride and one backstride per
    axis, stride 0 on axes of extent 1, backstride = stride * (extent - 1). *)
Definition strided_ok (c : container) : Prop :=
  length (k_strides c) = length (k_shape c) /\ length (k_backstrides c) = length (k_shape c) /\
  forall j, (j < length (k_shape c))%nat ->
    (nth j (k_shape c) 0 = 1 -> nth j (k_strides c) 0 = 0) /\
    nth j (k_backstrides c) 0 = nth j (k_strides c) 0 * (nth j (k_shape c) 0 - 1).

(** Leaf-wise conditions. *)
Fixpoint all_leaves {V} (P : list Z -> sexp V -> Prop) (e : sexp V) : Prop :=
  match e with
  | XScalar _ => True
  | XStrided c _ => P (k_shape c) e
  | XIndexed esh _ => P esh e
  | XFun _ args => fold_right (fun a acc => all_leaves P a /\ acc) True args
  end.

(** Every operand fits the iteration shape, strided operands are consistent, and
    no operand read by index is 0-dimensional. *)
Definition operands_ok {V} (sh : list Z) (e : sexp V) : Prop :=
  all_leaves (fun s leaf => fits s sh /\
    match leaf with
    | XStrided c _ => strided_ok c
    | XIndexed _ _ => s <> []
    | _ => True
    end) e.

(** Expressions that may be traversed backwards from the end: no 0-dimensional
    container, and no operand read by index in column major order. *)
Definition reversible {V} (l : layout) (e : sexp V) : Prop :=
  all_leaves (fun s leaf => s <> [] /\
    match leaf with XIndexed _ _ => l = row_major | _ => True end) e.

(** Effect of a move on the position. *)
Definition moved (m : move) (p : Z) : Z :=
  match m with MInc => p + 1 | MDec => p - 1 | MAdd n => p + n | MSub n => p - n end.
Fixpoint stays (size p : Z) (ms : list move) : Prop :=
  match ms with [] => True | m :: ms' => 0 <= moved m p <= size /\ stays size (moved m p) ms' end.
Definition final (p : Z) (ms : list move) : Z := fold_left (fun p m => moved m p) ms p.

(** The storage of every strided leaf holds all its elements. *)
Definition storage_ok {V} (e : sexp V) : Prop :=
  all_leaves (fun s leaf =>
    match leaf with
    | XStrided c buf => forall ix, in_bounds (k_shape c) ix ->
        0 <= k_begin c + dot ix (k_strides c) < Z.of_nat (length buf)
    | _ => True
    end) e.
