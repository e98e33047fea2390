(** The elements of a reshaped view. *)
From Coq Require Import List ZArith.
From Verif Require Import Prelude Strides_Model Strides_Spec Container_Spec SView_Model SView_Spec.
Import ListNotations.
Open Scope Z_scope.

(** The view [v] has the shape [shape], and holds the elements of an expression with shape
    [esh], every one once, in the same order: the element at an index of the view is the one
    of the expression that has the same rank in the order [L]. *)
Definition rearranges (L : layout) (v : sview) (shape esh : list Z) : Prop :=
  w_shape v = shape /\
  (forall ix jx, in_bounds shape ix -> in_bounds esh jx -> rank L shape ix = rank L esh jx -> reads v ix (Elem jx)) /\
  (forall ix, in_bounds shape ix -> exists! jx, in_bounds esh jx /\ rank L shape ix = rank L esh jx) /\
  (forall jx, in_bounds esh jx -> exists! ix, in_bounds shape ix /\ rank L shape ix = rank L esh jx).
