(** Vocabulary for C88. *)
From Coq Require Import List ZArith QArith Qcanon.
From Verif Require Import Prelude Strides_Spec Reduce_Spec Norm_Model Elem_Model.
Import ListNotations.
Open Scope Z_scope.

(** [lt] is a strict total order. *)
Definition total_order {A} (lt : A -> A -> bool) : Prop :=
  (forall x, lt x x = false) /\ (forall x y z, lt x y = true -> lt y z = true -> lt x z = true) /\
  (forall x y, lt x y = false -> lt y x = false -> x = y).
(** [m] is not below [x]. *)
Definition at_least {A} (lt : A -> A -> bool) (m x : A) : Prop := lt m x = false.
(** The product of N factors v *)
Fixpoint product {T} (mul : T -> T -> T) (one : T) (N : nat) (v : T) : T := match N with O => one | S n => mul v (product mul one n v) end.
(** z is a value of the integer type t. *)
Definition value_of (t : ity) (z : Z) : Prop := low t <= z <= high t.
(** m is the greatest (with the order reversed: the least) of the elements ev jx whose indices jx are reduced to ix; without any, m is [bottom]. *)
Definition extremum {A} (lt : A -> A -> bool) (bottom : A) (keep : bool) (axes esh : list Z) (ev : list Z -> A) (ix : list Z) (m : A) : Prop :=
  (forall jx, in_bounds esh jx -> red_index keep axes jx = ix -> at_least lt m (ev jx)) /\
  ((exists jx, in_bounds esh jx /\ red_index keep axes jx = ix /\ ev jx = m) \/
   ((forall jx, in_bounds esh jx -> red_index keep axes jx <> ix) /\ m = bottom)).
