(** Insertion points. *)
From Coq Require Import List ZArith Bool.
From Verif Require Import Prelude.
Import ListNotations.
Open Scope Z_scope.

(** Inserting [x] at position [k] keeps the sequence sorted. *)
Definition suitable {V} (lt : V -> V -> bool) (l : list V) (x : V) (k : Z) : Prop :=
  0 <= k <= Z.of_nat (length l) /\
  (forall y, In y (firstn (Z.to_nat k) l) -> lt x y = false) /\
  (forall y, In y (skipn (Z.to_nat k) l) -> lt y x = false).
(** ... and it is the first, the last such position. *)
Definition first_suitable {V} (lt : V -> V -> bool) (l : list V) (x : V) (k : Z) : Prop :=
  suitable lt l x k /\ forall j, suitable lt l x j -> k <= j.
Definition last_suitable {V} (lt : V -> V -> bool) (l : list V) (x : V) (k : Z) : Prop :=
  suitable lt l x k /\ forall j, suitable lt l x j -> j <= k.
