(** What selecting elements means. *)
From Coq Require Import List ZArith Sorted.
From Verif Require Import Prelude Strides_Model Strides_Spec Access_Model Container_Model Container_Spec Select_Model.
Import ListNotations.
Open Scope Z_scope.

(** [arr] is the expression of shape [sh] whose element at [ix], as a boolean, is [p ix]. *)
Definition expr_of {V} (sh : list Z) (arr : list Z -> res V) (p : list Z -> V) : Prop :=
  forall ix, in_bounds sh ix -> arr ix = Ok (p ix).

(** [l] lists, once each and in the order L, the indices of shape [sh] where [p] holds. *)
Definition lists_where (L : layout) (sh : list Z) (p : list Z -> bool) (l : list (list Z)) : Prop :=
  (forall ix, In ix l <-> in_bounds sh ix /\ p ix = true) /\
  StronglySorted (fun a b => rank L sh a < rank L sh b) l.

(** [i] is the last position of [ix] in [l]. *)
Definition last_at (l : list (list Z)) (ix : list Z) (i : nat) : Prop :=
  nth_error l i = Some ix /\ forall j, (i < j)%nat -> nth_error l j <> Some ix.

(** Number of occurrences of [ix] in [l]. *)
Definition occurrences (l : list (list Z)) (ix : list Z) : nat :=
  length (filter (fun jx => if list_eq_dec Z.eq_dec jx ix then true else false) l).

(** All the indices in [l] are inside the array; the elements of the array are [v]. *)
Definition all_inside (sh : list Z) (l : list (list Z)) : Prop := Forall (in_bounds sh) l.
Definition holds {V} (c : cont V) (sh : list Z) (v : list Z -> V) : Prop :=
  consistent c /\ ct_shape c = sh /\ forall ix, in_bounds sh ix -> elt c ix = Ok (v ix).

(** The value of a right-hand side at position i, read from the contents [v]: [ivx] reads
    only positions below n of lists inside the array. *)
Fixpoint rhs_ok {V} (sh : list Z) (n : nat) (e : ivx V) : Prop :=
  match e with
  | X_ext _ _ => True
  | X_view l => length l = n /\ all_inside sh l
  | X_fun _ a b => rhs_ok sh n a /\ rhs_ok sh n b
  end.
Fixpoint rhs_at {V} (v : list Z -> V) (e : ivx V) (i : nat) : V :=
  match e with
  | X_ext _ f => f (Z.of_nat i)
  | X_view l => v (nth i l [])
  | X_fun f a b => f (rhs_at v a i) (rhs_at v b i)
  end.

(** The first and the last element of the list are the extreme ones in memory. *)
Definition ends_extreme (off : list Z -> Z) (l : list (list Z)) : Prop :=
  forall ix, In ix l ->
    Z.min (off (hd [] l)) (off (last l [])) <= off ix <= Z.max (off (hd [] l)) (off (last l [])).
Fixpoint rhs_extreme {V} (off : list Z -> Z) (e : ivx V) : Prop :=
  match e with
  | X_ext _ _ => True
  | X_view l => ends_extreme off l
  | X_fun _ a b => rhs_extreme off a /\ rhs_extreme off b
  end.

(** The condition of a filtration only depends on the element of the array at hand: at
    [ix] it is [p ix] whatever the other elements have become. *)
Definition local_condition {V} (sh : list Z) (v : list Z -> V) (cond : cont V -> list Z -> res bool) (p : list Z -> bool) : Prop :=
  forall c w ix, holds c sh w -> in_bounds sh ix -> w ix = v ix -> cond c ix = Ok (p ix).
