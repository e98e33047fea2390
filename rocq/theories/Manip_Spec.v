(** What the manipulation functions are, after the NumPy functions of the same
    names: rearrangements of shapes and indices. *)
From Coq Require Import List ZArith Bool Permutation.
From Verif Require Import Prelude Strides_Model Strides_Spec Slice_Model Container_Spec SView_Model SView_Spec.
Import ListNotations.
Open Scope Z_scope.

(** Entry i is entry perm[i] of the list. *)
Definition permute (perm : list nat) (l : list Z) : list Z := map (fun p => nth p l 0) perm.

(** The entries a and b exchanged. *)
Definition swap_at (a b : nat) (l : list Z) : list Z := upd (upd l a (nth b l 0)) b (nth a l 0).

(** The entry s taken out and put back so that it ends up at position d. *)
Definition move_at (s d : nat) (l : list Z) : list Z :=
  let r := firstn s l ++ skipn (S s) l in firstn d r ++ nth s l 0 :: skipn d r.

(** Index reversed along an axis of the shape. *)
Definition mirror (a : nat) (sh ix : list Z) : list Z := upd ix a (nth a sh 0 - 1 - nth a ix 0).

(** A quarter turn from axis a towards axis b: where the element at [ix] goes. *)
Definition turn (a b : nat) (sh ix : list Z) : list Z :=
  upd (upd ix a (nth b sh 0 - 1 - nth b ix 0)) b (nth a ix 0).
Fixpoint turns (k : nat) (a b : nat) (sh ix : list Z) : list Z :=
  match k with
  | O => ix
  | S k => turns k a b (swap_at a b sh) (turn a b sh ix)
  end.
Fixpoint turned_shape (k : nat) (a b : nat) (sh : list Z) : list Z :=
  match k with O => sh | S k => turned_shape k a b (swap_at a b sh) end.

(** The entries of [l] for the axes of [sh] with an extent other than 1. *)
Fixpoint drop_unit (sh l : list Z) : list Z :=
  match sh, l with
  | n :: sh, x :: l => if n =? 1 then drop_unit sh l else x :: drop_unit sh l
  | _, _ => []
  end.

(** The entries of [l] at the axes, counted from [k], that are not in [axes]. *)
Fixpoint drop_axes (axes : list Z) (k : nat) (l : list Z) : list Z :=
  match l with
  | x :: l => if existsb (Z.eqb (Z.of_nat k)) axes then drop_axes axes (S k) l else x :: drop_axes axes (S k) l
  | [] => []
  end.

(** [x] inserted so that it is entry [a]. *)
Definition insert_at (a : nat) (x : Z) (l : list Z) : list Z := firstn a l ++ x :: skipn a l.

(** A possibly negative axis of an array of dimension n. *)
Definition axis_of (n : nat) (a : Z) (k : nat) : Prop :=
  - Z.of_nat n <= a < Z.of_nat n /\ Z.of_nat k = a mod Z.of_nat n.

(** [rearranges e v sh f]: the view [v] of [e] has shape [sh] and is [e] with its
    indices rearranged by [f]: the element of e at [jx] is the element of v at
    [f jx], and v has no other elements. *)
Definition rearranges (e : xexp) (v : sview) (sh : list Z) (f : list Z -> list Z) : Prop :=
  w_shape v = sh /\
  (forall jx, in_bounds (x_shape e) jx -> in_bounds sh (f jx) /\ reads v (f jx) (x_elem e jx)) /\
  (forall ix, in_bounds sh ix -> exists jx, in_bounds (x_shape e) jx /\ ix = f jx).

(** The reported layout of an expression, or of a view, is that of its strides. *)
Definition layout_true (e : xexp) : Prop :=
  is_order (x_layout e) -> forall ix, in_bounds (x_shape e) ix ->
    element_offset (x_strides e) ix = rank (x_layout e) (x_shape e) ix.
Definition view_layout_true (v : sview) : Prop :=
  is_order (w_layout v) -> forall ix, in_bounds (w_shape v) ix ->
    element_offset (w_strides v) ix = rank (w_layout v) (w_shape v) ix.
