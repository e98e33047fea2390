(** What a reduction should compute. *)
From Coq Require Import List ZArith Bool Sorted.
From Verif Require Import Prelude Strides_Model Strides_Spec Stepper_Spec Reduce_Model.
Import ListNotations.
Open Scope Z_scope.

(** Axes: increasing, without repetition, in range. *)
Definition valid_axes (dim : nat) (axes : list Z) : Prop :=
  StronglySorted Z.lt axes /\ Forall (fun a => 0 <= a < Z.of_nat dim) axes.

(** A list without the entries at the positions [axes] (the first entry has
    position k), and with these entries replaced. *)
Fixpoint without (axes : list Z) (k : Z) (l : list Z) : list Z :=
  match l with
  | [] => []
  | x :: l' => if in_dec Z.eq_dec k axes then without axes (k + 1) l' else x :: without axes (k + 1) l'
  end.
Fixpoint replaced (axes : list Z) (v : Z) (k : Z) (l : list Z) : list Z :=
  match l with
  | [] => []
  | x :: l' => (if in_dec Z.eq_dec k axes then v else x) :: replaced axes v (k + 1) l'
  end.

(** The shape of the result, and the index of the result an index of the
    expression contributes to. *)
Definition red_shape (keep : bool) (axes sh : list Z) : list Z :=
  if keep then replaced axes 1 0 sh else without axes 0 sh.
Definition red_index (keep : bool) (axes jx : list Z) : list Z :=
  if keep then replaced axes 0 0 jx else without axes 0 jx.

(** All indices of a shape in row major order, in column major order. *)
Fixpoint row_indices (sh : list Z) : list (list Z) :=
  match sh with
  | [] => [[]]
  | d :: sh' => flat_map (fun i => map (cons (Z.of_nat i)) (row_indices sh')) (seq 0 (Z.to_nat d))
  end.
Definition indices_of (l : layout) (sh : list Z) : list (list Z) :=
  match l with row_major => row_indices sh | _ => map (@rev Z) (row_indices (rev sh)) end.

(** The indices of the expression that contribute to index [ix] of the result. *)
Definition block (l : layout) (keep : bool) (axes sh ix : list Z) : list (list Z) :=
  filter (fun jx => if list_eq_dec Z.eq_dec (red_index keep axes jx) ix then true else false) (indices_of l sh).

(** The reduced value: the elements of the block folded from the initial value. *)
Definition reduced {T R} (f : rfun T R) (initial : option R) (l : layout) (keep : bool) (axes sh : list Z)
  (ev : list Z -> T) (ix : list Z) : R :=
  fold_left (rf_reduce f) (map ev (block l keep axes sh ix))
    (match initial with Some i => i | None => rf_init f end).

(** The law relating the functors of a reduction: merging with the reduction of
    some elements is reducing these elements further. (With reduce = merge it says
    that the operation is associative and [init] neutral.) *)
Definition merge_law {T R} (f : rfun T R) : Prop :=
  forall a ys, ys <> [] ->
    rf_merge f a (fold_left (rf_reduce f) ys (rf_init f)) = fold_left (rf_reduce f) ys a.
(** Needed only when several axes are reduced or an initial value is given. *)
Definition law_if_needed {T R} (f : rfun T R) (axes : list Z) (initial : option R) : Prop :=
  ((length axes <= 1)%nat /\ initial = None) \/ merge_law f.

(** The expression [e] has shape [sh] and the elements [ev]. *)
Definition has_elements {V} (sh : list Z) (e : Stepper_Model.sexp V) (ev : list Z -> V) : Prop :=
  operands_ok sh e /\ forall jx, in_bounds sh jx -> x_value jx e = Ok (ev jx).

(** The shape [sh] over which a reducer of shape [red_shape keep axes esh] is
    iterated: it fits, and the reduced axes that were kept are not broadcast. *)
Definition iterable (keep : bool) (axes esh sh : list Z) : Prop :=
  let rsh := red_shape keep axes esh in
  fits rsh sh /\ (keep = true -> forall a, In a axes -> nth (Z.to_nat a + (length sh - length rsh)) sh 0%Z = 1).

(** The strides of a container along axes of extent 1 are 0, as all its
    constructors, resize and reshape leave them. *)
Definition unit_strides_zero {V} (c : Container_Model.cont V) : Prop :=
  forall i, (i < length (Container_Model.ct_shape c))%nat -> nth i (Container_Model.ct_shape c) 0 = 1 ->
    nth i (Container_Model.ct_strides c) 0 = 0.

(** The cases in which an immediate reduction copies the elements: there are no
    axes to reduce; or not all axes are reduced, and every axis that is reduced, or
    comes before a reduced one in the storage order, has extent 1. *)
Definition copied (l : layout) (axes sh : list Z) : Prop :=
  axes = [] \/
  ((length axes < length sh)%nat /\
   forall j a, (j < length sh)%nat -> In a axes ->
     (match l with row_major => Z.of_nat j <= a | _ => a <= Z.of_nat j end) -> nth j sh 0 = 1).
