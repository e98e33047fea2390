(** What a blockwise reduction should compute. *)
From Coq Require Import List ZArith Bool QArith Permutation.
From Verif Require Import Prelude Strides_Model Strides_Spec Container_Model Container_Spec Reduce_Model Reduce_Spec Block_Model.
Import ListNotations.
Open Scope Z_scope.

(** The number of axes and the extents fit in std::size_t. *)
Definition addressable (sh : list Z) : Prop := Z.of_nat (length sh) < 2 ^ 64 /\ Forall (fun s => s < 2 ^ 64) sh.

(** No axis of the list has extent 0. *)
Definition filled_axes (sh axes : list Z) : Prop := Forall (fun a => 0 < nth (Z.to_nat a) sh 0) axes.

(** The results of the blocks merged one after the other into a cell that held r. *)
Definition merged {T B C R} (f : bfun T B C R) (vals : list B) (r : R) : R * C :=
  match vals with
  | [] => (r, bf_start f)
  | v :: rest => fold_left (fun s v => bf_merge f v false s) rest (bf_merge f v true (r, bf_start f))
  end.

(** A reduction whose result does not depend on the order of the elements, and [op]
    merges the reduction of a block into a reduced value. [ok]: what is assumed of the
    elements. *)
Definition order_free {T R} (f : rfun T R) : Prop :=
  forall l l' : list T, Permutation l l' -> fold_left (rf_reduce f) l (rf_init f) = fold_left (rf_reduce f) l' (rf_init f).
Definition merges {T R} (ok : T -> Prop) (f : rfun T R) (op : R -> R -> R) : Prop :=
  forall a ys, ys <> [] -> Forall ok ys -> op (fold_left (rf_reduce f) ys (rf_init f)) a = fold_left (rf_reduce f) ys a.

(** Assigning the blockwise reduction [f], with blocks of shape cs, of an expression of
    shape esh and elements ev to a container of the shape of the result succeeds,
    changes nothing but the elements, and each element satisfies [val] of the elements
    of the expression that contribute to it. *)
Definition gives {T B C R} (TL : layout) (f : bfun T B C R) (keep : bool) (axes esh cs : list Z) (ev : list Z -> T) (c : cont R)
    (val : list T -> R -> Prop) : Prop :=
  exists b c', make_breducer esh cs axes keep = Ok b /\ b_shape b = red_shape keep axes esh /\
    assign_to TL f b ev c = Ok c' /\ consistent c' /\
    ct_shape c' = ct_shape c /\ ct_strides c' = ct_strides c /\ ct_layout c' = ct_layout c /\
    forall ix, in_bounds (red_shape keep axes esh) ix ->
      exists v, elt c' ix = Ok v /\ val (map ev (block row_major keep axes esh ix)) v.

(** The mean and the variance of numbers. *)
Definition Qsum (l : list Q) : Q := fold_right Qplus 0%Q l.
Definition Qlen (l : list Q) : Q := inject_Z (Z.of_nat (length l)).
Definition mean (l : list Q) : Q := (Qsum l / Qlen l)%Q.
Definition variance (l : list Q) : Q := mean (map (fun x => (x - mean l) * (x - mean l))%Q l).

(** The sum of the images of the elements. *)
Definition Zsum {T} (g : T -> Z) (l : list T) : Z := fold_right (fun x r => g x + r) 0 l.
Definition Zprod (l : list Z) : Z := fold_right Z.mul 1 l.
(** v is one of the elements, and no element is smaller, no element is larger. *)
Definition smallest (l : list Z) (v : Z) : Prop := In v l /\ Forall (fun x => v <= x) l.
Definition largest (l : list Z) (v : Z) : Prop := In v l /\ Forall (fun x => x <= v) l.

(** The multi-indices between two bounds: b <= p < e on each axis; and the distances
    along each axis. *)
Definition between (b e p : list Z) : Prop := Forall2 Z.le b p /\ Forall2 Z.lt p e.
Fixpoint distances (e b : list Z) : list Z :=
  match e, b with x :: e', y :: b' => x - y :: distances e' b' | _, _ => [] end.
