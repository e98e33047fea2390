(** What a histogram is. *)
From Coq Require Import List ZArith Bool Permutation QArith.
Import ListNotations.
Open Scope Z_scope.

(** [x] is in the bin number [b]: from its left edge on and before its right edge; the
    last bin also has its right edge. *)
Definition in_bin {V} (lt : V -> V -> bool) (edges : list V) (b : nat) (x : V) : bool :=
  match nth_error edges b, nth_error edges (S b) with
  | Some lo, Some hi => negb (lt x lo) && (lt x hi || ((S (S b) =? length edges)%nat && negb (lt hi x)))
  | _, _ => false
  end.

(** The weights of the items in the bin, and the count of a bin: their sum, added up
    in some order. *)
Definition weights_in {V W} (lt : V -> V -> bool) (edges data : list V) (weights : list W) (b : nat) : list W :=
  map snd (filter (fun p => in_bin lt edges b (fst p)) (combine data weights)).
Definition is_histogram {V W} (zero : W) (add : W -> W -> W) (lt : V -> V -> bool) (edges data : list V) (weights count : list W) : Prop :=
  length count = (length edges - 1)%nat /\
  forall b c, nth_error count b = Some c ->
    exists ws, Permutation ws (weights_in lt edges data weights b) /\ c = fold_left add ws zero.

(** The heights of the bins of a density: the count of the bin over its width times the
    number of items. *)
Definition heights {V W R} (of_weight : W -> R) (width : V -> V -> R) (of_size : Z -> R) (mul div : R -> R -> R)
    (data edges : list V) (count : list W) (probs : list R) : Prop :=
  length probs = length count /\
  forall i p, nth_error probs i = Some p ->
    exists c e0 e1, nth_error count i = Some c /\ nth_error edges i = Some e0 /\ nth_error edges (S i) = Some e1 /\
      p = div (of_weight c) (mul (width e1 e0) (of_size (Z.of_nat (length data)))).

(** The less-than of rational numbers. *)
Definition q_lt (x y : Q) : bool := negb (Qle_bool y x).

(** The edges of [bins] bins of equal width. *)
Definition equal_edges (left right : Q) (bins : nat) (edges : list Q) : Prop :=
  length edges = S bins /\
  forall i e, nth_error edges i = Some e -> (e == left + inject_Z (Z.of_nat i) * ((right - left) / inject_Z (Z.of_nat bins)))%Q.

(** The integral of a piecewise constant function. *)
Fixpoint integral (prob edges : list Q) : Q :=
  match prob, edges with
  | p :: prob, e0 :: ((e1 :: _) as edges) => (p * (e1 - e0) + integral prob edges)%Q
  | _, _ => 0%Q
  end.

(** The weights of the items with value [x]. *)
Definition weights_of {W} (data : list Z) (weights : list W) (x : Z) : list W :=
  map snd (filter (fun p => fst p =? x) (combine data weights)).

(** The sum of a list of integers, of a list of rationals. *)
Definition zsum (l : list Z) : Z := fold_right Z.add 0 l.
Definition qsum (l : list Q) : Q := fold_right Qplus 0%Q l.
