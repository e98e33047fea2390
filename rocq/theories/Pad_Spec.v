(** What padding and tiling mean. *)
From Coq Require Import List ZArith Bool.
From Verif Require Import Prelude Strides_Spec Pad_Model.
Import ListNotations.
Open Scope Z_scope.

(** The position along an axis of extent n shown at position i of the padded axis, where
    nb values were added before: x is the position relative to the first element. *)
Definition pad_position (mode : pad_mode) (n nb i : Z) : Z :=
  let x := i - nb in
  match mode with
  | p_constant => x
  | p_edge => Z.max 0 (Z.min (n - 1) x)
  | p_wrap | p_periodic => x mod n
  | p_symmetric => let m := x mod (2 * n) in if m <? n then m else 2 * n - 1 - m
  | p_reflect => let m := x mod (2 * (n - 1)) in if m <? n then m else 2 * (n - 1) - m
  end.
Fixpoint pad_source (mode : pad_mode) (esh : list Z) (pw : list (Z * Z)) (ix : list Z) : list Z :=
  match esh, pw, ix with
  | n :: esh', w :: pw', i :: ix' => pad_position mode n (fst w) i :: pad_source mode esh' pw' ix'
  | _, _, _ => []
  end.
(** The index is inside the original array. *)
Fixpoint in_centre (esh : list Z) (pw : list (Z * Z)) (ix : list Z) : bool :=
  match esh, pw, ix with
  | n :: esh', w :: pw', i :: ix' => (fst w <=? i) && (i <? fst w + n) && in_centre esh' pw' ix'
  | _, _, _ => true
  end.
Fixpoint padded_shape (esh : list Z) (pw : list (Z * Z)) : list Z :=
  match esh, pw with
  | n :: esh', w :: pw' => fst w + n + snd w :: padded_shape esh' pw'
  | _, _ => []
  end.

(** The widths each mode accepts: at most the elements there are to show. *)
Definition width_ok (mode : pad_mode) (n : Z) (w : Z * Z) : Prop :=
  0 <= fst w /\ 0 <= snd w /\
  match mode with
  | p_constant => True
  | p_edge => 1 <= n \/ (fst w = 0 /\ snd w = 0)
  | p_wrap | p_periodic | p_symmetric => fst w <= n /\ snd w <= n
  | p_reflect => (fst w <= n - 1 /\ snd w <= n - 1) \/ (fst w = 0 /\ snd w = 0)
  end.

(** The shape and the source of a tiled array. *)
Fixpoint tiled_shape (esh reps : list Z) : list Z :=
  match esh, reps with n :: esh', r :: reps' => n * r :: tiled_shape esh' reps' | _, _ => [] end.
Fixpoint mods (ix esh : list Z) : list Z :=
  match ix, esh with i :: ix', n :: esh' => i mod n :: mods ix' esh' | _, _ => [] end.
