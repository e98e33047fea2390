(** The storage of an array with missing values, as a sequence of values with flags. *)
From Coq Require Import List Bool Arith.
From Verif Require Import OStore_Model.
Import ListNotations.

Section Spec.
Context {V : Type}.
(** The elements; a storage has as many flags as values. *)
Definition elements (s : @storage V) : list (V * bool) := combine (values s) (flags s).
Definition matched (s : @storage V) : Prop := length (values s) = length (flags s).

(** One statement on two sequences; None: an index is out of range. [fresh n]: the contents of new memory of n elements. *)
Definition replace (l : list (V * bool)) (i : nat) (x : V * bool) : list (V * bool) := firstn i l ++ [x] ++ skipn (S i) l.
Definition does (fresh : nat -> list (V * bool)) (a b : list (V * bool)) (o : @op V) : option (list (V * bool) * list (V * bool)) :=
  match o with
  | Put i v f => if i <? length a then Some (replace a i (v, f), b) else None
  | Miss i => match nth_error a i with Some (v, _) => Some (replace a i (v, false), b) | None => None end
  | Resize n => Some (if n =? length a then a else fresh n, b)
  | Swap => Some (b, a)
  | Assign => Some (b, b)
  end.
Fixpoint does_all fresh (a b : list (V * bool)) (p : list (@op V)) : option (list (V * bool) * list (V * bool)) :=
  match p with
  | [] => Some (a, b)
  | o :: p => match does fresh a b o with Some (a, b) => does_all fresh a b p | None => None end
  end.
(** What a reader of the sequence sees: a missing element has no value. *)
Definition visible (s : @storage V) : list (option V) := map (fun x : V * bool => if snd x then Some (fst x) else None) (elements s).
End Spec.
