(** What random reordering and sampling should do. *)
From Coq Require Import List ZArith QArith Bool Permutation Sorted.
From Verif Require Import Prelude Sort_Spec.
Import ListNotations.
Open Scope Z_scope.

(** The numbers drawn from an engine are in the range that was asked for. *)
Definition in_range {G} (uniform : Z -> G -> Z * G) : Prop :=
  forall i g, 0 <= i -> 0 <= fst (uniform i g) <= i.

(** An engine that gives the numbers of a list, in which each number stands with the
    bound it is for: a number for another bound, or at the end of the list, is -1. *)
Definition scripted (i : Z) (g : list (Z * Z)) : Z * list (Z * Z) :=
  match g with [] => (-1, []) | (b, d) :: g => (if i =? b then d else -1, g) end.

(** The numbers 0, 1, ..., n - 1. *)
Definition upto (n : nat) : list Z := map Z.of_nat (seq 0 n).

(** The expression shows the values [l]: its k-th element is at the position number k of [pos]. *)
Definition shows {V} (pos : list Z) (mem : list V) (l : list V) : Prop :=
  Forall2 (fun p x => 0 <= p /\ nth_error mem (Z.to_nat p) = Some x) pos l.

(** The numbers that can be drawn for a sequence of [S i] elements: the first
    between 0 and i, the next between 0 and i - 1, and so on. *)
Fixpoint countdown (i : nat) (ds : list (Z * Z)) : Prop :=
  match i, ds with
  | O, [] => True
  | S i', (b, d) :: ds => b = Z.of_nat i /\ 0 <= d <= b /\ countdown i' ds
  | _, _ => False
  end.

(** All sequences of [k] numbers, the first between 0 and n, the next between 0 and n + 1,
    and so on; and whether two lists have the same elements. *)
Fixpoint all_draws (n k : nat) : list (list (Z * Z)) :=
  match k with
  | O => [[]]
  | S k' => flat_map (fun ds => map (fun d => ds ++ [(Z.of_nat (n + k'), Z.of_nat d)]) (seq 0 (S (n + k')))) (all_draws n k')
  end.
Definition same_elements (l l' : list Z) : bool :=
  forallb (fun x => existsb (Z.eqb x) l') l && forallb (fun x => existsb (Z.eqb x) l) l'.

(** std::partial_sort: the first n elements are the first n of a sorted sequence of all. *)
Definition partial_sort_ok (partial_sort : (Z -> Z -> bool) -> nat -> list Z -> list Z) : Prop :=
  forall lt n l, strict_weak_order lt l -> (n <= length l)%nat ->
    Permutation (partial_sort lt n l) l /\
    sorted lt (firstn n (partial_sort lt n l)) /\
    forall x y, In x (firstn n (partial_sort lt n l)) -> In y (skipn n (partial_sort lt n l)) -> lt y x = false.

(** Exact arithmetic: the order of the rationals, sums, an engine that gives the fractions
    of a list of the range that is asked for, and one that gives the numbers of a list. *)
Definition qltb (x y : Q) : bool := negb (Qle_bool y x).
Definition total (ws : list Q) : Q := fold_right Qplus 0%Q ws.
Definition fractions (m : Q) (g : list Q) : Q * list Q :=
  match g with [] => (0%Q, []) | f :: g => ((f * m)%Q, g) end.
Definition numbers (g : list Q) : Q * list Q :=
  match g with [] => (0%Q, []) | x :: g => (x, g) end.
