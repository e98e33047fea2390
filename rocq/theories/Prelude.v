(** Shared vocabulary of the model: outcomes of C++ code, array accesses and
    loops. Nothing here models a particular function of /repo; these are the
    building blocks the *_Model.v files are written with. *)
From Coq Require Import List ZArith Lia Bool.
Import ListNotations.
Open Scope Z_scope.

(** Exceptions thrown by the modelled code (/repo/include/xtensor/utils/xexception.hpp
    lines 60-80 and 149-160 for the xtensor-specific ones, the rest are std::). *)
Inductive exn : Type :=
| broadcast_error
| concatenate_error
| transpose_error
| runtime_error
| out_of_range
| invalid_argument
| bad_alloc.

(** Outcome of a piece of C++: a value, an exception, or undefined behaviour
    (out-of-bounds access, division by zero, signed overflow, ...). *)
Inductive res (A : Type) : Type :=
| Ok (a : A)
| Throw (e : exn)
| UB.
Arguments Ok {A} a.
Arguments Throw {A} e.
Arguments UB {A}.

Definition bind {A B} (m : res A) (k : A -> res B) : res B :=
  match m with
  | Ok a => k a
  | Throw e => Throw e
  | UB => UB
  end.

Notation "'let*' x := m 'in' k" := (bind m (fun x => k))
  (at level 200, x name, m at level 100, k at level 200, right associativity).
Notation "'let*' ' x := m 'in' k" := (bind m (fun x => k))
  (at level 200, x strict pattern, m at level 100, k at level 200, right associativity).

(** l[i], undefined behaviour when out of bounds. *)
Definition rd {A} (l : list A) (i : nat) : res A :=
  match nth_error l i with
  | Some a => Ok a
  | None => UB
  end.

Fixpoint upd {A} (l : list A) (i : nat) (v : A) : list A :=
  match l, i with
  | [], _ => []
  | _ :: t, O => v :: t
  | x :: t, S j => x :: upd t j v
  end.

(** l[i] = v, undefined behaviour when out of bounds. *)
Definition wr {A} (l : list A) (i : nat) (v : A) : res (list A) :=
  if (i <? length l)%nat then Ok (upd l i v) else UB.

(** Same, with an integer position (pointer arithmetic inside a buffer). *)
Definition rdz {A} (l : list A) (i : Z) : res A :=
  if i <? 0 then UB else rd l (Z.to_nat i).
Definition wrz {A} (l : list A) (i : Z) (v : A) : res (list A) :=
  if i <? 0 then UB else wr l (Z.to_nat i) v.

(** for (i = start; i < start + n; ++i) s = body(i, s) *)
Fixpoint for_up {S : Type} (body : nat -> S -> res S) (start n : nat) (s : S) : res S :=
  match n with
  | O => Ok s
  | Datatypes.S n' => let* s' := body start s in for_up body (Datatypes.S start) n' s'
  end.

(** for (i = n; i != 0; --i) s = body(i - 1, s) *)
Fixpoint for_down {S : Type} (body : nat -> S -> res S) (n : nat) (s : S) : res S :=
  match n with
  | O => Ok s
  | Datatypes.S k => let* s' := body k s in for_down body k s'
  end.

(** Monadic fold over a list (range-for). *)
Fixpoint for_each {S E : Type} (body : E -> S -> res S) (l : list E) (s : S) : res S :=
  match l with
  | [] => Ok s
  | x :: t => let* s' := body x s in for_each body t s'
  end.

(** C++ integral division and remainder: truncation toward zero, undefined for
    a zero divisor. *)
Definition cdiv (a b : Z) : res Z := if b =? 0 then UB else Ok (Z.quot a b).
Definition crem (a b : Z) : res Z := if b =? 0 then UB else Ok (Z.rem a b).

Definition is_ok {A} (r : res A) : bool :=
  match r with Ok _ => true | _ => false end.
