(** The elements of an expression in linear order. *)
From Coq Require Import List ZArith Bool.
From Verif Require Import Prelude LinIter_Model.
Import ListNotations.

Section Spec.
Context {V : Type}.
(** [element e k v]: element number [k] of [e] is [v]. *)
Inductive element : lexp V -> nat -> V -> Prop :=
| element_arr d k v : nth_error d k = Some v -> element (LArr d) k v
| element_sc v k : element (LSc v) k v
| element_fun f args k vs : elements_of args k vs -> element (LF f args) k (f vs)
with elements_of : list (lexp V) -> nat -> list V -> Prop :=
| elements_nil k : elements_of [] k []
| elements_cons e es k v vs : element e k v -> elements_of es k vs -> elements_of (e :: es) k (v :: vs).
(** All arrays in the expression have [n] elements. *)
Fixpoint arrays_of (n : nat) (e : lexp V) : Prop :=
  match e with LArr d => length d = n | LSc _ => True | LF _ args => (fix all l := match l with [] => True | x :: l => arrays_of n x /\ all l end) args end.
(** An array is in it somewhere. *)
Fixpoint has_array (e : lexp V) : Prop :=
  match e with LArr _ => True | LSc _ => False | LF _ args => (fix any l := match l with [] => False | x :: l => has_array x \/ any l end) args end.
(** The first operand that is no scalar is an array, or a function of which this holds. *)
Fixpoint array_first (e : lexp V) : Prop :=
  match e with
  | LArr _ => True
  | LSc _ => False
  | LF _ args => (fix go l := match l with [] => False | LSc _ :: l => go l | x :: _ => array_first x end) args
  end.
End Spec.
