(** Membership, and what is alive in a program. *)
From Coq Require Import List Bool.
From Verif Require Import Prelude Isin_Model.
Import ListNotations.

Section Spec.
Context {V : Type}.
(** The result has one flag for each element of [es], true exactly if something in [l] is equal to it. *)
Definition marks (eqb : V -> V -> bool) (l es : list V) (bs : list bool) : Prop :=
  Forall2 (fun t b => b = true <-> exists y, In y l /\ eqb y t = true) es bs.
(** Variable [o] is alive and a sequence with the elements [l]. *)
Definition sequence (m : @memory V) (o : nat) (l : list V) : Prop := exists g, nth_error m o = Some (Some (Seq l g)).
Definition ended (m : @memory V) (o : nat) : Prop := nth_error m o = Some None.
(** Variables [b] and [e] are iterators to the positions [i] and [j], in order, of the present block of the sequence [o], whose elements are [l]. *)
Definition range_of (m : @memory V) (b e o i j : nat) (l : list V) : Prop :=
  exists g, nth_error m o = Some (Some (Seq l g)) /\ nth_error m b = Some (Some (Pos o i g)) /\ nth_error m e = Some (Some (Pos o j g)) /\ i <= j <= length l.
(** The statement ends no variable of [vs], gives no new block to [o] and assigns neither [b] nor [e]. *)
Definition leaves (b e o : nat) (c : @stmt V) : Prop :=
  match c with End v => ~ In v [b; e; o] | Renew v _ => v <> o | Move p _ _ => p <> b /\ p <> e | Make _ | Change _ _ _ => True end.
End Spec.
