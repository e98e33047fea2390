(** Rectangular nested lists, their shapes and their elements. *)
From Coq Require Import List ZArith Bool.
From Verif Require Import Prelude Strides_Model Strides_Spec Init_Model.
Import ListNotations.
Open Scope Z_scope.

(** The lists at each level all have the length the shape says. *)
Fixpoint regular {V} (sh : list Z) (t : nest V) : Prop :=
  match sh, t with
  | [], NVal _ => True
  | d :: sh', NList l => Z.of_nat (length l) = d /\ Forall (regular sh') l
  | _, _ => False
  end.
(** t[i1][i2]... *)
Fixpoint nest_at {V} (t : nest V) (ix : list Z) : option V :=
  match t, ix with
  | NVal v, [] => Some v
  | NList l, i :: ix' => match nth_error l (Z.to_nat i) with Some x => nest_at x ix' | None => None end
  | _, _ => None
  end.
(** Below an empty list no lengths are known, they are taken to be 0. *)
Fixpoint cut (sh : list Z) : list Z :=
  match sh with
  | [] => []
  | d :: sh' => d :: (if d =? 0 then repeat 0 (length sh') else cut sh')
  end.
