(** What the result of a vectorized function depends on. *)
From Coq Require Import List Arith.
From Verif Require Import Prelude Vectorize_Model.
Import ListNotations.

Section Spec.
Context {S X : Type}.
Definition alive (m : memory S X) (o : nat) (b : obj S X) : Prop := nth_error m o = Some (Some b).
Definition ended (m : memory S X) (o : nat) : Prop := nth_error m o = Some None.
(** The state of the function object when vectorize is called *)
Definition has_state (m : memory S X) (f : function S) (s : S) : Prop := match f with FVar o => alive m o (Fun s) | FTmp t => t = s end.
(** What an operand is now: a variable has its present elements, a temporary those it had. *)
Definition is_now (m : memory S X) (a : operand X) (x : X) : Prop := match a with Var o => alive m o (Val x) | Tmp y => y = x end.
End Spec.
