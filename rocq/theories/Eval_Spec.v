(** What the result of eval and as_strided shares with its argument. *)
From Coq Require Import List Bool Arith.
From Verif Require Import Prelude Strides_Model Layout_Model Eval_Model.
Import ListNotations.

Section Spec.
Context {X : Type}.
Definition alive (m : @memory X) (o : nat) (b : obj) : Prop := nth_error m o = Some (Some b).
(** Containers and views of them give access to the elements through data(), offset and strides. *)
Definition offers_data (b : @obj X) : Prop := (exists L x, b = Arr L x) \/ (exists L v look back, b = View L v look back).
Definition of_layout (b : @obj X) (L : layout) : Prop := (exists x, b = Arr L x) \/ (exists v look back, b = View L v look back) \/ (exists f os, b = Lazy L f os).
Definition ended (m : @memory X) (o : nat) : Prop := nth_error m o = Some None.
(** [o] is no view of [r] *)
Definition not_view_of (r : nat) (m : @memory X) : Prop := forall o L look back, ~ alive m o (View L r look back).
(** The program never names [r]: it neither ends it, nor writes to it, nor makes a view of it. *)
Definition apart (r : nat) (c : @stmt X) : Prop :=
  match c with Make (View _ o _ _) => o <> r | Make _ => True | End o => o <> r | Write o _ => o <> r end.
(** The objects of [m] refer to objects of [m] only. *)
Definition closed (m : @memory X) : Prop := forall o L v look back, alive m o (View L v look back) -> v < length m.
(** So does a temporary argument. *)
Definition closed_arg (m : @memory X) (a : @arg X) : Prop := match a with Temporary (View _ v _ _) => v < length m | _ => True end.
(** What the argument shows when the call is made *)
Definition shows (m : @memory X) (a : arg) (x : X) : Prop := match a with Named o => value m o = Ok x | Temporary b => value (m ++ [Some b]) (length m) = Ok x end.
Definition arg_is (m : @memory X) (a : arg) (b : obj) : Prop := match a with Named o => alive m o b | Temporary b' => b' = b end.
End Spec.
