(** What print options are in force at a point of a program. The past of that point is a list of statements, the latest first. *)
From Coq Require Import List ZArith Bool.
From Verif Require Import Prelude Container_Model Npy_Model Csv_Model Print_Model PrintOpt_Model.
Import ListNotations.
Open Scope Z_scope.

Definition same (f g : field) : bool :=
  match f, g with EdgeItems, EdgeItems | LineWidth, LineWidth | Threshold, Threshold | Precision, Precision => true | _, _ => false end.
Definition of_field (o : options) (f : field) : Z :=
  match f with EdgeItems => o_edge_items o | LineWidth => o_line_width o | Threshold => o_threshold o | Precision => o_precision o end.

Section Spec.
Context {A : Type}.
(** The value of [f] given to stream [s] since the last array printed to it, if any *)
Fixpoint given (past : list (stmt (A := A))) (s : nat) (f : field) : option Z :=
  match past with
  | [] => None
  | Give t g v :: p => if Nat.eqb s t && same f g then Some v else given p s f
  | Show t _ :: p => if Nat.eqb s t then None else given p s f
  | _ :: p => given p s f
  end.
(** The last value set for all streams, or the default: 3 edge items, lines of 75, a threshold of 1000, no precision (-1) *)
Fixpoint latest (past : list (stmt (A := A))) (f : field) : Z :=
  match past with
  | [] => match f with EdgeItems => 3 | LineWidth => 75 | Threshold => 1000 | Precision => -1 end
  | SetOption g v :: p => if same f g then v else latest p f
  | _ :: p => latest p f
  end.
Definition in_force (past : list (stmt (A := A))) (s : nat) (f : field) : Z := match given past s f with Some v => v | None => latest past f end.
(** All four together *)
Definition force (past : list (stmt (A := A))) (s : nat) : options :=
  mk_options (in_force past s EdgeItems) (in_force past s LineWidth) (in_force past s Threshold) (in_force past s Precision).
(** The precision and flags of the stream itself: as last set by the program, 6 and none at first *)
Fixpoint own_precision (past : list (stmt (A := A))) (s : nat) : Z :=
  match past with [] => 6 | Format t p _ :: l => if Nat.eqb s t then p else own_precision l s | _ :: l => own_precision l s end.
Fixpoint own_flags (past : list (stmt (A := A))) (s : nat) : Z :=
  match past with [] => 0 | Format t _ f :: l => if Nat.eqb s t then f else own_flags l s | _ :: l => own_flags l s end.
(** No manipulator with value 0 is used *)
Definition no_zero (past : list (stmt (A := A))) : Prop := Forall (fun c => match c with Give _ _ v => v <> 0 | _ => True end) past.
End Spec.
