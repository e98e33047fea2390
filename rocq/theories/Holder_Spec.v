(** What a holder shows and where that value lives. *)
From Coq Require Import List ZArith Bool.
From Verif Require Import Prelude Semantic_Model Json_Model Holder_Model.
Import ListNotations.

Inductive place := AtHolder (h : nat) | AtVar (v : nat).
(** [denotes s h p x]: the holder [h] gives access to the array [x], stored at [p] *)
Inductive denotes {X} (s : @state X) : nat -> place -> X -> Prop :=
| denotes_own h x : holder s h = Some (Some (Own x)) -> denotes s h (AtHolder h) x
| denotes_var h v x : holder s h = Some (Some (Var v)) -> nth_error (vars s) v = Some x -> denotes s h (AtVar v) x
| denotes_hold h h' p x : holder s h = Some (Some (Hold h')) -> denotes s h' p x -> denotes s h p x.

(** The first scalar of nested lists *)
Inductive starts_with {V} (x : V) : json V -> Prop :=
| starts_scalar : starts_with x (JVal x)
| starts_list k l : starts_with x k -> starts_with x (JArr (k :: l)).

(** Holders as plain values: None is an empty holder. The statements are those of a program that never makes a holder out of a variable. *)
Inductive stmt (V X : Type) :=
| New | Temporary (x : X) | Copy (h : nat) | Move (h : nat) | Assign (h from : nat) | Swap (h1 h2 : nat) | Read (h : nat) (j : json V).
Arguments New {V X}. Arguments Temporary {V X}. Arguments Copy {V X}. Arguments Move {V X}.
Arguments Assign {V X}. Arguments Swap {V X}. Arguments Read {V X}.
(** [means read l c l']: the statement [c] takes the values [l] of the holders to [l']. *)
Definition replaced {A} (l : list A) (i : nat) (x : A) (l' : list A) : Prop :=
  length l' = length l /\ nth_error l' i = Some x /\ forall k, k <> i -> nth_error l' k = nth_error l k.
Inductive means {V X} (read : json V -> X -> res X) : list (option X) -> stmt V X -> list (option X) -> Prop :=
| means_new l : means read l New (l ++ [None])
| means_temporary l x : means read l (Temporary x) (l ++ [Some x])
| means_copy l h x : nth_error l h = Some (Some x) -> means read l (Copy h) (l ++ [Some x])
| means_move l h o l' : nth_error l h = Some o -> replaced l h None l' -> means read l (Move h) (l' ++ [o])
| means_assign l h from x l' : (h < length l)%nat -> nth_error l from = Some (Some x) -> replaced l h (Some x) l' -> means read l (Assign h from) l'
| means_swap l h1 h2 o1 o2 l1 l' :
    nth_error l h1 = Some o1 -> nth_error l h2 = Some o2 -> replaced l h1 o2 l1 -> replaced l1 h2 o1 l' -> means read l (Swap h1 h2) l'
| means_read l h j k x x' l' :
    nth_error l h = Some (Some x) -> j = JArr k -> read j x = Ok x' -> replaced l h (Some x') l' -> means read l (Read h j) l'.
Inductive mean_all {V X} (read : json V -> X -> res X) : list (option X) -> list (stmt V X) -> list (option X) -> Prop :=
| mean_nil l : mean_all read l [] l
| mean_cons l c l1 p l' : means read l c l1 -> mean_all read l1 p l' -> mean_all read l (c :: p) l'.

(** The statements of a program, executed in turn until one of them throws. *)
Definition exec {V X} (kind_of : V -> kind) (empty : kind -> X) (read : json V -> X -> res X) (s : state) (c : stmt V X) : fin state :=
  match c with
  | New => h_default s
  | Temporary x => h_temporary s x
  | Copy h => h_copy_const s h
  | Move h => h_move s h
  | Assign h from => h_assign s h from
  | Swap h1 h2 => h_swap s h1 h2
  | Read h j => h_from_json kind_of empty read s h j
  end.
Fixpoint exec_all {V X} (kind_of : V -> kind) (empty : kind -> X) (read : json V -> X -> res X) (s : state) (p : list (stmt V X)) : fin state :=
  match p with
  | [] => Done s
  | c :: p => match exec kind_of empty read s c with Done s => exec_all kind_of empty read s p | r => r end
  end.
