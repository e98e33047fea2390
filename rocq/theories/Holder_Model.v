(** Model of xexpression_holder: misc/xexpression_holder.hpp 32-269. Arrays are of any type [X]; [write] and [read] are to_json and from_json of io/xjson.hpp (C79); [empty k]: a default-constructed
    xarray of numbers, booleans or strings. *)
From Coq Require Import List ZArith Bool.
From Verif Require Import Prelude Semantic_Model Json_Model.
Import ListNotations.

Inductive kind := Number | Boolean | Text.
(** What the wrapper of a holder contains, xexpression_holder.hpp 95-117: CTE is a type, and m_expression then an array; or a reference to a variable, or to another holder, when the argument of
    the constructor is an lvalue (120-124). Variables and holders have numbers. *)
Inductive slot (X : Type) := Own (x : X) | Var (v : nat) | Hold (h : nat).
Arguments Own {X}. Arguments Var {X}. Arguments Hold {X}.

Section Holder.
Context {V X : Type} (kind_of : V -> kind) (empty : kind -> X) (write : X -> res (json V)) (read : json V -> X -> res X).

(** The variables and the holders; None: p_holder is null. *)
Record state := mk_state { vars : list X; holders : list (option (slot X)) }.
Definition set_nth {A} (l : list A) (i : nat) (x : A) : list A := firstn i l ++ x :: skipn (S i) l.
Definition set_holder (s : state) (h : nat) (o : option (slot X)) : state := mk_state (vars s) (set_nth (holders s) h o).
Definition set_var (s : state) (v : nat) (x : X) : state := mk_state (set_nth (vars s) v x) (holders s).
Definition add_holder (s : state) (o : option (slot X)) : state := mk_state (vars s) (holders s ++ [o]).
Definition holder (s : state) (h : nat) : option (option (slot X)) := nth_error (holders s) h.

(** 38-41 and 120-124: the constructors that take nothing, a temporary, a variable, and a holder that is not const: the template is preferred to the copy constructor (44). The new holder is the last. *)
Definition h_default (s : state) : fin state := Done (add_holder s None).
Definition h_temporary (s : state) (x : X) : fin state := Done (add_holder s (Some (Own x))).
Definition h_variable (s : state) (v : nat) : fin state := Done (add_holder s (Some (Var v))).
Definition h_copy_lvalue (s : state) (h : nat) : fin state := Done (add_holder s (Some (Hold h))).
(** 131-134 with 245-249 and 263-268: copy constructor. clone of a null pointer is undefined. *)
Definition clone (s : state) (h : nat) : option (slot X) := match holder s h with Some (Some w) => Some w | _ => None end.
Definition h_copy_const (s : state) (h : nat) : fin state :=
  match clone s h with Some w => Done (add_holder s (Some w)) | None => Undefined end.
(** 136-139: move constructor *)
Definition h_move (s : state) (h : nat) : fin state :=
  match holder s h with Some o => Done (add_holder (set_holder s h None) o) | None => Undefined end.
(** 154-157: swap; 148-152: the same for move assignment *)
Definition h_swap (s : state) (h1 h2 : nat) : fin state :=
  match holder s h1, holder s h2 with
  | Some o1, Some o2 => Done (set_holder (set_holder s h1 o2) h2 o1)
  | _, _ => Undefined
  end.
(** 141-146: copy assignment; the argument is const there. *)
Definition h_assign (s : state) (h from : nat) : fin state :=
  match clone s from with Some w => Done (set_holder s h (Some w)) | None => Undefined end.

(** 159-166, 251-255: to_json. A null holder leaves the json as it is (null: JOther). A chain of references longer than the number of holders has no end. *)
Fixpoint to_json_from (fuel : nat) (s : state) (h : nat) : res (json V) :=
  match fuel with
  | O => UB
  | S fuel =>
      match holder s h with
      | None => UB
      | Some None => Ok JOther
      | Some (Some (Own x)) => write x
      | Some (Some (Var v)) => match nth_error (vars s) v with Some x => write x | None => UB end
      | Some (Some (Hold h')) => to_json_from fuel s h'
      end
  end.
Definition h_to_json (s : state) (h : nat) : res (json V) := to_json_from (S (length (holders s))) s h.

(** 182-208: init_pointer_from_json. The last statement throws in every case. json::operator[](0) of an empty const array is undefined. *)
Fixpoint first_leaf (j : json V) : option (json V) :=
  match j with JArr [] => None | JArr (k :: _) => first_leaf k | _ => Some j end.
Definition init_pointer (s : state) (h : nat) (j : json V) : fin state :=
  match first_leaf j with
  | None => Undefined
  | Some (JVal x) => Threw runtime_error (set_holder s h (Some (Own (empty (kind_of x)))))
  | Some _ => Threw runtime_error s
  end.
(** 168-180, 257-261: from_json. Simplified: what an array contains after its own from_json threw is not described (it is left as it was). *)
Definition is_array (j : json V) : bool := match j with JArr _ => true | _ => false end.
Definition finish {A} (s : state) (r : res A) (k : A -> state) : fin state :=
  match r with Ok a => Done (k a) | Throw x => Threw x s | UB => Undefined end.
Fixpoint from_json_from (fuel : nat) (s : state) (h : nat) (j : json V) : fin state :=
  match fuel with
  | O => Undefined
  | S fuel =>
      if negb (is_array j) then Threw runtime_error s
      else
        match holder s h with
        | None => Undefined
        | Some None => init_pointer s h j
        | Some (Some (Own x)) => finish s (read j x) (fun x' => set_holder s h (Some (Own x')))
        | Some (Some (Var v)) =>
            match nth_error (vars s) v with Some x => finish s (read j x) (fun x' => set_var s v x') | None => Undefined end
        | Some (Some (Hold h')) => from_json_from fuel s h' j
        end
  end.
Definition h_from_json (s : state) (h : nat) (j : json V) : fin state := from_json_from (S (length (holders s))) s h j.
End Holder.
