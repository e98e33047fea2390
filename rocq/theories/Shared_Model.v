(** Closures and shared expressions: core/xexpression.hpp 84-103, 257-298, 515-767. *)
From Coq Require Import List ZArith Bool.
From Verif Require Import Prelude.
Import ListNotations.
Open Scope nat_scope.

(** What a variable of the program contains. [Arr x p]: an array with the value [x]; [p] is p_shared (core/xexpression.hpp 100), a cell of the heap. [Shr l]: an xshared_expression whose m_ptr is the
    cell [l]. [Fun a b]: a function of two expressions (xfunction), each of which it contains, or refers to if it is [Ref v]: variable number [v]. *)
Inductive node (X : Type) := Arr (x : X) (p : option nat) | Shr (l : nat) | Ref (v : nat) | Fun (a b : node X).
Arguments Arr {X}. Arguments Shr {X}. Arguments Ref {X}. Arguments Fun {X}.

Section Shared.
Context {X : Type} (f : X -> X -> X).

(** The heap has the arrays shared, each with the count of its std::shared_ptr; None: freed. A variable that was destroyed is None. *)
Record state := mk_state { vars : list (option (node X)); heap : list (option (X * nat)) }.
Definition set_nth {A} (l : list A) (i : nat) (x : A) : list A := firstn i l ++ x :: skipn (S i) l.
Definition var (s : state) (v : nat) : res (node X) := match nth_error (vars s) v with Some (Some n) => Ok n | _ => UB end.
Definition push (s : state) (n : node X) : state := mk_state (vars s ++ [Some n]) (heap s).
Definition set_var (s : state) (v : nat) (o : option (node X)) : state := mk_state (set_nth (vars s) v o) (heap s).

(** The pointers in a node *)
Fixpoint refs (n : node X) : list nat :=
  match n with Arr _ (Some l) => [l] | Arr _ None => [] | Shr l => [l] | Ref _ => [] | Fun a b => refs a ++ refs b end.
(** Copying and destroying std::shared_ptr; the array goes with the last of them. Touching a cell that was freed is undefined. *)
Fixpoint acquire (ls : list nat) (h : list (option (X * nat))) : res (list (option (X * nat))) :=
  match ls with
  | [] => Ok h
  | l :: ls => match nth_error h l with Some (Some (x, c)) => acquire ls (set_nth h l (Some (x, S c))) | _ => UB end
  end.
Fixpoint release (ls : list nat) (h : list (option (X * nat))) : res (list (option (X * nat))) :=
  match ls with
  | [] => Ok h
  | l :: ls =>
      match nth_error h l with
      | Some (Some (x, S (S c))) => release ls (set_nth h l (Some (x, S c)))
      | Some (Some (x, _)) => release ls (set_nth h l None)
      | _ => UB
      end
  end.

(** A variable that is an array *)
Definition new_array (s : state) (x : X) : res state := Ok (push s (Arr x None)).
(** core/xexpression.hpp 713-767: make_xshared and share of variable [v], whose result is a new variable. derived_cast of an rvalue (134-138) makes a copy, so the variable keeps its value;
    the copy is made only if there is no p_shared. *)
Definition share (s : state) (v : nat) : res state :=
  let* n := var s v in
  match n with
  | Arr x p =>
      let '(l, s) :=
        match p with
        | Some l => (l, s)
        | None => let l := length (heap s) in (l, mk_state (set_nth (vars s) v (Some (Arr x (Some l)))) (heap s ++ [Some (x, 1)]))
        end in
      let* h := acquire [l] (heap s) in Ok (push (mk_state (vars s) h) (Shr l))
  | _ => UB
  end.
(** Copy of variable [v]: the copy constructors are those of the members (core/xexpression.hpp 92-93; m_ptr, 687) *)
Definition copy (s : state) (v : nat) : res state :=
  let* n := var s v in let* h := acquire (refs n) (heap s) in Ok (push (mk_state (vars s) h) n).
(** Destruction of variable [v] *)
Definition destroy (s : state) (v : nat) : res state :=
  let* n := var s v in let* h := release (refs n) (heap s) in Ok (mk_state (set_nth (vars s) v None) h).
(** Assignment to the elements of variable [v] *)
Definition write (s : state) (v : nat) (x : X) : res state :=
  let* n := var s v in
  match n with
  | Arr _ p => Ok (set_var s v (Some (Arr x p)))
  | Shr l => match nth_error (heap s) l with Some (Some (_, c)) => Ok (mk_state (vars s) (set_nth (heap s) l (Some (x, c)))) | _ => UB end
  | _ => UB
  end.

(** An argument of a function: a variable, a variable accessed as const, or a variable handed over (std::move, or a temporary), which ends there. *)
Inductive actual := Lvalue (v : nat) | Const_lvalue (v : nat) | Rvalue (v : nat).
(** core/xexpression.hpp 278-298: const_xclosure. A reference for an lvalue, a value for an rvalue (xtl::const_closure_type), and a copy for an xshared_expression lvalue that is not const. *)
Definition close (s : state) (a : actual) : res (node X * state) :=
  match a with
  | Lvalue v =>
      let* n := var s v in
      match n with Shr l => let* h := acquire [l] (heap s) in Ok (Shr l, mk_state (vars s) h) | _ => Ok (Ref v, s) end
  | Const_lvalue v => let* _ := var s v in Ok (Ref v, s)
  | Rvalue v => let* n := var s v in Ok (n, set_var s v None)
  end.
(** A function of two arguments: core/xfunction.hpp 216-220 with the closures of core/xoperation.hpp *)
Definition apply (s : state) (a b : actual) : res state :=
  let* '(n1, s) := close s a in let* '(n2, s) := close s b in Ok (push s (Fun n1 n2)).

(** The elements of an expression, computed when it is accessed. [fuel]: references to follow. *)
Fixpoint eval (fuel : nat) (s : state) : node X -> res X :=
  fix ev (n : node X) : res X :=
    match n with
    | Arr x _ => Ok x
    | Shr l => match nth_error (heap s) l with Some (Some (x, _)) => Ok x | _ => UB end
    | Fun a b => let* x := ev a in let* y := ev b in Ok (f x y)
    | Ref v => match fuel with O => UB | S k => let* n' := var s v in eval k s n' end
    end.
Definition value_of (s : state) (v : nat) : res X := let* n := var s v in eval (length (vars s)) s n.
(** core/xexpression.hpp 707-711: use_count *)
Definition use_count (s : state) (v : nat) : res nat :=
  let* n := var s v in
  match n with Shr l => match nth_error (heap s) l with Some (Some (_, c)) => Ok c | _ => UB end | _ => UB end.

(** The statements of a program *)
Inductive stmt := New (x : X) | Share (v : nat) | Copy (v : nat) | Destroy (v : nat) | Write (v : nat) (x : X) | Apply (a b : actual).
Definition exec (s : state) (c : stmt) : res state :=
  match c with
  | New x => new_array s x
  | Share v => share s v
  | Copy v => copy s v
  | Destroy v => destroy s v
  | Write v x => write s v x
  | Apply a b => apply s a b
  end.
Fixpoint run (s : state) (p : list stmt) : res state :=
  match p with [] => Ok s | c :: p => let* s := exec s c in run s p end.
End Shared.
