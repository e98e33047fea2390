(** Model of what isin and in1d keep of their test elements: misc/xset_operation.hpp 28-176. The value of the functor is that of SetOp_Model (C49). *)
From Coq Require Import List Bool Arith.
From Verif Require Import Prelude SetOp_Model.
Import ListNotations.
Open Scope nat_scope.

Section Isin.
Context {V : Type} (eqb : V -> V -> bool).
(** The objects of a program: sequences, and variables that are iterators. [gen] counts the blocks a sequence has had: an iterator into an earlier one is invalid. *)
Inductive obj := Seq (l : list V) (gen : nat) | Pos (o k gen : nat).
Definition memory := list (option obj).
Definition get (m : memory) (o : nat) : res obj := match nth_error m o with Some (Some x) => Ok x | _ => UB end.
Definition contents (m : memory) (o : nat) : res (list V * nat) := let* x := get m o in match x with Seq l g => Ok (l, g) | Pos _ _ _ => UB end.

(** What the lambda captures. ByRef: 34-43, of a container that is an lvalue. ByCopy: 46-56, of one that is an rvalue. ByList: 71-78, the initializer_list, which is copied and refers to its array.
    ByIters: 111-118, references to the two iterators. *)
Inductive capture := ByRef (o : nat) | ByCopy (l : list V) | ByList (o : nat) | ByIters (b e : nat).
(** std::find on the captured range, for the element [t] *)
Definition call (m : memory) (c : capture) (t : V) : res bool :=
  match c with
  | ByRef o | ByList o => let* '(l, _) := contents m o in Ok (isin eqb l t)
  | ByCopy l => Ok (isin eqb l t)
  | ByIters b e =>
      let* x := get m b in let* y := get m e in
      match x, y with
      | Pos o i g, Pos o' j g' =>
          let* '(l, h) := contents m o in
          if (o =? o') && (g =? h) && (g' =? h) && (i <=? j) && (j <=? length l) then Ok (isin eqb (firstn (j - i) (skipn i l)) t) else UB
      | _, _ => UB
      end
  end.
(** The elements of the lazy function over the elements of the first argument *)
Fixpoint results (m : memory) (c : capture) (es : list V) : res (list bool) :=
  match es with [] => Ok [] | t :: es => let* b := call m c t in let* r := results m c es in Ok (b :: r) end.

(** The statements of a program: a new variable, the end of one, a change of an element, a new block (assignment of another size), an iterator variable that is assigned. Those that name a variable
    that is not there, or not of that kind, are not programs. *)
Inductive stmt := Make (x : obj) | End (o : nat) | Change (o i : nat) (x : V) | Renew (o : nat) (l : list V) | Move (p o k : nat).
Definition put (m : memory) (o : nat) (x : option obj) : memory := upd m o x.
Definition exec (m : memory) (c : stmt) : res memory :=
  match c with
  | Make x => Ok (m ++ [Some x])
  | End o => let* _ := get m o in Ok (put m o None)
  | Change o i x => let* '(l, g) := contents m o in let* l := wr l i x in Ok (put m o (Some (Seq l g)))
  | Renew o l => let* '(_, g) := contents m o in Ok (put m o (Some (Seq l (S g))))
  | Move p o k => let* x := get m p in let* '(_, g) := contents m o in match x with Pos _ _ _ => Ok (put m p (Some (Pos o k g))) | _ => UB end
  end.
Fixpoint run (m : memory) (p : list stmt) : res memory := match p with [] => Ok m | c :: p => let* m := exec m c in run m p end.

(** auto r = isin(e, ...) as a full expression: temporaries are made, and end with it.
    91-98: a container variable [o]; 91-98: a temporary container; 71-78: a list; 111-118: iterator variables; 111-118: o.begin(), o.end(). in1d (132-176) forwards to them. *)
Definition isin_variable (m : memory) (o : nat) : res (capture * memory) := let* _ := contents m o in Ok (ByRef o, m).
Definition isin_temporary (m : memory) (l : list V) : res (capture * memory) := Ok (ByCopy l, m ++ [None]).
Definition isin_list (m : memory) (l : list V) : res (capture * memory) := Ok (ByList (length m), m ++ [None]).
Definition isin_iterators (m : memory) (b e : nat) : res (capture * memory) := Ok (ByIters b e, m).
Definition isin_begin_end (m : memory) (o : nat) : res (capture * memory) :=
  let* '(l, g) := contents m o in Ok (ByIters (length m) (S (length m)), m ++ [None; None]).
(** The same used at once, before the temporaries end: list and begin(), end() *)
Definition isin_list_now (m : memory) (l es : list V) : res (list bool) := results (m ++ [Some (Seq l 0)]) (ByList (length m)) es.
Definition isin_begin_end_now (m : memory) (o : nat) (es : list V) : res (list bool) :=
  let* '(l, g) := contents m o in results (m ++ [Some (Pos o 0 g); Some (Pos o (length l) g)]) (ByIters (length m) (S (length m))) es.
End Isin.
