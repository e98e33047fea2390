(** Model of the linear iterators of functions: core/xfunction.hpp 413-466, 754-808, 937-1064; containers/xscalar.hpp 410-492, 1029-1099; core/xiterator.hpp 421-470. *)
From Coq Require Import List ZArith Bool.
From Verif Require Import Prelude.
Import ListNotations.
Open Scope Z_scope.

Section Lin.
Context {V : Type}.
(** An expression as its linear iterators see it: an operand with a sequence of elements (a container's storage, or the elements in the default traversal), an xscalar, or an xfunction *)
Inductive lexp := LArr (data : list V) | LSc (v : V) | LF (f : list V -> V) (args : list lexp).
(** The iterators: a position in a sequence, the xdummy_iterator of an xscalar, or the iterators of the operands (m_it) with the functor of p_f *)
Inductive lit := IPos (data : list V) (k : Z) | IDummy (v : V) | IFun (f : list V -> V) (its : list lit).

(** core/xfunction.hpp 766-785: linear_cbegin and linear_cend; containers/xscalar.hpp 470-491: those of a scalar are equal *)
Fixpoint l_begin (e : lexp) : lit :=
  match e with LArr d => IPos d 0 | LSc v => IDummy v | LF f args => IFun f (map l_begin args) end.
Fixpoint l_end (e : lexp) : lit :=
  match e with LArr d => IPos d (Z.of_nat (length d)) | LSc v => IDummy v | LF f args => IFun f (map l_end args) end.
(** core/xfunction.hpp 951-991: ++, --, += and -=; containers/xscalar.hpp 1038-1060: they do nothing *)
Fixpoint i_plus (n : Z) (i : lit) : lit :=
  match i with IPos d k => IPos d (k + n) | IDummy v => IDummy v | IFun f its => IFun f (map (i_plus n) its) end.
Fixpoint i_minus (n : Z) (i : lit) : lit :=
  match i with IPos d k => IPos d (k - n) | IDummy v => IDummy v | IFun f its => IFun f (map (i_minus n) its) end.
Fixpoint i_next (i : lit) : lit :=
  match i with IPos d k => IPos d (k + 1) | IDummy v => IDummy v | IFun f its => IFun f (map i_next its) end.
Fixpoint i_prev (i : lit) : lit :=
  match i with IPos d k => IPos d (k - 1) | IDummy v => IDummy v | IFun f its => IFun f (map i_prev its) end.
(** core/xfunction.hpp 1000-1002, 1026-1030: operator* *)
Fixpoint i_deref (i : lit) : res V :=
  match i with
  | IPos d k => rdz d k
  | IDummy v => Ok v
  | IFun f its =>
      let* vs := (fix all l := match l with [] => Ok [] | x :: l => let* v := i_deref x in let* vs := all l in Ok (v :: vs) end) its in
      Ok (f vs)
  end.
(** core/xfunction.hpp 1006-1013 and 1016-1023: equal and less_than look at the iterator of the first operand that is no xscalar, or of the first operand. Two xdummy_iterators of the same xscalar are equal. *)
Definition is_dummy (i : lit) : bool := match i with IDummy _ => true | _ => false end.
Fixpoint i_equal (i j : lit) {struct i} : bool :=
  match i, j with
  | IPos _ k, IPos _ k' => k =? k'
  | IFun _ its, IFun _ jts =>
      (fix go (l l' : list lit) := match l, l' with x :: l, y :: l' => if is_dummy x then go l l' else i_equal x y | _, _ => true end) its jts
  | _, _ => true
  end.
Fixpoint i_less (i j : lit) {struct i} : bool :=
  match i, j with
  | IPos _ k, IPos _ k' => k <? k'
  | IFun _ its, IFun _ jts =>
      (fix go (l l' : list lit) := match l, l' with x :: l, y :: l' => if is_dummy x then go l l' else i_less x y | _, _ => false end) its jts
  | _, _ => false
  end.
(** core/xfunction.hpp 994-997, 1032-1046: operator- is the greatest difference of the operands, and 0; containers/xscalar.hpp 1062-1066 *)
Fixpoint i_diff (i j : lit) {struct i} : Z :=
  match i, j with
  | IPos _ k, IPos _ k' => k - k'
  | IFun _ its, IFun _ jts =>
      (fix go (n : Z) (l l' : list lit) := match l, l' with x :: l, y :: l' => go (Z.max n (i_diff x y)) l l' | _, _ => n end) 0 its jts
  | _, _ => 0
  end.
(** for (; it != end; ++it) *it, at most [fuel] times; std::reverse_iterator *)
Fixpoint l_walk (fuel : nat) (i e : lit) : res (list V) :=
  if i_equal i e then Ok []
  else match fuel with O => UB | S n => let* x := i_deref i in let* r := l_walk n (i_next i) e in Ok (x :: r) end.
Fixpoint l_walk_back (fuel : nat) (i e : lit) : res (list V) :=
  if i_equal i e then Ok []
  else match fuel with O => UB | S n => let* x := i_deref (i_prev i) in let* r := l_walk_back n (i_prev i) e in Ok (x :: r) end.
End Lin.
Arguments lexp : clear implicits.
Arguments lit : clear implicits.
