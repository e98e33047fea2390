(** Model of vectorize, in programs whose objects have lifetimes: core/xvectorize.hpp 27-108, with the closures of core/xexpression.hpp 257-276 and the functor of core/xfunction.hpp 229, 399, 543. *)
From Coq Require Import List Bool Arith.
From Verif Require Import Prelude.
Import ListNotations.
Open Scope nat_scope.

Section Vectorize.
(** [S]: the state of a function object (its captures). [X]: an operand, array or scalar, with its shape and elements.
    [app s xs]: the function object of state [s] applied element by element to the broadcast operands; this is C34 and C88 and not modelled again. *)
Context {S X : Type} (app : S -> list X -> X).
(** What an xfunction holds of an operand: xclosure_t. A variable is held by reference, also a scalar one, which becomes xscalar<T&>; a temporary is moved into the function. *)
Inductive operand := Var (o : nat) | Tmp (x : X).
(** The objects of a program: function objects, operands, vectorized functions (line 45: m_f, not a reference), and their lazy results *)
Inductive obj := Fun (s : S) | Val (x : X) | Vec (s : S) | Lazy (s : S) (ops : list operand).
(** None: the lifetime has ended *)
Definition memory := list (option obj).
Definition get (m : memory) (o : nat) : res obj := match nth_error m o with Some (Some b) => Ok b | _ => UB end.
Definition operand_value (m : memory) (a : operand) : res X :=
  match a with Tmp x => Ok x | Var o => let* b := get m o in match b with Val x => Ok x | _ => UB end end.
Fixpoint operand_values (m : memory) (ops : list operand) : res (list X) :=
  match ops with [] => Ok [] | a :: ops => let* x := operand_value m a in let* xs := operand_values m ops in Ok (x :: xs) end.
(** The elements of the lazy result *)
Definition read (m : memory) (r : nat) : res X :=
  let* b := get m r in match b with Lazy s ops => let* xs := operand_values m ops in Ok (app s xs) | _ => UB end.

(** The function object given to vectorize: a variable or a temporary *)
Inductive function := FVar (f : nat) | FTmp (s : S).
Definition function_state (m : memory) (f : function) : res S :=
  match f with FTmp s => Ok s | FVar o => let* b := get m o in match b with Fun s => Ok s | _ => UB end end.
(** The statements: new variables, the end of one, assignment to a function object or to an operand; 69-74, 84-108: auto v = vectorize(f); 76-82: auto r = v(e...).
    Simplified: the operands are not lazy results themselves. *)
Inductive stmt := MakeFun (s : S) | MakeVal (x : X) | End (o : nat) | SetFun (o : nat) (s : S) | SetVal (o : nat) (x : X) | Vectorize (f : function) | Call (v : nat) (ops : list operand).
Definition exec (m : memory) (c : stmt) : res memory :=
  match c with
  | MakeFun s => Ok (m ++ [Some (Fun s)])
  | MakeVal x => Ok (m ++ [Some (Val x)])
  | End o => let* _ := get m o in Ok (upd m o None)
  | SetFun o s => let* b := get m o in match b with Fun _ => Ok (upd m o (Some (Fun s))) | _ => UB end
  | SetVal o x => let* b := get m o in match b with Val _ => Ok (upd m o (Some (Val x))) | _ => UB end
  | Vectorize f => let* s := function_state m f in Ok (m ++ [Some (Vec s)])
  | Call v ops =>
      let* b := get m v in
      let* _ := operand_values m ops in
      match b with Vec s => Ok (m ++ [Some (Lazy s ops)]) | _ => UB end
  end.
Fixpoint run (m : memory) (p : list stmt) : res memory := match p with [] => Ok m | c :: p => let* m := exec m c in run m p end.
End Vectorize.
Arguments operand : clear implicits. Arguments obj : clear implicits. Arguments memory : clear implicits. Arguments function : clear implicits. Arguments stmt : clear implicits.
