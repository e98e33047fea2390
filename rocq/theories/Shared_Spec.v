(** Shared expressions: what is alive and what it shows. *)
From Coq Require Import List ZArith Bool.
From Verif Require Import Prelude Shared_Model.
Import ListNotations.
Open Scope nat_scope.

(** The variable [v] is alive and contains [n]. *)
Definition alive {X} (s : @state X) (v : nat) (n : node X) : Prop := nth_error (vars s) v = Some (Some n).
(** The number of places that hold the shared array [l]: xshared_expressions, by themselves or in functions, and variables that were shared *)
Fixpoint holds {X} (l : nat) (n : node X) : nat :=
  match n with Arr _ (Some k) | Shr k => if k =? l then 1 else 0 | Arr _ None | Ref _ => 0 | Fun a b => holds l a + holds l b end.
Definition holders {X} (s : @state X) (l : nat) : nat := list_sum (map (fun o => match o with Some n => holds l n | None => 0 end) (vars s)).
(** A state that a program can reach *)
Definition reachable {X} (s : @state X) : Prop := exists p, run (mk_state [] []) p = Ok s.
(** An expression without references to variables *)
Fixpoint self_contained {X} (n : node X) : Prop :=
  match n with Arr _ _ | Shr _ => True | Ref _ => False | Fun a b => self_contained a /\ self_contained b end.
(** The shared array [l] exists and has the value [x]. *)
Definition cell {X} (s : @state X) (l : nat) (x : X) : Prop := exists c, nth_error (heap s) l = Some (Some (x, c)).
(** [shows f s n x]: the expression [n] has the value [x] in [s]. *)
Inductive shows {X} (f : X -> X -> X) (s : @state X) : node X -> X -> Prop :=
| shows_arr x p : shows f s (Arr x p) x
| shows_shr l x : cell s l x -> shows f s (Shr l) x
| shows_ref v n x : alive s v n -> shows f s n x -> shows f s (Ref v) x
| shows_fun a b x y : shows f s a x -> shows f s b y -> shows f s (Fun a b) (f x y).
(** The statement uses variables that are alive, and shares or writes what can be shared or written. *)
Definition proper {X} (s : @state X) (c : @stmt X) : Prop :=
  let live v := exists n, alive s v n in
  match c with
  | New _ => True
  | Share v => exists x p, alive s v (Arr x p)
  | Copy v | Destroy v => live v
  | Write v _ => (exists x p, alive s v (Arr x p)) \/ exists l, alive s v (Shr l)
  | Apply a b =>
      let id a := match a with Lvalue v | Const_lvalue v | Rvalue v => v end in
      live (id a) /\ live (id b) /\ (id a = id b -> match a with Rvalue _ => False | _ => True end)
  end.
