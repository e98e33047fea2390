(** svector against std::vector: every object is a list. *)
From Coq Require Import List ZArith Bool Arith.
From Verif Require Import Prelude Svector_Model.
Import ListNotations.
Open Scope nat_scope.

Section Spec.
Context {V : Type} (zero : V).
(** The contents of the svectors alive. *)
Definition vectors : Type := list (option (list V)).
Definition vget (w : vectors) (i : nat) : option (list V) := match nth_error w i with Some x => x | None => None end.

Definition opt_bind {A B} (x : option A) (f : A -> option B) : option B := match x with Some a => f a | None => None end.

(** The value of an argument when the call is made. *)
Definition arg_value (w : vectors) (x : xarg V) : option V :=
  match x with Lit v => Some v | Elem j k => opt_bind (vget w j) (fun l => nth_error l k) end.
Definition range_value (w : vectors) (r : xrange V) : option (list V) :=
  match r with
  | Lits l => Some l
  | Slice j a b => opt_bind (vget w j) (fun l => if (a <=? b) && (b <=? length l) then Some (firstn (b - a) (skipn a l)) else None)
  end.

(** std::vector's preconditions on references: assign(n, x) not with an element of
    the vector itself, insert(p, first, last) and assign(first, last) not with
    iterators into it. *)
Definition not_into_arg (i : nat) (x : xarg V) : bool := match x with Lit _ => true | Elem j _ => negb (j =? i) end.
Definition not_into (i : nat) (r : xrange V) : bool := match r with Lits _ => true | Slice j _ _ => negb (j =? i) end.

(** What std::vector does; None when a precondition is violated. *)
Definition vact (w : vectors) (i : nat) (l : list V) (a : action V) : option (list V) :=
  match a with
  | PushBack x => opt_bind (arg_value w x) (fun v => Some (l ++ [v]))
  | PopBack => if 0 <? length l then Some (removelast l) else None
  | Insert p x => opt_bind (arg_value w x) (fun v => if p <=? length l then Some (firstn p l ++ v :: skipn p l) else None)
  | InsertRange p r => opt_bind (range_value w r) (fun m =>
      if (p <=? length l) && not_into i r then Some (firstn p l ++ m ++ skipn p l) else None)
  | Erase p => if p <? length l then Some (firstn p l ++ skipn (S p) l) else None
  | EraseRange p q => if (p <=? q) && (q <=? length l) then Some (firstn p l ++ skipn q l) else None
  | Resize n => Some (firstn n l ++ repeat zero (n - length l))
  | Reserve n => Some l
  | Clear => Some []
  | AssignFill n x => opt_bind (arg_value w x) (fun v => if not_into_arg i x then Some (repeat v n) else None)
  | AssignRange r => opt_bind (range_value w r) (fun m => if not_into i r then Some m else None)
  | SetAt k x => opt_bind (arg_value w x) (fun v => if k <? length l then Some (firstn k l ++ v :: skipn (S k) l) else None)
  end.
(** Moving from a vector: the constructor leaves the source empty, the assignment
    leaves it as it is (std::vector leaves both unspecified). *)
Definition vstep (w : vectors) (e : event V) : option vectors :=
  match e with
  | Construct => Some (w ++ [Some []])
  | ConstructCount n => Some (w ++ [Some (repeat zero n)])
  | ConstructRange r => opt_bind (range_value w r) (fun m => Some (w ++ [Some m]))
  | ConstructCopy j => opt_bind (vget w j) (fun l => Some (w ++ [Some l]))
  | ConstructMove j => opt_bind (vget w j) (fun l => Some (upd w j (Some []) ++ [Some l]))
  | Act i a => opt_bind (vget w i) (fun l => opt_bind (vact w i l a) (fun l' => Some (upd w i (Some l'))))
  | CopyAssign i j | MoveAssign i j => opt_bind (vget w i) (fun _ => opt_bind (vget w j) (fun l => Some (upd w i (Some l))))
  | SwapWith i j => opt_bind (vget w i) (fun l => opt_bind (vget w j) (fun m => Some (upd (upd w i (Some m)) j (Some l))))
  | Destroy i => opt_bind (vget w i) (fun _ => Some (upd w i None))
  end.
Fixpoint vrun (w : vectors) (es : list (event V)) : option vectors :=
  match es with [] => Some w | e :: es' => opt_bind (vstep w e) (fun w' => vrun w' es') end.
End Spec.
Arguments vectors : clear implicits.

(** What the caller sees of object i: size() and every element. *)
Definition shows {V} (w : world V) (i : nat) (x : option (list V)) : Prop :=
  match x with
  | None => forall o, get w i <> Ok o
  | Some l => exists o, get w i = Ok o /\ o_size o = length l /\
      forall k, k < length l -> exists v, nth_error l k = Some v /\ s_index (w_heap w) o k = Ok v
  end.
Definition shows_all {V} (w : world V) (vs : vectors V) : Prop :=
  length (w_objs w) = length vs /\ forall i, i < length vs -> shows w i (vget vs i).

(** push_back and insert with a reference to an element of the vector itself: only
    when there is room, or when the elements are still stored inline. *)
Definition safe_event {V} (w : world V) (e : event V) : Prop :=
  match e with
  | Act i (PushBack (Elem j _)) | Act i (Insert _ (Elem j _)) =>
      i = j -> forall o, get w i = Ok o -> o_size o < o_cap o \/ on_stack o = true
  | _ => True
  end.
Fixpoint safe_history {V} (N : nat) (zero : V) (triv : bool) (w : world V) (es : list (event V)) : Prop :=
  match es with
  | [] => True
  | e :: es' => safe_event w e /\ forall w', step N zero triv w e = Ok w' -> safe_history N zero triv w' es'
  end.

(** Every live block of memory belongs to an object alive. *)
Definition no_leak {V} (w : world V) : Prop :=
  forall b blk, nth_error (w_heap w) b = Some (Some blk) -> exists i o, get w i = Ok o /\ (b = o_begin o \/ b = o_inline o).

(** Comparisons of lists, elementwise and lexicographically. *)
Fixpoint lists_equal {V} (veq : V -> V -> bool) (l m : list V) : bool :=
  match l, m with [], [] => true | x :: l', y :: m' => veq x y && lists_equal veq l' m' | _, _ => false end.
Fixpoint lists_less {V} (vlt : V -> V -> bool) (l m : list V) : bool :=
  match l, m with
  | _, [] => false
  | [], _ :: _ => true
  | x :: l', y :: m' => if vlt x y then true else if vlt y x then false else lists_less vlt l' m'
  end.
