(** Arrays with missing values: what users expect. An element is [Some v], or [None] when it is missing. *)
From Coq Require Import List ZArith Bool.
From Verif Require Import Prelude Strides_Model Strides_Spec Broadcast_Spec Stepper_Model Stepper_Spec Container_Model Container_Spec
  Assign_Model Assign_Spec Semantic_Model Semantic_Spec Optional_Model.
Import ListNotations.
Open Scope Z_scope.

(** What an optional value says; the value hidden behind a missing one cannot be seen. *)
Definition seen {A} (o : opt A) : option A := if o_has o then Some (o_value o) else None.

(** [shows c buf ix v]: the strided object c in the memory buf has the value v at the index ix of a shape it is broadcast to. *)
Definition shows {B} (c : container) (buf : list B) (ix : list Z) (v : B) : Prop :=
  rdz buf (position c (bc_index (k_shape c) ix)) = Ok v.

(** The element of an expression at an index. A function of optional elements is missing exactly when one of them is; else it is the function of
    their values. *)
Inductive means {A} (mv : list A) (mf : list bool) (ix : list Z) : oexp A -> option A -> Prop :=
| M_scalar o : means mv mf ix (OScalar o) (seen o)
| M_there m cv m' cf src v :
    shows cv (match src with Some (b, _) => b | None => mv end) ix v -> shows cf (match src with Some (_, b) => b | None => mf end) ix true ->
    means mv mf ix (OAssembly m cv m' cf src) (Some v)
| M_not_there m cv m' cf src :
    shows cf (match src with Some (_, b) => b | None => mf end) ix false ->
    means mv mf ix (OAssembly m cv m' cf src) None
| M_array m c src v :
    shows c (match src with Some b => b | None => mv end) ix v -> means mv mf ix (OArray m c src) (Some v)
| M_fun fo f args vs :
    Forall2 (fun x v => means mv mf ix x (Some v)) args vs -> means mv mf ix (OFun fo f args) (Some (f vs))
| M_missing fo f args x :
    In x args -> means mv mf ix x None -> means mv mf ix (OFun fo f args) None.

(** The functor does with optional values what f does with values, missing operands give a missing result. *)
Definition strict {A} (fo : list (opt A) -> opt A) (f : list A -> A) : Prop :=
  forall l, seen (fo l) = if forallb o_has l then Some (f (map o_value l)) else None.
Fixpoint all_strict {A} (e : oexp A) : Prop :=
  match e with
  | OFun fo f args => strict fo f /\ fold_right (fun x P => all_strict x /\ P) True args
  | _ => True
  end.
(** Values and flags of the operands have the same shape. *)
Fixpoint paired {A} (e : oexp A) : Prop :=
  match e with
  | OAssembly _ cv _ cf _ => k_shape cf = k_shape cv
  | OFun _ _ args => fold_right (fun x P => paired x /\ P) True args
  | _ => True
  end.
(** The shapes of the operands *)
Definition o_shapes {A} (e : oexp A) : list (list Z) := operand_shapes (val_of e).

(** A usable assembly: values and flags are usable containers of the same shape. *)
Definition good_asm {A} (SV SF : layout) (D : option nat) (a : asm A) : Prop :=
  well_formed SV D (as_value a) /\ well_formed SF D (as_flag a) /\ ct_shape (as_flag a) = ct_shape (as_value a).
Definition as_shape {A} (a : asm A) : list Z := ct_shape (as_value a).
(** Usable operands: their values and their flags are (C36). *)
Definition valid_o {A} (g gf : Z -> setup) (mv : list A) (mf : list bool) (e : oexp A) : Prop :=
  valid_operands g mv (val_of e) /\ valid_operands gf mf (flag_of e) /\ paired e.

(** [a'] has the common shape of the operands and the elements of [e], evaluated in the memory before the assignment. *)
Definition holds {A} (mv : list A) (mf : list bool) (e : oexp A) (a' : asm A) : Prop :=
  broadcast_of (o_shapes e) (as_shape a') /\
  forall ix, in_bounds (as_shape a') ix -> exists o, as_at a' ix = Ok o /\ means mv mf ix e (seen o).

(** No operand is stored in the destination. *)
Fixpoint elsewhere {A} (e : oexp A) : Prop :=
  match e with
  | OAssembly _ _ _ _ None | OArray _ _ None => False
  | OFun _ _ args => fold_right (fun x P => elsewhere x /\ P) True args
  | _ => True
  end.
(** Operands stored in the destination are the destination itself. *)
Fixpoint only_itself {A} (SV SF : layout) (D : option nat) (a : asm A) (e : oexp A) : Prop :=
  match e with
  | OAssembly _ _ _ _ None => e = o_self SV SF D a
  | OArray _ _ None => False
  | OFun _ _ args => fold_right (fun x P => only_itself SV SF D a x /\ P) True args
  | _ => True
  end.

(** A usable container of optional values: one value and one flag per element, dense in the order of the layout. *)
Definition good_ocont {A} (SL : layout) (a : ocont A) : Prop :=
  exists back, well_formed SL None (mk_cont (oc_shape a) (oc_strides a) back (oc_layout a) (oc_values a)) /\
    well_formed SL None (mk_cont (oc_shape a) (oc_strides a) back (oc_layout a) (oc_flags a)).
(** Resizing a storage to the size it has does nothing. *)
Definition keeps {B} (rs : list B -> Z -> list B) : Prop := forall d, rs d (Z.of_nat (length d)) = d.
