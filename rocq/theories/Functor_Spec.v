(** What functor views should do. *)
From Coq Require Import List ZArith Bool.
From Verif Require Import Prelude Strides_Model Strides_Spec Broadcast_Model Broadcast_Spec Slice_Model Stepper_Model Stepper_Spec Container_Model Container_Spec
  Assign_Model Assign_Spec Semantic_Model Semantic_Spec Functor_Model.
Import ListNotations.
Open Scope Z_scope.

(** [v p] is the element at position p of the memory. *)
Definition contents {T} (mem : list T) (v : Z -> T) : Prop := forall p, 0 <= p < Z.of_nat (length mem) -> rdz mem p = Ok (v p).

(** Reading back what was assigned. *)
Definition lawful {T M} (a : accessor T M) : Prop := forall t m, acc_get a (acc_put a t m) = m.
(** Assignments through [a] do not change what [b] reads, when both refer to parts of
    the element and these are at different offsets. *)
Definition separate {T M} (a b : accessor T M) : Prop :=
  match acc_off a, acc_off b with
  | Some x, Some y => x <> y -> forall t m, acc_get b (acc_put a t m) = acc_get b t
  | _, _ => True
  end.
(** Offsets inside an element of [w] parts. *)
Definition inside {T M} (w : Z) (a : accessor T M) : Prop := match acc_off a with Some o => 0 <= o < w | None => True end.

(** The value of a right-hand side at an index, on the contents [v]. *)
Fixpoint fx_value {T M} (v : Z -> T) (e : fexp T M) (ix : list Z) : M :=
  match e with
  | FX_scalar x => x
  | FX_ext _ sh f => f (bc_index sh ix)
  | FX_view a c => acc_get a (v (position c (bc_index (k_shape c) ix)))
  | FX_fun f x y => f (fx_value v x ix) (fx_value v y ix)
  end.
(** Shapes of the operands; conditions on the views among them. *)
Definition fx_shapes {T M} (e : fexp T M) : list (list Z) := leaves (fx_expr e).
Fixpoint fx_views {T M} (P : accessor T M -> container -> Prop) (e : fexp T M) : Prop :=
  match e with
  | FX_view a c => P a c
  | FX_fun _ x y => fx_views P x /\ fx_views P y
  | _ => True
  end.
(** A view that can be read: consistent strides, elements inside the memory. *)
Definition readable {T} (mem : list T) (c : container) : Prop :=
  strided_ok c /\ forall ix, in_bounds (k_shape c) ix -> 0 <= position c ix < Z.of_nat (length mem).

(** The effect of an assignment through [a] to the elements of [c]: the element at ix
    becomes what the assignment of [f ix] to the accessed part makes of it; the rest of the
    memory does not change. *)
Definition assigned {T M} (a : accessor T M) (c : container) (f : list Z -> M) (v : Z -> T) (mem mem' : list T) : Prop :=
  length mem' = length mem /\
  (forall ix, in_bounds (k_shape c) ix -> rdz mem' (position c ix) = Ok (acc_put a (v (position c ix)) (f ix))) /\
  (forall p, (forall ix, in_bounds (k_shape c) ix -> position c ix <> p) -> rdz mem' p = rdz mem p).

(** The views among the operands are the assigned view itself, element for element. *)
Definition aligned {T} (c : container) (mem : list T) (e : container) : Prop :=
  readable mem e /\ forall ix, in_bounds (k_shape c) ix ->
    position e (bc_index (k_shape e) ix) = position c ix \/ forall jx, in_bounds (k_shape c) jx -> position e (bc_index (k_shape e) ix) <> position c jx.

(** The complex numbers of a container: real and imaginary parts. *)
Definition parts {M} (a : cont (M * M)) (re im : list Z -> M) : Prop :=
  forall ix, in_bounds (ct_shape a) ix -> elt a ix = Ok (re ix, im ix).

(** The value at an index of the right-hand side of an assignment to an adaptor. *)
Definition ad_value {M} (e : adx M) (sh : list Z) (f : list Z -> M) : Prop :=
  match e with
  | AD_cont b => sh = ct_shape b /\ forall ix, in_bounds sh ix -> elt b ix = Ok (f ix)
  | AD_fun g b1 b2 =>
      broadcast_of [ct_shape b1; ct_shape b2] sh /\
      forall ix, in_bounds sh ix -> exists x y, elt b1 (bc_index (ct_shape b1) ix) = Ok x /\ elt b2 (bc_index (ct_shape b2) ix) = Ok y /\ f ix = g x y
  end.

(** Containers as operands; a function whose layout is that of the container it is
    assigned to has operands of its shape. *)
Definition operand_wf {M} (b : cont M) : Prop := well_formed (ct_layout b) None b /\ real_shape (ct_shape b).
Definition ad_wf {M} (e : adx M) : Prop := match e with AD_cont b => operand_wf b | AD_fun _ b1 b2 => operand_wf b1 /\ operand_wf b2 end.
Definition ad_same {M} (SL : layout) (e : adx M) (sh : list Z) : Prop :=
  match e with AD_cont _ => True | AD_fun _ b1 b2 => ad_layout e = SL -> ct_shape b1 = sh /\ ct_shape b2 = sh end.
