(** What masked views should do. *)
From Coq Require Import List ZArith Bool.
From Verif Require Import Prelude Strides_Model Strides_Spec Broadcast_Model Broadcast_Spec Stepper_Model Stepper_Spec Container_Model Container_Spec
  Assign_Model Assign_Spec Functor_Model Functor_Spec Masked_Model.
Import ListNotations.
Open Scope Z_scope.

(** The place of the flag of element ix, and the flag, on the contents [v] of the data and [u] of the masks. *)
Definition flag_place {V} (k : mview V) (ix : list Z) : Z :=
  let c := mask_cont (mv_mask k) in position c (bc_index (k_shape c) ix).
Definition visible {V} (v : Z -> V) (u : Z -> bool) (k : mview V) (ix : list Z) : bool :=
  match mv_mask k with Stored _ => u (flag_place k ix) | Lazy p _ => p (v (flag_place k ix)) end.

(** A masked view that can be read: the mask is broadcast to the shape of the data. *)
Definition usable {V} (mem : list V) (mm : list bool) (k : mview V) : Prop :=
  is_shape (mv_shape k) /\ readable mem (mv_data k) /\ fits (k_shape (mask_cont (mv_mask k))) (mv_shape k) /\
  match mv_mask k with Stored c => readable mm c | Lazy _ c => readable mem c end.

(** A view that can be assigned to: distinct elements at distinct places. A mask that is an expression reads the element it
    belongs to, or nothing that is assigned. *)
Definition assignable {V} (mem : list V) (mm : list bool) (k : mview V) : Prop :=
  usable mem mm k /\ writable (mv_data k) mem /\
  match mv_mask k with Stored _ => True | Lazy _ c => aligned (mv_data k) mem c end.

(** The value at an index of a right-hand side; None when it is hidden. *)
Fixpoint mx_value {V} (v : Z -> V) (u : Z -> bool) (e : mexp V) (ix : list Z) : option V :=
  match e with
  | MX_scalar x => Some x
  | MX_ext sh f => let x := f (bc_index sh ix) in if m_visible x then Some (m_value x) else None
  | MX_array c => Some (v (position c (bc_index (k_shape c) ix)))
  | MX_view k => let jx := bc_index (mv_shape k) ix in if visible v u k jx then Some (v (position (mv_data k) jx)) else None
  | MX_fun f x y => match mx_value v u x ix, mx_value v u y ix with Some a, Some b => Some (f a b) | _, _ => None end
  end.
Definition mx_shapes {V} (e : mexp V) : list (list Z) := leaves (mx_expr e).
Fixpoint mx_leaves {V} (P : container -> Prop) (Q : mview V -> Prop) (e : mexp V) : Prop :=
  match e with
  | MX_array c => P c
  | MX_view k => Q k
  | MX_fun _ x y => mx_leaves P Q x /\ mx_leaves P Q y
  | _ => True
  end.

(** The flags are stored. *)
Definition has_flags {V} (k : mview V) : Prop := match mv_mask k with Stored _ => True | Lazy _ _ => False end.
(** The effect of the assignment of [g] (None: hidden): visible elements get the visible values; hidden elements and the rest of
    the memory do not change; the only flags that may change are the stored ones of visible elements that are assigned a
    hidden value. *)
Definition mv_assigned {V} (k : mview V) (v : Z -> V) (u : Z -> bool) (g : list Z -> option V) (mem : list V) (mm : list bool) (mem' : list V) (mm' : list bool) : Prop :=
  length mem' = length mem /\ length mm' = length mm /\
  (forall ix x, in_bounds (mv_shape k) ix -> visible v u k ix = true -> g ix = Some x -> rdz mem' (position (mv_data k) ix) = Ok x) /\
  (forall p, (forall ix, in_bounds (mv_shape k) ix -> visible v u k ix = true -> position (mv_data k) ix <> p) -> rdz mem' p = rdz mem p) /\
  (forall q, (forall ix, has_flags k -> in_bounds (mv_shape k) ix -> visible v u k ix = true -> g ix = None -> flag_place k ix <> q) -> rdz mm' q = rdz mm q).
(** The same when no flag changes. *)
Definition shown_assigned {V} (k : mview V) (v : Z -> V) (u : Z -> bool) (g : list Z -> V) (mem mem' : list V) : Prop :=
  length mem' = length mem /\
  (forall ix, in_bounds (mv_shape k) ix -> visible v u k ix = true -> rdz mem' (position (mv_data k) ix) = Ok (g ix)) /\
  (forall p, (forall ix, in_bounds (mv_shape k) ix -> visible v u k ix = true -> position (mv_data k) ix <> p) -> rdz mem' p = rdz mem p).

(** The operands an assignment in place may have: at each index they read the element that is being assigned or nothing
    that is assigned. *)
Definition in_step {V} (mem : list V) (mm : list bool) (k : mview V) (e : mexp V) : Prop :=
  mx_leaves (fun c => aligned (mv_data k) mem c)
    (fun r => usable mem mm r /\ aligned (mv_data k) mem (mv_data r) /\ match mv_mask r with Stored _ => True | Lazy _ c => aligned (mv_data k) mem c end) e.
(** Distinct elements have distinct flags. *)
Definition own_flags {V} (k : mview V) : Prop :=
  match mv_mask k with
  | Stored _ => forall ix jx, in_bounds (mv_shape k) ix -> in_bounds (mv_shape k) jx -> flag_place k ix = flag_place k jx -> ix = jx
  | Lazy _ _ => True
  end.
(** The flags of the operands are those being assigned or none of them. *)
Definition flags_in_step {V} (k : mview V) (e : mexp V) : Prop :=
  mx_leaves (fun _ => True) (fun r =>
    match mv_mask k, mv_mask r with
    | Stored _, Stored c => forall ix, in_bounds (mv_shape k) ix ->
        position c (bc_index (k_shape c) ix) = flag_place k ix \/ forall jx, in_bounds (mv_shape k) jx -> position c (bc_index (k_shape c) ix) <> flag_place k jx
    | _, _ => True
    end) e.
