(** Reductions of the elements that are numbers. *)
From Coq Require Import List ZArith Bool QArith Qcanon.
From Verif Require Import Prelude Strides_Model Strides_Spec Container_Model Container_Spec Stepper_Model Reduce_Spec Stats_Model Stats_Spec Nan_Model.
Import ListNotations.
Open Scope Z_scope.

(** The numbers of a list: NaN left out *)
Fixpoint numbers (l : list num) : list Qc :=
  match l with [] => [] | Some x :: l => x :: numbers l | None :: l => numbers l end.

Definition product (l : list Qc) : Qc := fold_right Qcmult 1%Qc l.

(** [x] is the least, or the greatest, of the numbers of [l], NaN when there are none. *)
Definition least (l : list num) (x : num) : Prop :=
  match x with
  | None => numbers l = []
  | Some m => In m (numbers l) /\ forall n, In n (numbers l) -> (m <= n)%Qc
  end.
Definition greatest (l : list num) (x : num) : Prop :=
  match x with
  | None => numbers l = []
  | Some m => In m (numbers l) /\ forall n, In n (numbers l) -> (n <= m)%Qc
  end.

(** How many are not 0: NaN is not 0. *)
Definition nonzeros (l : list num) : list num := filter (fun x => match x with Some q => negb (Qeq_bool (this q) 0) | None => true end) l.

(** The lazy result [r] has the shape of a reduction over the axes, and each element is related by
    [P] to the indices of the elements that are reduced. *)
Definition lazily {R} (r : res (gexp R)) (keep : bool) (axes esh : list Z) (P : list (list Z) -> R -> Prop) : Prop :=
  exists q, r = Ok q /\ g_shape q = red_shape keep axes esh /\
    forall ix, in_bounds (red_shape keep axes esh) ix -> exists x, g_at q ix = Ok x /\ P (block row_major keep axes esh ix) x.
(** The same of a container *)
Definition immediately {T R} (r : res (cont R)) (keep : bool) (axes : list Z) (c : cont T) (P : list (list Z) -> R -> Prop) : Prop :=
  exists q, r = Ok q /\ consistent q /\ ct_shape q = red_shape keep axes (ct_shape c) /\
    forall ix, in_bounds (red_shape keep axes (ct_shape c)) ix -> exists x, elt q ix = Ok x /\ P (block (ct_layout c) keep axes (ct_shape c) ix) x.

(** A container whose elements can be reduced immediately: row or column major, with the strides
    it is given by its constructors, resize and reshape, no extent 0, and elements [ev]. *)
Definition reducible {T} (SL : layout) (c : cont T) (ev : list Z -> T) : Prop :=
  consistent c /\ is_order (ct_layout c) /\ (SL = dynamic \/ SL = ct_layout c) /\ unit_strides_zero c /\
  Z.of_nat (length (ct_shape c)) < 2 ^ 64 /\ Forall (fun d => 0 < d) (ct_shape c) /\
  forall jx, in_bounds (ct_shape c) jx -> elt c jx = Ok (ev jx).
