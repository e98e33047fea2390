(** The norms of a list of integers. *)
From Coq Require Import List ZArith.
From Verif Require Import Prelude Strides_Model Strides_Spec Container_Model Container_Spec Reduce_Spec Nan_Model Norm_Model.
Import ListNotations.
Open Scope Z_scope.

Definition sum_of (l : list Z) : Z := fold_right Z.add 0 l.
(** The greatest, 0 when there is none *)
Definition max_abs (l : list Z) : Z := fold_right Z.max 0 (map Z.abs l).
Definition count_of (l : list Z) : Z := Z.of_nat (length (filter (fun x => negb (x =? 0)) l)).

(** The values of the elements are values of the type. *)
Definition typed (t : ity) (esh : list Z) (ev : list Z -> Z) : Prop := forall jx, in_bounds esh jx -> low t <= ev jx <= high t.

(** The call returns an expression that has the shape of a reduction over the axes [pos], and
    what is read at an index is related by [P] to the elements that are reduced. *)
Definition norms (c : called (gexp (option N))) (keep : bool) (pos esh : list Z) (ev : list Z -> Z) (P : list Z -> res Z -> Prop) : Prop :=
  exists q, c = Returned q /\ g_shape q = red_shape keep pos esh /\
    forall ix, in_bounds (red_shape keep pos esh) ix -> P (map ev (block row_major keep pos esh ix)) (norm_at q ix).

(** The same of a container that holds the norms *)
Definition norms_now (r : res (cont (option N))) (keep : bool) (axes : list Z) (c : cont Z) (ev : list Z -> Z) (P : list Z -> res Z -> Prop) : Prop :=
  exists q, r = Ok q /\ consistent q /\ ct_shape q = red_shape keep axes (ct_shape c) /\
    forall ix, in_bounds (red_shape keep axes (ct_shape c)) ix ->
      P (map ev (block (ct_layout c) keep axes (ct_shape c) ix)) (let* x := elt q ix in match x with Some n => Ok (Z.of_N n) | None => UB end).

(** The norms, for elements whose own norm, and totals, are values of the types in which they are
    computed. *)
Definition is_l0 (l : list Z) (x : res Z) : Prop := count_of l < 2 ^ 64 -> x = Ok (count_of l).
Definition is_l1 (t : ity) (l : list Z) (x : res Z) : Prop :=
  Forall (fun v => Z.abs v <= high (promoted t)) l -> sum_of (map Z.abs l) <= high (big t) -> x = Ok (sum_of (map Z.abs l)).
Definition is_sq (t : ity) (l : list Z) (x : res Z) : Prop :=
  Forall (fun v => v * v <= high (promoted t)) l -> sum_of (map (fun v => v * v) l) <= high (big t) -> x = Ok (sum_of (map (fun v => v * v) l)).
Definition is_linf (t : ity) (l : list Z) (x : res Z) : Prop :=
  Forall (fun v => Z.abs v <= high (promoted t)) l -> x = Ok (max_abs l).

(** The columns and the rows of a matrix *)
Definition column (rows j : Z) (ev : list Z -> Z) : list Z := map (fun i => ev [Z.of_nat i; j]) (seq 0 (Z.to_nat rows)).
Definition row (cols i : Z) (ev : list Z -> Z) : list Z := map (fun j => ev [i; Z.of_nat j]) (seq 0 (Z.to_nat cols)).
