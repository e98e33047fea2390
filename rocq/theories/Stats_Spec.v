(** Means, variances and weighted averages of lists of numbers. *)
From Coq Require Import List ZArith Bool QArith Qcanon.
From Verif Require Import Prelude Strides_Model Strides_Spec Stepper_Model Reduce_Spec Stats_Model.
Import ListNotations.
Open Scope Z_scope.

Definition total (l : list Qc) : Qc := fold_right Qcplus 0%Qc l.
Definition count (l : list Qc) : Qc := Q2Qc (inject_Z (Z.of_nat (length l))).
(** No number when there are no elements *)
Definition quotient (a b : Qc) : option Qc := if Qc_eq_dec b 0 then None else Some (a / b)%Qc.
Definition mean_of (l : list Qc) : option Qc := quotient (total l) (count l).
(** The sum of the squares of the distances to the mean, divided by the number of elements minus
    ddof *)
Definition deviations (l : list Qc) : Qc := total (map (fun x => (x - total l / count l) * (x - total l / count l))%Qc l).
Definition variance_of (ddof : Z) (l : list Qc) : option Qc :=
  quotient (deviations l) (Q2Qc (inject_Z (Z.of_nat (length l) - ddof))).
(** Pairs of an element and its weight *)
Definition weighted_mean (l : list (Qc * Qc)) : option Qc :=
  quotient (total (map (fun p => fst p * snd p)%Qc l)) (total (map snd l)).

(** The expression [e] of shape esh has the finite elements ev. *)
Definition finite (esh : list Z) (e : sexp num) (ev : list Z -> Qc) : Prop := has_elements esh e (fun ix => Some (ev ix)).

(** Numbers of axes and of elements that a program can have *)
Definition addressable (esh : list Z) : Prop := Z.of_nat (length esh) < 2 ^ 64 /\ is_shape esh /\ prod esh < 2 ^ 64 - 1 /\ Forall (fun n => n < 2 ^ 64 - 1) esh.

(** The result [r] has the shape of a reduction over the axes, and its elements are [f] of the
    indices of the elements that are reduced. *)
Definition reduces (r : res rexp) (keep : bool) (axes esh : list Z) (f : list (list Z) -> option Qc) : Prop :=
  exists q, r = Ok q /\ q_shape q = red_shape keep axes esh /\
    forall ix, in_bounds (red_shape keep axes esh) ix -> q_at q ix = Ok (f (block row_major keep axes esh ix)).

(** [axes] names the axes [pos], each from the front or, by a negative number, from the end. *)
Definition names (dim : nat) (axes pos : list Z) : Prop :=
  Forall2 (fun a p => 0 <= p < Z.of_nat dim /\ (a = p \/ a = p - Z.of_nat dim)) axes pos.
