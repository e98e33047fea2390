(** C53: the shape of an index view and its element access. *)
From Coq Require Import List ZArith Bool Lia.
From Verif Require Import Prelude Strides_Model Strides_Spec Access_Model Container_Model Container_Spec Container_Proofs Reduce_Spec
  Select_Model Select_Spec Select_Proofs Select2_Proofs Select3_Proofs.
Import ListNotations.
Open Scope Z_scope.

(** index_view(c, l) has one axis, with an index for each selected element, and each way
    to access an element inside this shape gives the selected element. *)
Theorem C53_inside : forall V sh l (c : cont V) v, holds c sh v -> all_inside sh l ->
  (forall ix, in_bounds (iv_shape l) ix <-> exists i, ix = [i] /\ 0 <= i < Z.of_nat (length l)) /\
  forall i, in_bounds (iv_shape l) [i] ->
    iv_call c l [i] = Ok (v (nth (Z.to_nat i) l [])) /\ iv_element c l [i] = Ok (v (nth (Z.to_nat i) l [])).
Proof.
  intros V sh l c v H1 H2.
  assert (B : forall ix, in_bounds (iv_shape l) ix <-> exists i, ix = [i] /\ 0 <= i < Z.of_nat (length l)).
  { intros ix. unfold in_bounds, iv_shape. split.
    - intros H. inversion H as [|a b l1 l2 Hab H' E1 E2]; subst. inversion H'; subst. exists b. split; [reflexivity|lia].
    - intros (i & -> & Hi). repeat constructor; lia. }
  split; [exact B|]. intros i Hi. apply B in Hi. destruct Hi as (j & E & Hj). injection E as <-.
  assert (R : iv_get c l i = Ok (v (nth (Z.to_nat i) l []))).
  { rewrite <- (Z2Nat.id i) at 1 by lia. apply (read_lemma sh l c v H1 H2). apply nth_error_nth'. lia. }
  split; exact R.
Qed.
Print Assumptions C53_inside.
Example C53_case_inside : holds (vec [10; 11; 12; 13; 14; 15]) [6] at6 /\ iv_shape [[1]; [3]; [1]; [4]] = [4] /\
  iv_call (vec [10; 11; 12; 13; 14; 15]) [[1]; [3]; [1]; [4]] [3] = Ok 14 /\
  iv_element (vec [10; 11; 12; 13; 14; 15]) [[1]; [3]; [1]; [4]] [2] = Ok 11.
Proof. split; [exact vec6_holds|]. repeat split; vm_compute; reflexivity. Qed.
