(** C31: the check of element(first, last), which runs when assertions are enabled. *)
From Coq Require Import List ZArith Bool Lia.
From Verif Require Import Prelude Strides_Model Strides_Spec Access_Model AccessElem_Proofs.
Import ListNotations.
Open Scope Z_scope.

(** With at least as many indices as dimensions, it reports std::out_of_range exactly when one of the last indices, those that count, is at least its extent, on an axis of extent other than 1. *)
Theorem C31_element_checked : forall (sh extra ix : list Z), length ix = length sh ->
  (Forall2 (fun d i => i < d \/ d = 1) sh ix -> check_element_index sh (extra ++ ix) = Ok tt) /\
  (~ Forall2 (fun d i => i < d \/ d = 1) sh ix -> check_element_index sh (extra ++ ix) = Throw out_of_range).
Proof. intros sh extra ix L. rewrite (check_last sh extra ix L). exact (loop_ok sh [] ix L). Qed.
Print Assumptions C31_element_checked.
Example C31_case_element : check_element_index [2; 3] [9; 1; 2] = Ok tt /\ check_element_index [2; 3] [0; 2; 0] = Throw out_of_range /\ check_element_index [1; 3] [7; 2] = Ok tt.
Proof. repeat split. Qed.

(** Refuted with fewer indices than dimensions: they index the last axes (C04) and are compared with the extents of the first. For every shape of two axes, a valid index of the last axis that is not one of the first is reported,
    and an index of the first axis that is beyond the last is not. *)
Theorem C31_element_short_refuted : forall a b i : Z, a <> 1 -> b <> 1 ->
  (a <= i < b -> 0 < a -> in_bounds [a; b] [0; i] /\ element_offset [b; 1] [i] = element_offset [b; 1] [0; i] /\ check_element_index [a; b] [i] = Throw out_of_range) /\
  (0 <= i < a -> b <= i -> ~ in_bounds [a; b] [0; i] /\ check_element_index [a; b] [i] = Ok tt).
Proof.
  intros a b i Na Nb. split.
  - intros B P. split; [repeat constructor; lia|]. split; [cbn; lia|]. cbn. destruct (Z.leb_spec a i); [|lia]. destruct (Z.eqb_spec a 1); [lia|reflexivity].
  - intros B P. split; [intros H; inversion H as [|? ? ? ? _ R]; subst; inversion R; subst; lia|]. cbn. destruct (Z.leb_spec a i); [lia|reflexivity].
Qed.
Print Assumptions C31_element_short_refuted.
Example C31_case_element_short : check_element_index [2; 3] [2] = Throw out_of_range /\ check_element_index [5; 3] [4] = Ok tt.
Proof. split; reflexivity. Qed.

(** Refuted for negative indices of a signed type, which are not reported. *)
Theorem C31_element_negative_refuted : forall d i : Z, 0 <= d -> i < 0 -> ~ in_bounds [d] [i] /\ check_element_index [d] [i] = Ok tt.
Proof. intros d i D N. split; [intros H; inversion H; subst; lia|]. cbn. destruct (Z.leb_spec d i); [lia|reflexivity]. Qed.
Print Assumptions C31_element_negative_refuted.
Example C31_case_element_negative : check_element_index [3] [-1] = Ok tt.
Proof. reflexivity. Qed.
