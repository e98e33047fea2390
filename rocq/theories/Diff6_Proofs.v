From Coq Require Import List ZArith Bool QArith Qcanon Lia.
From Verif Require Import Prelude PreludeFacts Strides_Model Strides_Spec Strides_Proofs Access_Model Broadcast_Model Broadcast_Spec Broadcast_Proofs
  Container_Proofs Stepper_Model Stepper_Spec Stepper4_Proofs Container_Model Container_Spec Assign_Model Assign_Spec
  Semantic_Model Semantic_Spec Semantic_Proofs Semantic3_Proofs Semantic6_Proofs Stats_Model Stats_Spec Stats4_Proofs
  Diff_Model Diff_Spec Diff2_Proofs Diff3_Proofs Diff5_Proofs.
Import ListNotations.
Open Scope Z_scope.

(** The values of a generator *)
Lemma generated {V} g sh (f : list Z -> V) : real_shape sh -> sh <> [] -> has_values g (AIndexed sh (fun _ => f)) sh f.
Proof.
  intros Hr Hn. split; [|split; [exact I|split]].
  - split; [split; assumption|]. split; [exact I|]. split; [exact I|]. split; [intros n; exact I|]. intros mem1 mem2 ix. reflexivity.
  - cbn. split; [intros s [ <- |[]]; lia|]. split; [right; exists sh; auto using in_eq|]. intros k. split; [intros s [ <- |[]]; auto|right; exists sh; auto using in_eq].
  - intros ix Hi. cbn. rewrite bc_index_self by exact Hi. reflexivity.
Qed.

Definition squares (ix : list Z) : Z := nth 0 ix 0 * 10 + nth 1 ix 0 * nth 1 ix 0.
Definition rsn (d : list num) (n : Z) : list num := firstn (Z.to_nat n) d ++ repeat None (Z.to_nat n - length d).
Lemma rsn_ok : resizes rsn.
Proof. intros d n Hn. unfold rsn. rewrite app_length, repeat_length, firstn_length. lia. Qed.

Lemma diff_empty_lemma : exists (g : Z -> setup) (rs : list Z -> Z -> list Z) (a : aexp Z) (f : list Z -> Z) (ad : cont Z),
  setups_ok g /\ resizes rs /\ has_values g a [0; 3] f /\ axis_names 2 1 1 /\
  (forall r, diff g row_major None row_major row_major rs 0 Z.sub a 1 1 r <-> r = Done ad) /\ ct_shape ad = [0; 0].
Proof.
  assert (Ha : has_values g0 (AIndexed [0; 3] (fun _ => squares)) [0; 3] squares) by (apply generated; [repeat constructor; lia|discriminate]).
  destruct (construct_closed g0 row_major None row_major rs0 0 g0_ok (or_introl eq_refl) rs0_ok _ _ _ ltac:(discriminate) I Ha) as (ad0 & H0 & Hw0 & (E0 & _)).
  destruct (resize_branch g0 row_major None row_major row_major rs0 0 (or_introl eq_refl) rs0_ok Z.sub 1 1 1%nat ad0 Hw0) as (ad' & H1 & Hw1 & Es).
  { rewrite E0. cbn. lia. }
  { rewrite E0. split; [cbn; lia|left; reflexivity]. }
  { rewrite E0. reflexivity. }
  exists g0, rs0, (AIndexed [0; 3] (fun _ => squares)), squares, ad'. split; [apply g0_ok|]. split; [apply rs0_ok|]. split; [exact Ha|].
  split; [split; [lia|left; reflexivity]|]. split.
  - intros r. unfold diff. split.
    + intros (s & Hs1 & Hs2). apply H0 in Hs1. subst s. apply H1. exact Hs2.
    + intros ->. exists (Done ad0). split; [apply H0; reflexivity|apply H1; reflexivity].
  - rewrite Es, E0. reflexivity.
Qed.

(** A container holding given numbers *)
Lemma some_numbers sh (f : list Z -> Qc) : real_shape sh -> sh <> [] -> exists y, well_formed row_major None y /\ contains y sh (fun ix => Some (f ix)).
Proof.
  intros Hr Hn.
  destruct (construct_closed g0 row_major None row_major rsn None g0_ok (or_introl eq_refl) rsn_ok _ _ _ ltac:(discriminate) I (generated g0 sh (fun ix => Some (f ix)) Hr Hn)) as (y & _ & Hw & Hc).
  exists y. auto.
Qed.
