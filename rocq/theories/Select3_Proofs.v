(** Concrete arrays for the examples and the counterexamples. *)
From Coq Require Import List ZArith Lia.
From Verif Require Import Prelude Strides_Model Strides_Spec Access_Model Container_Model Container_Spec Container_Proofs Select_Model Select_Spec Select2_Proofs.
Import ListNotations.
Open Scope Z_scope.

Definition odd_sum (ix : list Z) : bool := Z.odd (nth 0 ix 0 + nth 1 ix 0).
Ltac inb := repeat (constructor; try (split; [discriminate|reflexivity])).
Definition at6 (ix : list Z) : Z := 10 + nth 0 ix 0.
Lemma vec6_holds : holds (vec [10; 11; 12; 13; 14; 15]) [6] at6.
Proof.
  split; [|split; [reflexivity|]].
  { split; [constructor; [discriminate|constructor]|]. split; [reflexivity|split; [reflexivity|split; [reflexivity|]]].
    exists row_major. split; [left; reflexivity|split; [reflexivity|]]. intros ix B. inversion B as [|? x ? t Hx Ht]; subst. inversion Ht; subst. cbn. unfold element_offset. cbn. change (prod []) with 1. ring. }
  intros ix B. inversion B as [|? x ? t Hx Ht]; subst. inversion Ht; subst.
  assert (Hc : x = 0 \/ x = 1 \/ x = 2 \/ x = 3 \/ x = 4 \/ x = 5) by lia. destruct Hc as [ -> |[ -> |[ -> |[ -> |[ -> | -> ]]]]]; reflexivity.
Qed.
Definition cgrid (d : list Z) : cont Z := mk_cont [2; 3] [1; 2] [1; 4] column_major d.
Definition at23 (ix : list Z) : Z := 10 * nth 0 ix 0 + nth 1 ix 0.
Definition pick (ix : list Z) : bool := existsb (fun jx => if list_eq_dec Z.eq_dec ix jx then true else false) [[0; 2]; [1; 0]; [1; 2]].
Lemma cgrid_holds : holds (cgrid [0; 10; 1; 11; 2; 12]) [2; 3] at23.
Proof.
  assert (F : forall ix, in_bounds [2; 3] ix -> In ix [[0; 0]; [0; 1]; [0; 2]; [1; 0]; [1; 1]; [1; 2]]).
  { intros ix B. inversion B as [|? x ? t Hx Ht]; subst. inversion Ht as [|? y ? u Hy Hu]; subst. inversion Hu; subst.
    assert (Hc : x = 0 \/ x = 1) by lia. assert (Hd : y = 0 \/ y = 1 \/ y = 2) by lia.
    destruct Hc as [ -> | -> ], Hd as [ -> |[ -> | -> ]]; cbn; tauto. }
  split; [split; [repeat (constructor; [discriminate|]); constructor|split; [reflexivity|split; [reflexivity|split; [reflexivity|]]]]|split; [reflexivity|]].
  - exists column_major. split; [right; reflexivity|]. split; [reflexivity|]. intros ix B. apply F in B.
    cbn in B. repeat (destruct B as [ <- |B]; [reflexivity|]). destruct B.
  - intros ix B. apply F in B. cbn in B. repeat (destruct B as [ <- |B]; [reflexivity|]). destruct B.
Qed.
