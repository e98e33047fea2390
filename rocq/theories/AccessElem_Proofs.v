(** Proofs about the check of element() when assertions are enabled. *)
From Coq Require Import List ZArith Bool Lia.
From Verif Require Import Prelude Strides_Model Access_Model.
Import ListNotations.
Open Scope Z_scope.

Lemma rd_at (pre : list Z) d sh : rd (pre ++ d :: sh) (length pre) = Ok d.
Proof. unfold rd. rewrite nth_error_app2, Nat.sub_diag by lia. reflexivity. Qed.
Lemma loop_ok : forall sh pre ix, length ix = length sh ->
  (Forall2 (fun d i => i < d \/ d = 1) sh ix -> check_element_loop (pre ++ sh) ix (length pre) = Ok tt) /\
  (~ Forall2 (fun d i => i < d \/ d = 1) sh ix -> check_element_loop (pre ++ sh) ix (length pre) = Throw out_of_range).
Proof.
  induction sh as [|d sh IH]; intros pre [|i ix] L; cbn in L; try lia; cbn [check_element_loop].
  - split; [reflexivity|]. intros N. elim N. constructor.
  - rewrite rd_at. cbn [bind]. specialize (IH (pre ++ [d]) ix ltac:(lia)). rewrite <- app_assoc in IH. cbn [app] in IH. rewrite app_length in IH. cbn [length] in IH. rewrite Nat.add_1_r in IH. destruct IH as [I1 I2].
    destruct ((d <=? i) && negb (d =? 1)) eqn:E.
    + apply andb_true_iff in E. destruct E as (E1 & E2). apply Z.leb_le in E1. apply negb_true_iff, Z.eqb_neq in E2. split; [|reflexivity]. intros F. inversion F; subst. lia.
    + assert (G : i < d \/ d = 1) by (apply andb_false_iff in E; destruct E as [E|E]; [apply Z.leb_gt in E; now left|apply negb_false_iff, Z.eqb_eq in E; now right]).
      split; [intros F; inversion F; subst; now apply I1|]. intros N. apply I2. intros F. apply N. now constructor.
Qed.
Lemma check_last sh extra ix : length ix = length sh -> check_element_index sh (extra ++ ix) = check_element_loop sh ix 0.
Proof.
  intros L. unfold check_element_index. rewrite app_length, L. replace (length extra + length sh - Nat.min (length sh) (length extra + length sh))%nat with (length extra) by lia.
  rewrite skipn_app, Nat.sub_diag, skipn_all. reflexivity.
Qed.
