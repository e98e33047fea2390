(** Means, variances and averages: a case, and counterexamples. *)
From Coq Require Import List ZArith Lia Bool QArith Qcanon Sorted.
From Verif Require Import Prelude PreludeFacts Strides_Model Strides_Spec Stepper_Model Stepper_Spec Stepper4_Proofs Reduce_Model Reduce_Spec Reduce7_Proofs Reduce13_Proofs
  Stats_Model Stats_Spec Stats_Proofs Stats2_Proofs Stats3_Proofs.
Import ListNotations.
Open Scope Z_scope.

Definition q (n : Z) : Qc := Q2Qc (inject_Z n).
(** What is read, as a fraction in lowest terms *)
Definition reading (r : res rexp) (ix : list Z) : res (option Q) := let* m := r in let* x := q_at m ix in Ok (option_map this x).

Definition table (l : list Z) : sexp num := XStrided (mk_container [2; 3] [3; 1] [3; 2] 0) (map (fun n => Some (q n)) l).
Definition nine : sexp num := table [1; 2; 3; 4; 5; 9].
Definition nine_ev (ix : list Z) : Qc := q (nth (Z.to_nat (nth 0 ix 0 * 3 + nth 1 ix 0)) [1; 2; 3; 4; 5; 9] 0).

Lemma nine_finite : finite [2; 3] nine nine_ev.
Proof.
  split.
  - split; [apply fits_self|]. repeat split; try (cbn in *; lia); cbn in H; destruct j as [|[|j]]; cbn in *; lia.
  - intros jx Hb. apply six_bounds in Hb. cbn in Hb. repeat (destruct Hb as [<-|Hb]; [reflexivity|]). contradiction.
Qed.
Lemma nine_addressable : addressable [2; 3].
Proof. repeat split; try (cbn; lia); repeat constructor; lia. Qed.

Definition ones : sexp num := XStrided (mk_container [2; 2] [2; 1] [2; 1] 0) (repeat (Some (q 1)) 4).
Lemma ones_finite : finite [2; 2] ones (fun _ => q 1).
Proof.
  split.
  - split; [apply fits_self|]. repeat split; try (cbn in *; lia); cbn in H; destruct j as [|[|j]]; cbn in *; lia.
  - intros jx Hb. apply row_indices_in in Hb. cbn in Hb. repeat (destruct Hb as [<-|Hb]; [reflexivity|]). contradiction.
Qed.

Lemma average_axes_refuted_lemma : exists r, average_axes [2; 2] ones row_major [2] (fun _ => Some (q 1)) [0; 1] false = Ok r /\ q_at r [] = Ok (Some (q 2)).
Proof. eexists. split; [reflexivity|]. vm_compute. do 2 f_equal. apply Qc_is_canon. reflexivity. Qed.

Lemma average_keep_refuted_lemma : exists r, average_axes [2; 2] ones row_major [2; 2] (fun _ => Some (q 1)) [1] true = Ok r /\ q_shape r = [2; 2] /\ red_shape true [1] [2; 2] = [2; 1].
Proof. eexists. split; [reflexivity|]. split; vm_compute; reflexivity. Qed.

(** Weights of another shape *)
Lemma weights_reject_lemma esh e L wsh w axes keep : wsh <> esh -> length wsh <> 1%nat -> average_axes esh e L wsh w axes keep = Throw runtime_error.
Proof.
  intros H1 H2. unfold average_axes, weights_shape. destruct (Nat.eqb_spec (length wsh) 1); [contradiction|].
  destruct (list_eq_dec _ _ _) as [E|_]; [congruence|reflexivity].
Qed.
Lemma weights_reject_1_lemma esh e L n w a p keep : Z.of_nat (length esh) < 2 ^ 64 -> names (length esh) [a] [p] -> n <> nth (Z.to_nat p) esh 0 -> average_axes esh e L [n] w [a] keep = Throw runtime_error.
Proof.
  intros Hd Hn Hne. pose proof (normalized _ _ _ Hd Hn) as En. unfold average_axes. rewrite En. inversion Hn as [|? ? ? ? [Hp _] _]; subst.
  unfold weights_shape. cbn [length Nat.eqb]. assert (En' : rdz esh p = Ok (nth (Z.to_nat p) esh 0)) by (apply rdz_ok; [lia|apply nth_error_nth'; lia]).
  cbn [rd nth_error bind]. rewrite En'. cbn [bind]. rewrite Strides_Proofs.compute_size_prod, Strides_Proofs.prod_cons, Strides_Proofs.prod_nil.
  destruct (Z.eqb_spec (n * 1) (nth (Z.to_nat p) esh 0)); [lia|]. reflexivity.
Qed.
