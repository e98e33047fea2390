(** Reductions that ignore NaN: a case, and counterexamples. *)
From Coq Require Import List ZArith Lia Bool QArith Qcanon Sorted.
From Verif Require Import Prelude PreludeFacts Strides_Model Strides_Spec Container_Model Container_Spec Container_Proofs Stepper_Model Stepper_Spec Stepper4_Proofs
  Reduce_Model Reduce_Spec Reduce7_Proofs Reduce13_Proofs Reduce15_Proofs Accum_Model Accum_Spec Accum3_Proofs Stats_Model Stats_Spec Stats4_Proofs Nan_Model Nan_Spec Nan_Proofs.
Import ListNotations.
Open Scope Z_scope.

(** -1 stands for NaN. *)
Definition gap (n : Z) : num := if n =? -1 then None else Some (q n).
Definition cmap {A B} (g : A -> B) (c : cont A) : cont B := mk_cont (ct_shape c) (ct_strides c) (ct_back c) (ct_layout c) (map g (ct_data c)).
Lemma cmap_consistent {A B} (g : A -> B) c : consistent c -> consistent (cmap g c).
Proof. unfold consistent. cbn [cmap ct_shape ct_strides ct_back ct_layout ct_data]. rewrite map_length. tauto. Qed.
Definition gaps (s d : list Z) : cont num := cmap gap (ck s row_major d).

(** [[1, NaN, 3], [NaN, NaN, 0]] *)
Definition gap_data : list Z := [1; -1; 3; -1; -1; 0].
Definition gap_six : sexp num := XStrided (mk_container [2; 3] [3; 1] [3; 2] 0) (map gap gap_data).
Definition gap_ev (ix : list Z) : num := gap (nth (Z.to_nat (nth 0 ix 0 * 3 + nth 1 ix 0)) gap_data 0).
Lemma gap_elements : has_elements [2; 3] gap_six gap_ev.
Proof.
  split.
  - split; [apply fits_self|]. repeat split; try (cbn in *; lia); cbn in H; destruct j as [|[|j]]; cbn in *; lia.
  - intros jx Hb. apply six_bounds in Hb. cbn in Hb. repeat (destruct Hb as [<-|Hb]; [reflexivity|]). contradiction.
Qed.
Lemma gap_reducible : reducible row_major (gaps [2; 3] gap_data) gap_ev.
Proof.
  split; [apply cmap_consistent; ckc|]. split; [left; reflexivity|]. split; [right; reflexivity|]. split; [intros [|[|i]]; cbn; intros; lia|].
  split; [cbn; lia|]. split; [repeat constructor; lia|]. intros jx Hb. apply six_bounds in Hb. cbn in Hb. repeat (destruct Hb as [<-|Hb]; [reflexivity|]). contradiction.
Qed.
Lemma gap_not_copied : ~ copied row_major [1] [2; 3].
Proof. intros [H|[_ H]]; [discriminate H|]. specialize (H 0%nat 1 ltac:(cbn; lia) (or_introl eq_refl) ltac:(cbn; lia)). discriminate H. Qed.
Lemma gap_documented : documented (gaps [2; 3] gap_data).
Proof. exact (ck_documented [2; 3] row_major gap_data (or_introl eq_refl)). Qed.

(** What is read, as a fraction in lowest terms *)
Definition looked (r : res (gexp num)) (ix : list Z) : res (option Q) := let* m := r in let* x := g_at m ix in Ok (option_map this x).
Definition stored (r : res (cont num)) : res (list Z * list (option Q)) := let* m := r in Ok (ct_shape m, map (option_map this) (ct_data m)).

Definition fresh_none (d : list num) (n : Z) : list num := repeat None (Z.to_nat n).
Definition zeros_fresh (d : list Z) (n : Z) : list Z := repeat 0 (Z.to_nat n).

(** [[NaN, 7]] *)
Definition gap_row : cont num := gaps [1; 2] [-1; 7].
Definition gap_row_ev (ix : list Z) : num := gap (nth (Z.to_nat (nth 1 ix 0)) [-1; 7] 0).
Lemma gap_row_reducible : reducible row_major gap_row gap_row_ev.
Proof.
  split; [apply cmap_consistent; ckc|]. split; [left; reflexivity|]. split; [right; reflexivity|]. split; [intros [|[|i]]; cbn; intros; lia|].
  split; [cbn; lia|]. split; [repeat constructor; lia|]. intros jx Hb. apply row_indices_in in Hb. cbn in Hb. repeat (destruct Hb as [<-|Hb]; [reflexivity|]). contradiction.
Qed.
Lemma copy_nansum_lemma : exists r, reduce_immediate nansum_f row_major row_major (Some (fun x => x)) fresh_none None false None gap_row [0] = Ok r /\
  ct_shape r = [2] /\ elt r [0] = Ok None.
Proof. eexists. split; [vm_compute; reflexivity|]. split; reflexivity. Qed.
(** A conversion of numbers to counts: the integral part *)
Definition to_count (x : num) : Z := match x with Some a => Qnum (this a) / Zpos (Qden (this a)) | None => 0 end.
Lemma copy_count_lemma : exists r, reduce_immediate count_f row_major row_major (Some to_count) zeros_fresh 0 false None gap_row [0] = Ok r /\
  ct_shape r = [2] /\ elt r [1] = Ok 7.
Proof. eexists. split; [vm_compute; reflexivity|]. split; reflexivity. Qed.

(** [[[1, 2]], [[NaN, 5]]] *)
Definition gap_unit : cont num := gaps [2; 1; 2] [1; 2; -1; 5].
Lemma cum_unit_lemma : exists r, consistent gap_unit /\ documented gap_unit /\ nancumsum row_major gap_unit 2 = Ok r /\ elt r [1; 0; 0] = Ok None.
Proof.
  eexists. split; [apply cmap_consistent; ckc|]. split; [exact (ck_documented [2; 1; 2] row_major [1; 2; -1; 5] (or_introl eq_refl))|].
  split; [vm_compute; reflexivity|]. reflexivity.
Qed.

(** 8 bit values *)
Lemma byte_range n : (-128 <=? n) && (n <=? 127) = true -> -128 <= n <= 127.
Proof. intros H. apply andb_true_iff in H as [H1 H2]. apply Z.leb_le in H1, H2. lia. Qed.
Definition byte (n : Z) (H : (-128 <=? n) && (n <=? 127) = true) : value (-128) 127 := exist _ n (byte_range n H).
Definition bytes : sexp (value (-128) 127) := XStrided (mk_container [2; 2] [2; 1] [2; 1] 0) [byte 3 eq_refl; byte (-5) eq_refl; byte 9 eq_refl; byte 9 eq_refl].
Definition bytes_ev (ix : list Z) : value (-128) 127 := nth (Z.to_nat (nth 0 ix 0 * 2 + nth 1 ix 0)) [byte 3 eq_refl; byte (-5) eq_refl; byte 9 eq_refl; byte 9 eq_refl] (byte 0 eq_refl).
Lemma bytes_elements : has_elements [2; 2] bytes bytes_ev.
Proof.
  split.
  - split; [apply fits_self|]. repeat split; try (cbn in *; lia); cbn in H; destruct j as [|[|j]]; cbn in *; lia.
  - intros jx Hb. apply row_indices_in in Hb. cbn in Hb. repeat (destruct Hb as [<-|Hb]; [reflexivity|]). contradiction.
Qed.
