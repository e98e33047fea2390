(** Proofs about quantile without axis. *)
From Coq Require Import List ZArith Bool Lia QArith Qcanon Permutation.
From Verif Require Import Prelude PreludeFacts Strides_Model Strides_Spec Container_Model Container_Spec Semantic_Spec Reduce_Model Reduce_Spec Reduce13_Proofs Accum_Spec Sort_Model Sort_Spec
  Stepper_Model Stats_Model Quantile_Model Quantile_Spec Quantile2_Proofs Quantile4_Proofs Quantile5_Proofs Quantile6_Proofs QuantileAll_Model.
Import ListNotations.
Open Scope Z_scope.

Definition flat (l : list Qc) : cont Qc := let n := Z.of_nat (length l) in mk_cont [n] [if n =? 1 then 0 else 1] [if n =? 1 then 0 else n - 1] row_major l.
Definition at_flat (l : list Qc) (jx : list Z) : Qc := match jx with [j] => nth (Z.to_nat j) l 0%Qc | _ => 0%Qc end.

Lemma in_one n jx : in_bounds [n] jx -> exists j, jx = [j] /\ 0 <= j < n.
Proof. intros H. inversion H as [|? j ? t B R]; subst. inversion R; subst. now exists j. Qed.
Lemma offset_one n j : 0 <= j < n -> element_offset [if n =? 1 then 0 else 1] [j] = j.
Proof. intros B. unfold element_offset. cbn. destruct (Z.eqb_spec n 1) as [ -> |N]; lia. Qed.

Lemma flat_consistent l : consistent (flat l).
Proof.
  split; [cbn; constructor; [lia|constructor]|]. split; [reflexivity|]. split; [reflexivity|]. split; [change (Z.of_nat (length l) = prod [Z.of_nat (length l)]); unfold prod; cbn [fold_right]; lia|].
  exists row_major. split; [now left|]. split; [reflexivity|]. intros ix B. cbn [ct_shape ct_strides flat] in *. apply in_one in B. destruct B as (j & -> & B). rewrite offset_one by exact B. change (j = j * 1 + 0). lia.
Qed.
Lemma flat_documented l : documented (flat l).
Proof. intros _ _. split; [reflexivity|]. intros [|k] Q; [reflexivity|cbn in Q; lia]. Qed.
Lemma flat_elt l jx : in_bounds (ct_shape (flat l)) jx -> elt (flat l) jx = Ok (at_flat l jx).
Proof.
  cbn [ct_shape flat]. intros B. apply in_one in B. destruct B as (j & -> & B). unfold elt. cbn [ct_strides ct_data flat]. rewrite offset_one by exact B.
  apply rdz_ok; [lia|]. cbn [at_flat]. apply nth_error_nth'. lia.
Qed.
Lemma flat_lane l j : lane (at_flat l) 0 (Z.of_nat (length l)) [j] = l.
Proof.
  unfold lane. rewrite Nat2Z.id. cbn [upd]. apply (nth_ext _ _ 0%Qc 0%Qc); [now rewrite map_length, seq_length|]. intros k Q. rewrite map_length, seq_length in Q.
  rewrite (nth_indep _ 0%Qc (at_flat l [Z.of_nat 0])) by now rewrite map_length, seq_length. rewrite (map_nth (fun k => at_flat l [Z.of_nat k])). rewrite seq_nth by exact Q. cbn [at_flat]. now rewrite Nat2Z.id.
Qed.
Lemma raveled_ok (c : cont Qc) ev : (forall jx, in_bounds (ct_shape c) jx -> elt c jx = Ok (ev jx)) -> raveled row_major c = Ok (flat (map ev (row_indices (ct_shape c)))).
Proof. intros H. unfold raveled. cbn [indices_of]. rewrite (seqM_map (elt c) ev); [reflexivity|]. intros x I. apply H. now apply row_indices_in. Qed.

Section All.
Variables (DL : layout) (fresh : list Qc -> Z -> list Qc) (v0 : Qc) (a : algos).
Hypothesis (Hf : resizes fresh) (HD : is_order DL) (Ha : std_ok a).
Variables (c : cont Qc) (ev : list Z -> Qc).
Hypothesis (Hev : forall jx, in_bounds (ct_shape c) jx -> elt c jx = Ok (ev jx)).
Let l := map ev (row_indices (ct_shape c)).
Hypothesis (Hn : 1 <= Z.of_nat (length l) < 2 ^ 64).
Variable probas : list Qc.
Hypothesis Hp : 2 * Z.of_nat (length probas) < 2 ^ 64.

Lemma all_ok alpha beta : exists r, quantile_all row_major DL fresh v0 a c probas alpha beta = Ok r /\ q_shape r = [Z.of_nat (length probas)] /\
  forall i p s, nth_error probas i = Some p -> Permutation l s -> increasing s -> q_at r [Z.of_nat i] = Ok (Some (sample_quantile alpha beta s p)).
Proof.
  destruct (quantile_lemma row_major DL fresh 1 v0 a Hf HD Ha (flat l) (at_flat l) 0 (flat_consistent l) (flat_documented l)) with (probas := probas) (alpha := alpha) (beta := beta) as (r & E & Sh & V).
  - now left.
  - now left.
  - apply flat_elt.
  - cbn; lia.
  - cbn; lia.
  - unfold valid_axis. cbn. lia.
  - cbn -[Z.of_nat]. constructor; [lia|constructor].
  - change (1 <= Z.of_nat (length l)). lia.
  - exact Hp.
  - exists r. unfold quantile_all. rewrite (raveled_ok c ev Hev). cbn [bind]. fold l. split; [exact E|]. split; [exact Sh|].
    intros i p s Q P I. apply (V i p [0] s Q); [constructor; [lia|constructor]| |exact I]. change (Permutation (lane (at_flat l) 0 (Z.of_nat (length l)) [0]) s). rewrite flat_lane. exact P.
Qed.
Lemma all_methods_ok m : exists r, quantile_all_by row_major DL fresh v0 a c probas m = Ok r /\ q_shape r = [Z.of_nat (length probas)] /\
  forall i k s, nth_error probas i = Some (plotting_position (method_number m) (Z.of_nat (length l)) k) -> 1 <= k <= Z.of_nat (length l) -> Permutation l s -> increasing s ->
    q_at r [Z.of_nat i] = Ok (Some (nth (Z.to_nat (k - 1)) s 0%Qc)).
Proof.
  destruct (method_parameters m) as (alpha, beta) eqn:M.
  destruct (methods_lemma row_major DL fresh 1 v0 a Hf HD Ha (flat l) (at_flat l) 0 (flat_consistent l) (flat_documented l)) with (probas := probas) (m := m) as (r & E & V).
  - now left.
  - now left.
  - apply flat_elt.
  - cbn; lia.
  - cbn; lia.
  - unfold valid_axis. cbn. lia.
  - cbn -[Z.of_nat]. constructor; [lia|constructor].
  - change (1 <= Z.of_nat (length l)). lia.
  - exact Hp.
  - exists r. unfold quantile_all_by. rewrite (raveled_ok c ev Hev). cbn [bind]. fold l. split; [exact E|].
    split.
    + destruct (all_ok alpha beta) as (r' & E' & Sh & _). unfold quantile_all in E'. rewrite (raveled_ok c ev Hev) in E'. cbn [bind] in E'. fold l in E'. unfold quantile_by in E. rewrite M in E. rewrite E in E'. injection E' as ->. exact Sh.
    + intros i k s Q K P I. apply (V i k [0] s Q K); [constructor; [lia|constructor]| |exact I]. change (Permutation (lane (at_flat l) 0 (Z.of_nat (length l)) [0]) s). rewrite flat_lane. exact P.
Qed.
End All.
