(** C80: quantile(e, probas), of all elements. Exact rationals; row major default traversal and layout. *)
From Coq Require Import List ZArith Bool Lia QArith Qcanon Permutation.
From Verif Require Import Prelude Strides_Model Strides_Spec Container_Model Container_Spec Semantic_Spec Reduce_Model Reduce_Spec Sort_Model Sort_Spec Sort6_Proofs
  Stats_Model Quantile_Model Quantile_Spec Quantile6_Proofs QuantileAll_Model QuantileAll_Proofs.
Import ListNotations.
Open Scope Z_scope.

(** Without axis the result has one axis, with an entry per probability: the quantile of the sample of all elements, whatever the shape and the layout of the argument. *)
Theorem C80_all : forall (DL : layout) (fresh : list Qc -> Z -> list Qc) (v0 : Qc) (a : algos), resizes fresh -> is_order DL -> std_ok a ->
  forall (c : cont Qc) (ev : list Z -> Qc), (forall jx, in_bounds (ct_shape c) jx -> elt c jx = Ok (ev jx)) ->
  let all := map ev (row_indices (ct_shape c)) in 1 <= Z.of_nat (length all) < 2 ^ 64 ->
  forall probas : list Qc, 2 * Z.of_nat (length probas) < 2 ^ 64 -> forall alpha beta : Qc,
  exists r, quantile_all row_major DL fresh v0 a c probas alpha beta = Ok r /\ q_shape r = [Z.of_nat (length probas)] /\
    forall i p s, nth_error probas i = Some p -> Permutation all s -> increasing s -> q_at r [Z.of_nat i] = Ok (Some (sample_quantile alpha beta s p)).
Proof. intros DL fresh v0 a H1 H2 H3 c ev H4 all H5 probas H6 alpha beta. exact (all_ok DL fresh v0 a H1 H2 H3 c ev H4 H5 probas H6 alpha beta). Qed.
Print Assumptions C80_all.
Example C80_case_all : 1 <= Z.of_nat (length (map marks_at (row_indices (ct_shape marks)))) < 2 ^ 64 /\ Permutation (map marks_at (row_indices (ct_shape marks))) (map qi [3; 1; 2; 6; 5; 4]) /\
  (let* r := quantile_all row_major row_major fill_qc 0%Qc simple_algos marks [Q2Qc (1 # 2); 1%Qc] 1%Qc 1%Qc in
   let* x := q_at r [0] in let* y := q_at r [1] in Ok (q_shape r, option_map this x, option_map this y)) = Ok ([2], Some (7 # 2)%Q, Some 6%Q).
Proof. split; [vm_compute; split; [discriminate|reflexivity]|]. split; [|vm_compute; reflexivity]. replace (map marks_at (row_indices (ct_shape marks))) with (map qi [3; 1; 2; 6; 5; 4]) by (vm_compute; reflexivity). apply Permutation_refl. Qed.

(** With each method, the quantile for the plotting position of rank k is the k-th smallest element. *)
Theorem C80_all_methods : forall (DL : layout) (fresh : list Qc -> Z -> list Qc) (v0 : Qc) (a : algos), resizes fresh -> is_order DL -> std_ok a ->
  forall (c : cont Qc) (ev : list Z -> Qc), (forall jx, in_bounds (ct_shape c) jx -> elt c jx = Ok (ev jx)) ->
  let all := map ev (row_indices (ct_shape c)) in let n := Z.of_nat (length all) in 1 <= n < 2 ^ 64 ->
  forall probas : list Qc, 2 * Z.of_nat (length probas) < 2 ^ 64 -> forall m : quantile_method,
  exists r, quantile_all_by row_major DL fresh v0 a c probas m = Ok r /\ q_shape r = [Z.of_nat (length probas)] /\
    forall i k s, nth_error probas i = Some (plotting_position (method_number m) n k) -> 1 <= k <= n -> Permutation all s -> increasing s ->
      q_at r [Z.of_nat i] = Ok (Some (nth (Z.to_nat (k - 1)) s 0%Qc)).
Proof. intros DL fresh v0 a H1 H2 H3 c ev H4 all n H5 probas H6 m. exact (all_methods_ok DL fresh v0 a H1 H2 H3 c ev H4 H5 probas H6 m). Qed.
Print Assumptions C80_all_methods.
Example C80_case_all_methods : (let* r := quantile_all_by row_major row_major fill_qc 0%Qc simple_algos marks [plotting_position 5 6 2; plotting_position 5 6 6] hazen in
   let* x := q_at r [0] in let* y := q_at r [1] in Ok (q_shape r, option_map this x, option_map this y)) = Ok ([2], Some 2%Q, Some 6%Q).
Proof. vm_compute. reflexivity. Qed.
