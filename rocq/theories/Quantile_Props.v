(** C80: quantile(e, probas, axis). The numbers are exact rationals; XTENSOR_DEFAULT_TRAVERSAL and
    XTENSOR_DEFAULT_LAYOUT are row major unless a theorem says otherwise. *)
From Coq Require Import List ZArith Bool Lia QArith Qcanon Permutation.
From Verif Require Import Prelude Strides_Model Strides_Spec Container_Model Container_Spec Semantic_Spec Reduce_Model Accum_Spec Sort_Model Sort_Spec Sort6_Proofs
  Stats_Model Quantile_Model Quantile_Spec Quantile4_Proofs Quantile5_Proofs Quantile6_Proofs.
Import ListNotations.
Open Scope Z_scope.

(** The result has one entry per probability along a new first axis, in place of the axis along
    which the quantiles are taken, and each of its elements is the quantile of the sample that
    the elements of e along the axis form. *)
Theorem C80_quantile : forall (SL DL : layout) (fresh : list Qc -> Z -> list Qc) (n0 : nat) (v0 : Qc) (a : algos),
  resizes fresh -> is_order DL -> std_ok a ->
  forall (c : cont Qc) (ev : list Z -> Qc) (axis : Z),
  consistent c -> documented c -> is_order (ct_layout c) -> sort_type SL DL n0 c ->
  (forall jx, in_bounds (ct_shape c) jx -> elt c jx = Ok (ev jx)) ->
  (1 <= length (ct_shape c))%nat -> Z.of_nat (length (ct_shape c)) < 2 ^ 63 -> valid_axis (length (ct_shape c)) axis ->
  Forall (fun d => d < 2 ^ 64) (ct_shape c) ->
  let ax := the_axis (length (ct_shape c)) axis in let n := nth ax (ct_shape c) 0 in
  1 <= n -> forall probas : list Qc, 2 * Z.of_nat (length probas) < 2 ^ 64 ->
  forall alpha beta : Qc,
  exists r, quantile row_major SL DL fresh n0 v0 a c probas axis alpha beta = Ok r /\
    q_shape r = Z.of_nat (length probas) :: without_axis ax (ct_shape c) /\
    forall i p ix s, nth_error probas i = Some p -> in_bounds (ct_shape c) ix -> Permutation (lane ev ax n ix) s -> increasing s ->
      q_at r (Z.of_nat i :: without_axis ax ix) = Ok (Some (sample_quantile alpha beta s p)).
Proof.
  intros SL DL fresh n0 v0 a H1 H2 H3 c ev axis H4 H5 H6 H7 H8 H9 H10 H11 H12 ax n H13 probas H14 alpha beta.
  exact (quantile_lemma SL DL fresh n0 v0 a H1 H2 H3 c ev axis H4 H5 H6 H7 H8 H9 H10 H11 H12 H13 probas alpha beta H14).
Qed.
Print Assumptions C80_quantile.

Example C80_case : resizes fill_qc /\ std_ok simple_algos /\ consistent marks /\ documented marks /\ sort_type row_major column_major 0 marks /\
  (forall jx, in_bounds (ct_shape marks) jx -> elt marks jx = Ok (marks_at jx)) /\ valid_axis 2 (-1) /\
  Permutation (lane marks_at 1 3 [0; 0]) (map qi [1; 2; 3]) /\ increasing (map qi [1; 2; 3]) /\
  (let* r := quantile row_major row_major column_major fill_qc 0 0%Qc simple_algos marks [Q2Qc (1 # 4); 1%Qc] (-1) 1%Qc 1%Qc in
   let* x := q_at r [0; 0] in let* y := q_at r [1; 1] in Ok (q_shape r, option_map this x, option_map this y)) = Ok ([2; 2], Some (3 # 2)%Q, Some 6%Q).
Proof.
  destruct marks_ok as (A & B & C & D & E). destruct first_lane as [F G]. split; [exact fill_qc_resizes|]. split; [exact simple_algos_ok|]. split; [exact A|]. split; [exact B|]. split; [exact D|].
  split; [exact E|]. split; [unfold valid_axis; lia|]. split; [exact F|]. split; [exact G|]. vm_compute. reflexivity.
Qed.

(** A quantile is never below all the numbers of its sample, nor above all of them. *)
Theorem C80_range : forall (SL DL : layout) (fresh : list Qc -> Z -> list Qc) (n0 : nat) (v0 : Qc) (a : algos),
  resizes fresh -> is_order DL -> std_ok a ->
  forall (c : cont Qc) (ev : list Z -> Qc) (axis : Z),
  consistent c -> documented c -> is_order (ct_layout c) -> sort_type SL DL n0 c ->
  (forall jx, in_bounds (ct_shape c) jx -> elt c jx = Ok (ev jx)) ->
  (1 <= length (ct_shape c))%nat -> Z.of_nat (length (ct_shape c)) < 2 ^ 63 -> valid_axis (length (ct_shape c)) axis ->
  Forall (fun d => d < 2 ^ 64) (ct_shape c) ->
  let ax := the_axis (length (ct_shape c)) axis in let n := nth ax (ct_shape c) 0 in
  1 <= n -> forall probas : list Qc, 2 * Z.of_nat (length probas) < 2 ^ 64 ->
  forall alpha beta : Qc,
  exists r, quantile row_major SL DL fresh n0 v0 a c probas axis alpha beta = Ok r /\
    forall i ix lo hi, (i < length probas)%nat -> in_bounds (ct_shape c) ix -> (forall v, In v (lane ev ax n ix) -> (lo <= v)%Qc /\ (v <= hi)%Qc) ->
      exists q, q_at r (Z.of_nat i :: without_axis ax ix) = Ok (Some q) /\ (lo <= q)%Qc /\ (q <= hi)%Qc.
Proof.
  intros SL DL fresh n0 v0 a H1 H2 H3 c ev axis H4 H5 H6 H7 H8 H9 H10 H11 H12 ax n H13 probas H14 alpha beta.
  exact (range_lemma SL DL fresh n0 v0 a H1 H2 H3 c ev axis H4 H5 H6 H7 H8 H9 H10 H11 H12 H13 probas H14 alpha beta).
Qed.
Print Assumptions C80_range.

Example C80_case_range : (forall v, In v (lane marks_at 1 3 [1; 0]) -> (qi 4 <= v)%Qc /\ (v <= qi 6)%Qc).
Proof. intros v H. repeat (destruct H as [ <- |H]; [split; vm_compute; discriminate|]). destruct H. Qed.

(** A larger probability gives a quantile that is at least as large. *)
Theorem C80_monotone : forall (SL DL : layout) (fresh : list Qc -> Z -> list Qc) (n0 : nat) (v0 : Qc) (a : algos),
  resizes fresh -> is_order DL -> std_ok a ->
  forall (c : cont Qc) (ev : list Z -> Qc) (axis : Z),
  consistent c -> documented c -> is_order (ct_layout c) -> sort_type SL DL n0 c ->
  (forall jx, in_bounds (ct_shape c) jx -> elt c jx = Ok (ev jx)) ->
  (1 <= length (ct_shape c))%nat -> Z.of_nat (length (ct_shape c)) < 2 ^ 63 -> valid_axis (length (ct_shape c)) axis ->
  Forall (fun d => d < 2 ^ 64) (ct_shape c) ->
  let ax := the_axis (length (ct_shape c)) axis in let n := nth ax (ct_shape c) 0 in
  1 <= n -> forall probas : list Qc, 2 * Z.of_nat (length probas) < 2 ^ 64 ->
  forall alpha beta : Qc, (alpha <= 1)%Qc -> (beta <= 1)%Qc ->
  exists r, quantile row_major SL DL fresh n0 v0 a c probas axis alpha beta = Ok r /\
    forall i i' p p' ix, nth_error probas i = Some p -> nth_error probas i' = Some p' -> (p <= p')%Qc -> in_bounds (ct_shape c) ix ->
      exists q q', q_at r (Z.of_nat i :: without_axis ax ix) = Ok (Some q) /\ q_at r (Z.of_nat i' :: without_axis ax ix) = Ok (Some q') /\ (q <= q')%Qc.
Proof.
  intros SL DL fresh n0 v0 a H1 H2 H3 c ev axis H4 H5 H6 H7 H8 H9 H10 H11 H12 ax n H13 probas H14 alpha beta Ha Hb.
  exact (monotone_lemma SL DL fresh n0 v0 a H1 H2 H3 c ev axis H4 H5 H6 H7 H8 H9 H10 H11 H12 H13 probas H14 alpha beta Ha Hb).
Qed.
Print Assumptions C80_monotone.

Example C80_case_monotone : (Q2Qc (1 # 4) <= Q2Qc (1 # 3))%Qc /\ (Q2Qc (3 # 8) <= 1)%Qc.
Proof. split; vm_compute; discriminate. Qed.

(** Each named method is that of Hyndman and Fan: for its plotting position p_k the quantile is
    the k-th smallest number of the sample. *)
Theorem C80_methods : forall (SL DL : layout) (fresh : list Qc -> Z -> list Qc) (n0 : nat) (v0 : Qc) (a : algos),
  resizes fresh -> is_order DL -> std_ok a ->
  forall (c : cont Qc) (ev : list Z -> Qc) (axis : Z),
  consistent c -> documented c -> is_order (ct_layout c) -> sort_type SL DL n0 c ->
  (forall jx, in_bounds (ct_shape c) jx -> elt c jx = Ok (ev jx)) ->
  (1 <= length (ct_shape c))%nat -> Z.of_nat (length (ct_shape c)) < 2 ^ 63 -> valid_axis (length (ct_shape c)) axis ->
  Forall (fun d => d < 2 ^ 64) (ct_shape c) ->
  let ax := the_axis (length (ct_shape c)) axis in let n := nth ax (ct_shape c) 0 in
  1 <= n -> forall probas : list Qc, 2 * Z.of_nat (length probas) < 2 ^ 64 ->
  forall m : quantile_method,
  exists r, quantile_by row_major SL DL fresh n0 v0 a c probas axis m = Ok r /\
    forall i k ix s, nth_error probas i = Some (plotting_position (method_number m) n k) -> 1 <= k <= n -> in_bounds (ct_shape c) ix ->
      Permutation (lane ev ax n ix) s -> increasing s -> q_at r (Z.of_nat i :: without_axis ax ix) = Ok (Some (nth (Z.to_nat (k - 1)) s 0%Qc)).
Proof.
  intros SL DL fresh n0 v0 a H1 H2 H3 c ev axis H4 H5 H6 H7 H8 H9 H10 H11 H12 ax n H13 probas H14 m.
  exact (methods_lemma SL DL fresh n0 v0 a H1 H2 H3 c ev axis H4 H5 H6 H7 H8 H9 H10 H11 H12 H13 probas H14 m).
Qed.
Print Assumptions C80_methods.

Example C80_case_methods : map (fun m => this (plotting_position (method_number m) 3 2)) [interpolated_inverted_cdf; hazen; weibull; linear; median_unbiased; normal_unbiased]
  = [2 # 3; 1 # 2; 1 # 2; 1 # 2; 1 # 2; 1 # 2]%Q.
Proof. vm_compute. reflexivity. Qed.

(** With column major default traversal and layout the elements are taken from other samples:
    here the first of them is not the median of the first row. *)
Theorem C80_column_major_refuted : exists (c : cont Qc) (ev : list Z -> Qc) (s : list Qc) (r : rexp),
  consistent c /\ documented c /\ ct_layout c = row_major /\ ct_shape c = [2; 3] /\ (forall jx, in_bounds (ct_shape c) jx -> elt c jx = Ok (ev jx)) /\
  Permutation (lane ev 1 3 [0; 0]) s /\ increasing s /\
  quantile column_major row_major row_major fill_qc 0 0%Qc simple_algos c [Q2Qc (1 # 2); 1%Qc] 1 1%Qc 1%Qc = Ok r /\
  q_at r [0; 0] <> Ok (Some (sample_quantile 1%Qc 1%Qc s (Q2Qc (1 # 2)))).
Proof.
  destruct marks_ok as (A & B & C & D & E). destruct first_lane as [F G]. destruct column_lemma as (r & H & K).
  exists marks, marks_at, (map qi [1; 2; 3]), r. repeat (split; [first [assumption | reflexivity]|]). exact K.
Qed.
Print Assumptions C80_column_major_refuted.

(** Without elements along the axis the behaviour is undefined: elements are read that do not
    exist. *)
Theorem C80_empty_refuted : exists c : cont Qc, consistent c /\ ct_layout c = row_major /\ ct_shape c = [2; 0] /\
  quantile row_major row_major row_major fill_qc 0 0%Qc simple_algos c [Q2Qc (1 # 2)] 1 1%Qc 1%Qc = UB.
Proof.
  exists no_marks. split; [exact no_marks_ok|]. split; [reflexivity|]. split; [reflexivity|]. vm_compute. reflexivity.
Qed.
Print Assumptions C80_empty_refuted.
