(** C51: chunked arrays behave as arrays. *)
From Coq Require Import List ZArith Bool.
From Verif Require Import Prelude Strides_Model Strides_Spec Access_Model Container_Model Container_Spec Container_Proofs Semantic_Spec Reduce_Spec Reduce15_Proofs
  Chunk_Model Chunk_Spec Chunk_Proofs Chunk2_Proofs Chunk3_Proofs Chunk4_Proofs.
Import ListNotations.
Open Scope Z_scope.

(** chunked_array(e, chunk_shape), then any sequence of element writes, assignments
    and scalar operations: no operation fails and every element has the value it has
    in an ordinary array that went through the same operations. *)
Theorem C51_history : forall V (SL GL DL : layout) fresh (v0 : V) sh ev cs lay os, resizes fresh ->
  chunkable sh cs -> (SL = dynamic \/ (lay = SL /\ DL = SL)) -> kops_ok cs os (sh, ev) ->
  exists k k', k_from SL GL DL row_major fresh v0 sh ev cs lay = Ok k /\ is_array k sh cs ev /\
    run_kops SL GL DL row_major fresh v0 os k = Ok k' /\
    is_array k' (fst (abs_kops os (sh, ev))) cs (snd (abs_kops os (sh, ev))).
Proof. intros. eapply from_history_lemma; eassumption. Qed.
Print Assumptions C51_history.
Example C51_case_history : resizes (@fill_fresh) /\ chunkable [3; 4] [2; 3] /\
  kops_ok [2; 3] [K_set [2; 3] 5; K_scalar (Z.add 1); K_assign [2; 5] num; K_set [1; 4] 9] ([3; 4], num) /\
  (let* k := k_from row_major row_major row_major row_major fill_fresh 0 [3; 4] num [2; 3] row_major in
   let* k' := run_kops row_major row_major row_major row_major fill_fresh 0 [K_set [2; 3] 5; K_scalar (Z.add 1)] k in
   let* a := k_get k' [2; 3] in let* b := k_get k' [1; 3] in let* c := k_get k' [2; 2] in Ok [a; b; c]) = Ok [6; 14; 23].
Proof.
  split; [exact fill_fresh_length|]. split; [fl|]. split; [|vm_compute; reflexivity].
  fl.
Qed.

(** The same for an array created without elements: it has some elements, in-bounds
    accesses succeed and the operations act on them as on an ordinary array. *)
Theorem C51_create : forall V (SL GL DL : layout) fresh (v0 : V) sh cs lay os, resizes fresh ->
  chunkable sh cs -> (SL = dynamic \/ (lay = SL /\ DL = SL)) ->
  exists k ev, k_create SL GL DL fresh v0 sh cs lay = Ok k /\ is_array k sh cs ev /\
    (kops_ok cs os (sh, ev) -> exists k', run_kops SL GL DL row_major fresh v0 os k = Ok k' /\
       is_array k' (fst (abs_kops os (sh, ev))) cs (snd (abs_kops os (sh, ev)))).
Proof. intros. eapply create_history_lemma; eassumption. Qed.
Print Assumptions C51_create.
Example C51_case_create :
  (let* k := k_create row_major row_major row_major fill_fresh 0 [3; 4] [2; 3] row_major in
   let* k' := run_kops row_major row_major row_major row_major fill_fresh 0 [K_set [2; 3] 5; K_set [0; 1] 6] k in
   let* a := k_get k' [2; 3] in let* b := k_get k' [0; 1] in let* c := k_get k' [2; 2] in Ok [a; b; c]) = Ok [5; 6; 77].
Proof. vm_compute; reflexivity. Qed.

(** The chunk iterator visits the chunks in row major order of the grid, and every
    in-bounds index of the array lies in the slices of exactly one of them. *)
Theorem C51_chunk_iterator : forall sh cs, chunkable sh cs ->
  exists g, view_chunking sh cs = Ok g /\
    (forall n, (n < Z.to_nat (prod (g_grid g)))%nat -> exists it, it_after g (prod (g_grid g)) n = Ok it /\ it_linear it = Z.of_nat n /\
       nth_error (row_indices (g_grid g)) n = Some (it_index it) /\ (forall ix, in_box (it_slices it) ix -> in_bounds sh ix)) /\
    (forall ix, in_bounds sh ix -> exists n it, (n < Z.to_nat (prod (g_grid g)))%nat /\ it_after g (prod (g_grid g)) n = Ok it /\ in_box (it_slices it) ix /\
       forall m it', (m < Z.to_nat (prod (g_grid g)))%nat -> it_after g (prod (g_grid g)) m = Ok it' -> in_box (it_slices it') ix -> m = n).
Proof. exact partition_lemma. Qed.
Print Assumptions C51_chunk_iterator.
Example C51_case_iterator : chunkable [3; 4] [2; 3] /\
  (let* g := view_chunking [3; 4] [2; 3] in it_after g 4 2) = Ok (mk_it [1; 0] 2 [(2, 3); (0, 3)]).
Proof. split; [fl|vm_compute; reflexivity]. Qed.

(** as_chunked(c, chunk_shape) = e gives c the elements of e. *)
Theorem C51_view_assign : forall V (c : cont V) cs ev, consistent c -> chunkable (ct_shape c) cs ->
  exists c', view_assign row_major c cs ev = Ok c' /\ consistent c' /\ ct_shape c' = ct_shape c /\ ct_layout c' = ct_layout c /\
    forall ix, in_bounds (ct_shape c) ix -> elt c' ix = Ok (ev ix).
Proof. intros. apply view_assign_ok; assumption. Qed.
Print Assumptions C51_view_assign.
Example C51_case_view_assign : consistent (ck [2; 3] row_major [1; 2; 3; 4; 5; 6]) /\ chunkable [2; 3] [2; 2] /\
  view_assign row_major (ck [2; 3] row_major [1; 2; 3; 4; 5; 6]) [2; 2] num = Ok (ck [2; 3] row_major [0; 1; 2; 10; 11; 12]).
Proof. split; [ckc|]. split; [fl|vm_compute; reflexivity]. Qed.

(** as_chunked(c) = k gives c the elements of the chunked array k. *)
Theorem C51_view_assign_chunked : forall V (SL GL DL : layout) fresh (v0 : V) (c : cont V) ev cs lay os, resizes fresh ->
  consistent c -> chunkable (ct_shape c) cs -> (SL = dynamic \/ (lay = SL /\ DL = SL)) ->
  kops_ok cs os (ct_shape c, ev) -> fst (abs_kops os (ct_shape c, ev)) = ct_shape c ->
  exists k k' c', k_from SL GL DL row_major fresh v0 (ct_shape c) ev cs lay = Ok k /\ run_kops SL GL DL row_major fresh v0 os k = Ok k' /\
    view_assign_chunked row_major c k' = Ok c' /\ consistent c' /\ ct_shape c' = ct_shape c /\ ct_layout c' = ct_layout c /\
    forall ix, in_bounds (ct_shape c) ix -> elt c' ix = Ok (snd (abs_kops os (ct_shape c, ev)) ix).
Proof. intros. eapply view_history_lemma; eassumption. Qed.
Print Assumptions C51_view_assign_chunked.
Example C51_case_view_chunked : kops_ok [2; 2] [K_set [1; 2] 5] ([2; 3], num) /\
  (let* k := k_from row_major row_major row_major row_major fill_fresh 0 [2; 3] num [2; 2] row_major in
   let* k' := k_set k [1; 2] 5 in
   view_assign_chunked row_major (ck [2; 3] row_major [1; 2; 3; 4; 5; 6]) k') = Ok (ck [2; 3] row_major [0; 1; 2; 10; 11; 5]).
Proof. split; [fl|vm_compute; reflexivity]. Qed.

(** An access with fewer indices than dimensions does not take the missing leading
    indices as 0, as it does for other arrays. *)
Theorem C51_missing_indices_refuted : exists sh cs ev x y, chunkable sh cs /\ in_bounds sh [0; x] /\ y <> ev [0; x] /\
  get_or (k_from row_major row_major row_major row_major fill_fresh 0 sh ev cs row_major) [0; x] = Ok (ev [0; x]) /\
  get_or (k_from row_major row_major row_major row_major fill_fresh 0 sh ev cs row_major) [x] = Ok y.
Proof.
  exists [2; 4], [1; 2], num, 3, 12. split; [fl|]. split; [fl|]. split; [discriminate|]. exact fewer_lemma.
Qed.
Print Assumptions C51_missing_indices_refuted.
(** An access with more indices than dimensions is undefined, where other arrays drop
    the leading ones. *)
Theorem C51_extra_indices_refuted : exists sh cs ev ix, chunkable sh cs /\ in_bounds sh ix /\
  get_or (k_from row_major row_major row_major row_major fill_fresh 0 sh ev cs row_major) (0 :: ix) = UB.
Proof. exists [2; 4], [1; 2], num, [0; 3]. split; [fl|]. split; [fl|]. exact more_lemma. Qed.
Print Assumptions C51_extra_indices_refuted.
(** The argument chunk_memory_layout is refused unless it is the default. *)
Theorem C51_chunk_layout_refuted : exists sh cs, chunkable sh cs /\
  k_create row_major row_major row_major fill_fresh 0 sh cs column_major = Throw runtime_error.
Proof. exists [2; 4], [1; 2]. split; [fl|]. exact layout_lemma. Qed.
Print Assumptions C51_chunk_layout_refuted.
(** A chunked array of column major chunks cannot be assigned to. *)
Theorem C51_assign_column_major_refuted : exists sh cs ev, chunkable sh cs /\
  is_ok (k_create column_major row_major row_major fill_fresh 0 sh cs column_major) = true /\
  (let* k := k_create column_major row_major row_major fill_fresh 0 sh cs column_major in
   k_assign_op column_major row_major row_major row_major fill_fresh 0 k sh ev) = Throw runtime_error.
Proof. exists [2; 4], [1; 2], num. split; [fl|]. exact assign_layout_lemma. Qed.
Print Assumptions C51_assign_column_major_refuted.
(** Assigning an expression with more dimensions, as any other array supports, is
    undefined; so is a zero chunk extent. *)
Theorem C51_assign_more_dimensions_refuted : exists sh cs sh' ev, chunkable sh cs /\ is_shape sh' /\
  is_ok (k_from row_major row_major row_major row_major fill_fresh 0 sh ev cs row_major) = true /\
  (let* k := k_from row_major row_major row_major row_major fill_fresh 0 sh ev cs row_major in
   k_assign_op row_major row_major row_major row_major fill_fresh 0 k sh' ev) = UB.
Proof.
  exists [2; 4], [1; 2], [2; 4; 2], num. split; [fl|]. split; [fl|]. exact more_dims_lemma.
Qed.
Print Assumptions C51_assign_more_dimensions_refuted.
(** With XTENSOR_DEFAULT_TRAVERSAL column major, chunked_array(e, chunk_shape) mixes
    the chunks up. *)
Theorem C51_column_traversal_refuted : exists sh cs ev ix y, chunkable sh cs /\ in_bounds sh ix /\ y <> ev ix /\
  get_or (k_from row_major row_major row_major column_major fill_fresh 0 sh ev cs row_major) ix = Ok y.
Proof.
  exists [2; 4], [1; 2], num, [0; 2], 10. split; [fl|]. split; [fl|]. split; [discriminate|]. exact traversal_lemma.
Qed.
Print Assumptions C51_column_traversal_refuted.
