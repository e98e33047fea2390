(** C51: chunked_array(e, layout) without a chunk shape, for an e that is not chunked. *)
From Coq Require Import List ZArith Bool Lia.
From Verif Require Import Prelude Strides_Model Strides_Spec Access_Model Container_Model Container_Spec Container_Proofs Semantic_Spec Reduce_Spec Reduce15_Proofs
  Chunk_Model Chunk_Spec Chunk_Proofs Chunk2_Proofs Chunk3_Proofs Chunk4_Proofs.
Import ListNotations.
Open Scope Z_scope.

(** When e has no extent 0, the result has the elements of e, in one chunk of the shape
    of e. *)
Theorem C51_whole : forall V (SL GL DL : layout) fresh (v0 : V) sh ev lay, resizes fresh ->
  Forall (fun d => 0 < d < 2 ^ 64) sh -> (SL = dynamic \/ (lay = SL /\ DL = SL)) ->
  exists k, k_from_whole SL GL DL row_major fresh v0 sh ev lay = Ok k /\ is_array k sh sh ev.
Proof.
  intros V SL GL DL fresh v0 sh ev lay Hf Hs Hl.
  assert (Hc : chunkable sh sh).
  { unfold chunkable. induction Hs; constructor; [lia|assumption]. }
  assert (Ho : kops_ok (V := V) sh [] (sh, ev)) by exact I.
  destruct (from_history_lemma SL GL DL fresh v0 Hf sh ev sh lay [] Hc Hl Ho) as (k & k' & E & Ha & _).
  exists k. split; [exact E|exact Ha].
Qed.
Print Assumptions C51_whole.
Example C51_case_whole :
  (let* k := k_from_whole row_major row_major row_major row_major fill_fresh 0 [3; 4] num row_major in
   let* a := k_get k [2; 3] in let* b := k_get k [1; 0] in Ok (k_chunk_shape k, length (ct_data (k_chunks k)), a, b)) =
  Ok ([3; 4], 1%nat, num [2; 3], num [1; 0]).
Proof. vm_compute. reflexivity. Qed.

(** An e with an extent 0 gets chunks with an extent 0, and the number of chunks is
    computed with a division by 0. *)
Theorem C51_whole_empty_refuted : exists sh (ev : list Z -> Z), Forall (fun d => 0 <= d < 2 ^ 64) sh /\
  k_from_whole row_major row_major row_major row_major fill_fresh 0 sh ev row_major = UB.
Proof.
  exists [2; 0], num. split; [repeat constructor; lia|]. vm_compute. reflexivity.
Qed.
Print Assumptions C51_whole_empty_refuted.
