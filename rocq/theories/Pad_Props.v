(** C55: padding. C56: tiling. *)
From Coq Require Import List ZArith Bool.
From Verif Require Import Prelude Strides_Model Strides_Spec Access_Model Slice_Model Container_Model Container_Spec Semantic_Spec Select_Spec
  Reduce15_Proofs Pad_Model Pad_Spec Pad3_Proofs Pad4_Proofs.
Import ListNotations.
Open Scope Z_scope.

(** pad(e, widths, constant, x) has e in its centre and x everywhere else. *)
Theorem C55_pad_constant : forall V TL tmp SL DL fresh n0 (v0 : V) esh e ev pw x, is_order TL -> resizes fresh -> is_shape esh ->
  Forall2 (fun _ w => 0 <= fst w /\ 0 <= snd w) esh pw -> (forall j, in_bounds esh j -> e j = Ok (ev j)) ->
  exists c, pad TL tmp SL DL fresh n0 v0 p_constant esh e pw x = Ok c /\
    holds c (padded_shape esh pw) (fun ix => if in_centre esh pw ix then ev (pad_source p_constant esh pw ix) else x).
Proof.
  intros V TL tmp SL DL fresh n0 v0 esh e ev pw x HT Hf Hs Hw He.
  apply pad_constant_lemma; try assumption. apply widths_constant. exact Hw.
Qed.
Print Assumptions C55_pad_constant.
Example C55_case_constant : exists c, pad row_major never row_major row_major fill_fresh 0 0 p_constant [2; 3] (fun ix => Ok (grid6 ix)) [(1, 0); (1, 2)] 9 = Ok c /\
  ct_shape c = [3; 6] /\ ct_data c = [9; 9; 9; 9; 9; 9;  9; 0; 1; 2; 9; 9;  9; 3; 4; 5; 9; 9].
Proof. eexists. split; [vm_compute; reflexivity|]. split; reflexivity. Qed.

(** In the other modes each added element repeats the element of e the mode designates on
    every axis, when no width exceeds what e has to show. *)
Theorem C55_pad_partial : forall V TL tmp SL DL fresh n0 (v0 : V) mode esh e ev pw x, is_order TL -> resizes fresh -> mode <> p_constant -> is_shape esh ->
  Forall2 (width_ok mode) esh pw -> (forall j, in_bounds esh j -> e j = Ok (ev j)) ->
  exists c, pad TL tmp SL DL fresh n0 v0 mode esh e pw x = Ok c /\
    holds c (padded_shape esh pw) (fun ix => ev (pad_source mode esh pw ix)) /\
    forall ix, in_bounds (padded_shape esh pw) ix -> in_bounds esh (pad_source mode esh pw ix).
Proof.
  intros V TL tmp SL DL fresh n0 v0 mode esh e ev pw x HT Hf Hm Hs Hw He.
  destruct (pad_lemma TL tmp HT SL DL fresh Hf n0 v0 mode esh e ev pw x Hm Hs Hw He) as (c & E & H).
  exists c. split; [exact E|]. split; [exact H|]. intros ix. apply source_inside; assumption.
Qed.
Print Assumptions C55_pad_partial.
Example C55_case_reflect : Forall2 (width_ok p_reflect) [2; 3] [(1, 0); (1, 2)] /\
  exists c, pad row_major never row_major row_major fill_fresh 0 0 p_reflect [2; 3] (fun ix => Ok (grid6 ix)) [(1, 0); (1, 2)] 9 = Ok c /\
  ct_shape c = [3; 6] /\ ct_data c = [4; 3; 4; 5; 4; 3;  1; 0; 1; 2; 1; 0;  4; 3; 4; 5; 4; 3].
Proof. split; [exact reflect_widths|]. eexists. split; [vm_compute; reflexivity|]. split; reflexivity. Qed.
Example C55_case_edge : exists c, pad row_major never row_major row_major fill_fresh 0 0 p_edge [2] (fun ix => Ok (grid6 (0 :: ix))) [(3, 4)] 9 = Ok c /\
  ct_data c = [0; 0; 0; 0; 1; 1; 1; 1; 1].
Proof. eexists. split; [vm_compute; reflexivity|]. reflexivity. Qed.
Example C55_case_positions : map (pad_position p_symmetric 3 2) [0; 1; 2; 3; 4; 5; 6; 7] = [1; 0; 0; 1; 2; 2; 1; 0] /\
  map (pad_position p_reflect 3 2) [0; 1; 2; 3; 4; 5; 6] = [2; 1; 0; 1; 2; 1; 0] /\
  map (pad_position p_wrap 3 2) [0; 1; 2; 3; 4; 5; 6; 7] = [1; 2; 0; 1; 2; 0; 1; 2].
Proof. repeat split. Qed.

(** With wider widths the result holds elements that were never written. *)
Theorem C55_pad_wide_refuted : ~ forall V TL tmp SL DL fresh n0 (v0 : V) mode esh e ev pw x, is_order TL -> resizes fresh -> mode <> p_constant -> is_shape esh ->
  Forall2 (fun n w => 1 <= n /\ 0 <= fst w /\ 0 <= snd w) esh pw -> (forall j, in_bounds esh j -> e j = Ok (ev j)) ->
  exists c, pad TL tmp SL DL fresh n0 v0 mode esh e pw x = Ok c /\ holds c (padded_shape esh pw) (fun ix => ev (pad_source mode esh pw ix)).
Proof. exact pad_wide_lemma. Qed.
Print Assumptions C55_pad_wide_refuted.

(** One pair of widths for all axes. *)
Theorem C55_pad_same_partial : forall V TL tmp SL DL fresh n0 (v0 : V) mode esh e ev w x, is_order TL -> resizes fresh -> mode <> p_constant -> is_shape esh ->
  Forall (fun n => width_ok mode n w) esh -> (forall j, in_bounds esh j -> e j = Ok (ev j)) ->
  exists c, pad_same TL tmp SL DL fresh n0 v0 mode esh e w x = Ok c /\
    holds c (map (fun n => fst w + n + snd w) esh) (fun ix => ev (pad_source mode esh (map (fun _ => w) esh) ix)).
Proof. exact @pad_same_lemma. Qed.
Print Assumptions C55_pad_same_partial.
Example C55_case_same : exists c, pad_same row_major never row_major row_major fill_fresh 0 0 p_wrap [2; 3] (fun ix => Ok (grid6 ix)) (1, 1) 9 = Ok c /\
  ct_shape c = [4; 5] /\ ct_data c = [5; 3; 4; 5; 3;  2; 0; 1; 2; 0;  5; 3; 4; 5; 3;  2; 0; 1; 2; 0].
Proof. eexists. split; [vm_compute; reflexivity|]. split; reflexivity. Qed.

(** tile(e, reps) repeats e along every axis. *)
Theorem C56_tile : forall V TL tmp SL DL fresh n0 (v0 : V) esh e ev reps, is_order TL -> resizes fresh -> is_shape esh ->
  Forall2 (fun _ r => 1 <= r) esh reps -> (forall j, in_bounds esh j -> e j = Ok (ev j)) ->
  exists c, tile TL tmp SL DL fresh n0 v0 esh e reps = Ok c /\ holds c (tiled_shape esh reps) (fun ix => ev (mods ix esh)).
Proof. intros V TL tmp SL DL fresh n0 v0 esh e ev reps HT Hf. exact (tile_lemma TL tmp HT SL DL fresh Hf n0 v0 esh e ev reps). Qed.
Print Assumptions C56_tile.
Example C56_case_tile : exists c, tile row_major never row_major row_major fill_fresh 0 0 [2; 3] (fun ix => Ok (grid6 ix)) [2; 2] = Ok c /\
  ct_shape c = [4; 6] /\ ct_data c = [0; 1; 2; 0; 1; 2;  3; 4; 5; 3; 4; 5;  0; 1; 2; 0; 1; 2;  3; 4; 5; 3; 4; 5].
Proof. eexists. split; [vm_compute; reflexivity|]. split; reflexivity. Qed.

(** tile(e, n) repeats e along the first axis. *)
Theorem C56_tile_first : forall V TL tmp SL DL fresh n0 (v0 : V) n esh e ev r, is_order TL -> resizes fresh -> is_shape (n :: esh) ->
  1 <= r -> (forall j, in_bounds (n :: esh) j -> e j = Ok (ev j)) ->
  exists c, tile_first TL tmp SL DL fresh n0 v0 (n :: esh) e r = Ok c /\
    holds c (n * r :: esh) (fun ix => match ix with i :: ix' => ev (i mod n :: ix') | [] => ev [] end).
Proof. intros V TL tmp SL DL fresh n0 v0 n esh e ev r HT Hf. exact (tile_first_lemma TL tmp HT SL DL fresh Hf n0 v0 n esh e ev r). Qed.
Print Assumptions C56_tile_first.
Example C56_case_tile_first : exists c, tile_first row_major never row_major row_major fill_fresh 0 0 [2; 3] (fun ix => Ok (grid6 ix)) 2 = Ok c /\
  ct_shape c = [4; 3] /\ ct_data c = [0; 1; 2; 3; 4; 5; 0; 1; 2; 3; 4; 5].
Proof. eexists. split; [vm_compute; reflexivity|]. split; reflexivity. Qed.

(** Zero repetitions, an empty result, throw; on a 0-dimensional array tile(e, n) writes
    outside a vector. *)
Theorem C56_tile_zero_refuted : exists (e : list Z -> Z) c,
  tile row_major never row_major row_major fill_fresh 0 0 [2; 3] (fun ix => Ok (e ix)) [1; 0] = Throw broadcast_error /\
  holds c (tiled_shape [2; 3] [1; 0]) (fun ix => e (mods ix [2; 3])) /\
  tile_first row_major never row_major row_major fill_fresh 0 0 [] (fun ix => Ok (e ix)) 2 = UB.
Proof. exact tile_zero_lemma'. Qed.
Print Assumptions C56_tile_zero_refuted.
