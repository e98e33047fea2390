(** C57, C58: npy files. *)
From Coq Require Import String Ascii List ZArith Bool Lia.
From Verif Require Import Prelude Strides_Model Strides_Spec Container_Model Container_Spec Reduce_Spec Select_Model Select_Spec
  Npy_Model Npy_Spec Npy_Proofs Npy2_Proofs Npy3_Proofs Npy4_Proofs.
Import ListNotations.
Open Scope Z_scope.

(** A row or column major array is dumped as a well formed file: its type, its shape, its
    elements in C order, or in Fortran order if it is column major with several
    dimensions, at a multiple of 64 bytes. *)
Theorem C57_dump : forall V little ty (enc : V -> bytes) dec c sh (v : list Z -> V), represents ty enc dec ->
  holds c sh v -> is_order (ct_layout c) -> Forall (fun n => n < 2 ^ 64) sh -> Z.of_nat (length sh) < 2 ^ 27 ->
  let fortran := layout_eqb (ct_layout c) column_major && (1 <? length sh)%nat in
  exists version pad file, dump_npy little ty enc c = Ok file /\
    type_text ty (build_typestring little ty) /\
    npy_format version (build_typestring little ty) fortran sh pad (data_of enc fortran sh v) file /\
    (len file - len (data_of enc fortran sh v)) mod 64 = 0.
Proof.
  intros V little ty enc dec c sh v Hrep Hc Hl Hx Hn fortran. destruct (dump_lemma little ty enc dec Hrep c sh v Hc Hl Hx Hn) as (version & pad & file & H1 & H2 & H3).
  exists version, pad, file. split; [exact H1|]. split; [exact (typestring_ok little ty enc dec Hrep)|]. split; assumption.
Qed.
Print Assumptions C57_dump.
Example C57_case_dump : holds (of_shape column_major [2; 3]) [2; 3] (fun ix => bits (rank column_major [2; 3] ix)) /\
  exists file, dump_npy true ty2 enc2 (of_shape column_major [2; 3]) = Ok file /\ skipn 128 file = [0; 0; 1; 0; 0; 1; 1; 1; 0; 0; 1; 0].
Proof. split; [apply of_shape_holds; [right; reflexivity|exact shape23]|]. eexists. split; vm_compute; reflexivity. Qed.

(** Any well formed file of the type, written by any program with any padding, version 1 or
    2, C or Fortran order, loads as the array it describes; what follows the data is
    ignored. *)
Theorem C57_load_partial : forall V little ty (enc : V -> bytes) dec cs L version fortran sh pad (v : list Z -> V) rest file, represents ty enc dec ->
  is_shape sh -> Forall (fun n => n < 2 ^ 64) sh -> prod sh * ty_size ty < 2 ^ 64 ->
  npy_format version (build_typestring little ty) fortran sh pad (data_of enc fortran sh v ++ rest) file -> readable cs file ->
  L = dynamic \/ L = file_order fortran ->
  exists c, load_npy little ty dec cs L file = Ok c /\ holds c sh (fun ix => Some (v ix)).
Proof.
  intros V little ty enc dec cs L version fortran sh pad v rest file Hrep Hsh Hx Hsz Hf Hr HL.
  destruct (load_lemma little ty enc dec Hrep cs L version fortran sh pad v rest file Hsh Hx Hsz Hf Hr) as (c & E & H & _); [| |exists c; split; assumption];
    destruct HL as [ -> | -> ]; try (left; discriminate); destruct fortran; try (left; discriminate); right; reflexivity.
Qed.
Print Assumptions C57_load_partial.
Example C57_case_load : npy_format 1 (build_typestring true ty2) true [2; 3] 0 (data_of enc2 true [2; 3] v6 ++ [9]) (file2 true [2; 3] 0 (data_of enc2 true [2; 3] v6 ++ [9])) /\
  readable true (file2 true [2; 3] 0 (data_of enc2 true [2; 3] v6 ++ [9])) /\
  exists c, load_npy true ty2 dec2 true column_major (file2 true [2; 3] 0 (data_of enc2 true [2; 3] v6 ++ [9])) = Ok c /\ elt c [1; 0] = Ok (Some (true, true)).
Proof.
  split; [apply file2_format; [exact shape23|reflexivity]|]. split.
  - right. intros version Ev. injection Ev as <-. constructor; [vm_compute; reflexivity|constructor].
  - eexists. split; vm_compute; reflexivity.
Qed.

(** A row or column major array survives a round trip, where chars are unsigned or the
    header length has no byte above 127. *)
Theorem C57_roundtrip_partial : forall V little ty (enc : V -> bytes) dec cs L c sh (v : list Z -> V), represents ty enc dec ->
  holds c sh v -> is_order (ct_layout c) -> Forall (fun n => n < 2 ^ 64) sh -> Z.of_nat (length sh) < 2 ^ 27 -> prod sh * ty_size ty < 2 ^ 64 ->
  (L = dynamic \/ L = file_order (layout_eqb (ct_layout c) column_major && (1 <? length sh)%nat)) ->
  exists file, dump_npy little ty enc c = Ok file /\ (readable cs file ->
    exists c', load_npy little ty dec cs L file = Ok c' /\ holds c' sh (fun ix => Some (v ix))).
Proof. intros V little ty enc dec cs L c sh v Hrep. exact (roundtrip_lemma little ty enc dec Hrep cs L c sh v). Qed.
Print Assumptions C57_roundtrip_partial.
Example C57_case_roundtrip : holds (of_shape row_major (repeat 1 30)) (repeat 1 30) (fun ix => bits (rank row_major (repeat 1 30) ix)) /\
  exists file c, dump_npy true ty2 enc2 (of_shape row_major (repeat 1 30)) = Ok file /\ load_npy true ty2 dec2 false row_major file = Ok c /\
    elt c (repeat 0 30) = Ok (Some (false, false)).
Proof.
  split; [apply of_shape_holds; [left; reflexivity|]; apply Forall_forall; intros n H; apply repeat_spec in H; lia|].
  eexists _, _. split; [vm_compute; reflexivity|]. split; vm_compute; reflexivity.
Qed.

(** On every platform when the header is short: n dimensions with extents of k digits,
    n(k + 2) <= 61. *)
Theorem C57_roundtrip_small : forall V little ty (enc : V -> bytes) dec cs L c sh (v : list Z -> V) k, represents ty enc dec ->
  holds c sh v -> is_order (ct_layout c) -> 0 < k < 20 -> Forall (fun n => n < 10 ^ k) sh -> Z.of_nat (length sh) * (k + 2) <= 61 ->
  ty_size ty < 100 -> prod sh * ty_size ty < 2 ^ 64 ->
  (L = dynamic \/ L = file_order (layout_eqb (ct_layout c) column_major && (1 <? length sh)%nat)) ->
  exists file c', dump_npy little ty enc c = Ok file /\ load_npy little ty dec cs L file = Ok c' /\ holds c' sh (fun ix => Some (v ix)).
Proof. intros V little ty enc dec cs L c sh v k Hrep. exact (roundtrip_small_lemma little ty enc dec Hrep cs L c sh v k). Qed.
Print Assumptions C57_roundtrip_small.
Example C57_case_small : Forall (fun n => n < 10 ^ 1) [2; 3] /\ Z.of_nat (length [2; 3]) * (1 + 2) <= 61 /\ represents ty2 enc2 dec2 /\
  exists file c, dump_npy true ty2 enc2 (of_shape column_major [2; 3]) = Ok file /\ load_npy true ty2 dec2 true column_major file = Ok c /\
    elt c [1; 2] = Ok (Some (true, false)).
Proof.
  split; [repeat (constructor; [reflexivity|]); constructor|]. split; [discriminate|]. split; [exact represents2|].
  eexists _, _. split; [vm_compute; reflexivity|]. split; vm_compute; reflexivity.
Qed.

(** With signed chars an array of 22 dimensions is not read back. *)
Theorem C57_roundtrip_refuted : exists (c : cont (bool * bool)) sh v file, holds c sh v /\ ct_layout c = row_major /\ length sh = 22%nat /\ prod sh = 1 /\
  dump_npy true ty2 enc2 c = Ok file /\ load_npy true ty2 dec2 true row_major file = UB.
Proof. exact big_header_lemma. Qed.
Print Assumptions C57_roundtrip_refuted.

(** A one-dimensional column major array is not loaded back as column major. *)
Theorem C57_column_vector_refuted : exists (c : cont (bool * bool)) sh v file, holds c sh v /\ ct_layout c = column_major /\ sh = [3] /\
  dump_npy true ty2 enc2 c = Ok file /\ load_npy true ty2 dec2 true column_major file = Throw runtime_error.
Proof. exact column_vector_lemma. Qed.
Print Assumptions C57_column_vector_refuted.

(** The array loaded from a Fortran order file is not dumped correctly. *)
Theorem C57_reload_refuted : exists (c : cont (bool * bool)) sh v file0 file c', holds c sh v /\
  load_npy true ty2 dec2 true dynamic file0 = Ok (retype Some c) /\
  dump_npy true ty2 enc2 c = Ok file /\ load_npy true ty2 dec2 true dynamic file = Ok c' /\ ~ holds c' sh (fun ix => Some (v ix)).
Proof. exact reload_lemma. Qed.
Print Assumptions C57_reload_refuted.

(** A file that is too short, or does not start with the magic string, is rejected. *)
Theorem C58_not_npy : forall V little ty (dec : bytes -> V) cs L file,
  (length file < 8)%nat \/ firstn 6 file <> [147; 78; 85; 77; 80; 89] -> load_npy little ty dec cs L file = Throw runtime_error.
Proof. intros V little ty dec cs L file. exact (not_npy_lemma little ty dec cs L file). Qed.
Print Assumptions C58_not_npy.
Example C58_case_not_npy : firstn 6 (80 :: 75 :: repeat 3 50) <> [147; 78; 85; 77; 80; 89].
Proof. discriminate. Qed.

(** So is a file of a version other than 1.0 and 2.0. *)
Theorem C58_version : forall V little ty (dec : bytes -> V) cs L major minor rest, ~ ((major = 1 \/ major = 2) /\ minor = 0) ->
  load_npy little ty dec cs L ([147; 78; 85; 77; 80; 89; major; minor] ++ rest) = Throw runtime_error.
Proof. intros V little ty dec cs L major minor rest. exact (version_lemma little ty dec cs L major minor rest). Qed.
Print Assumptions C58_version.
Example C58_case_version : ~ ((3 = 1 \/ 3 = 2) /\ 0 = 0).
Proof. lia. Qed.

(** So is a file of another type (kind, size or byte order), or in the other order. *)
Theorem C58_wrong_type_partial : forall V little ty (dec : bytes -> V) cs L version t descr fortran sh pad data file,
  type_text t descr -> descr <> build_typestring little ty -> Forall (fun n => n < 2 ^ 64) sh -> 0 <= prod sh * ty_size t < 2 ^ 64 ->
  npy_format version descr fortran sh pad data file -> readable cs file ->
  load_npy little ty dec cs L file = Throw runtime_error.
Proof. intros V little ty dec cs L version t descr fortran sh pad data file. exact (wrong_type_lemma little ty dec cs L version t descr fortran sh pad data file). Qed.
Print Assumptions C58_wrong_type_partial.
Example C58_case_type : type_text ty2 (build_typestring true ty2) /\ build_typestring true ty2 <> build_typestring false ty2 /\
  load_npy false ty2 dec2 true row_major (file2 false [2; 3] 5 (repeat 1 12)) = Throw runtime_error.
Proof. split; [exact (typestring_ok true ty2 enc2 dec2 represents2)|]. split; [discriminate|vm_compute; reflexivity]. Qed.

Theorem C58_wrong_order_partial : forall V little ty (dec : bytes -> V) cs L version t descr fortran sh pad data file,
  type_text t descr -> Forall (fun n => n < 2 ^ 64) sh -> 0 <= prod sh * ty_size t < 2 ^ 64 -> is_order L -> L <> file_order fortran ->
  npy_format version descr fortran sh pad data file -> readable cs file ->
  load_npy little ty dec cs L file = Throw runtime_error.
Proof. intros V little ty dec cs L version t descr fortran sh pad data file. exact (wrong_order_lemma little ty dec cs L version t descr fortran sh pad data file). Qed.
Print Assumptions C58_wrong_order_partial.
Example C58_case_order : column_major <> file_order false /\ load_npy true ty2 dec2 true column_major (file2 false [2; 3] 5 (repeat 1 12)) = Throw runtime_error.
Proof. split; [discriminate|vm_compute; reflexivity]. Qed.

(** A file whose data stops after k bytes is not rejected: the elements that are completely
    there are right and the others are indeterminate. *)
Theorem C58_truncated_partial : forall V little ty (enc : V -> bytes) dec cs L version fortran sh pad (v : list Z -> V) k file, represents ty enc dec ->
  is_shape sh -> Forall (fun n => n < 2 ^ 64) sh -> prod sh * ty_size ty < 2 ^ 64 -> Z.of_nat k < prod sh * ty_size ty ->
  npy_format version (build_typestring little ty) fortran sh pad (firstn k (data_of enc fortran sh v)) file -> readable cs file ->
  L = dynamic \/ L = file_order fortran ->
  exists c, load_npy little ty dec cs L file = Ok c /\
    holds c sh (fun ix => if (rank (file_order fortran) sh ix + 1) * ty_size ty <=? Z.of_nat k then Some (v ix) else None).
Proof.
  intros V little ty enc dec cs L version fortran sh pad v k file Hrep Hsh Hx Hsz Hk Hf Hr HL.
  apply (truncated_lemma little ty enc dec Hrep cs L version fortran sh pad v k file Hsh Hx Hsz Hk Hf Hr);
    destruct HL as [ -> | -> ]; try (left; discriminate); destruct fortran; try (left; discriminate); right; reflexivity.
Qed.
Print Assumptions C58_truncated_partial.
Example C58_case_truncated : npy_format 1 (build_typestring true ty2) false [2; 3] 0 (firstn 7 (data_of enc2 false [2; 3] v6)) (file2 false [2; 3] 0 (firstn 7 (data_of enc2 false [2; 3] v6))) /\
  exists c, load_npy true ty2 dec2 true row_major (file2 false [2; 3] 0 (firstn 7 (data_of enc2 false [2; 3] v6))) = Ok c /\
    elt c [0; 2] = Ok (Some (v6 [0; 2])) /\ elt c [1; 0] = Ok None.
Proof. split; [apply file2_format; [exact shape23|reflexivity]|]. eexists. split; [vm_compute; reflexivity|]. split; vm_compute; reflexivity. Qed.

Theorem C58_truncated_refuted : ~ forall V little ty (enc : V -> bytes) dec cs L version fortran sh pad data file,
  represents ty enc dec -> is_shape sh -> Forall (fun n => n < 2 ^ 64) sh -> prod sh * ty_size ty < 2 ^ 64 ->
  npy_format version (build_typestring little ty) fortran sh pad data file -> readable cs file -> len data < prod sh * ty_size ty ->
  exists e, load_npy little ty dec cs L file = Throw e.
Proof. exact truncated_refuted_lemma. Qed.
Print Assumptions C58_truncated_refuted.

(** A file that stops in its header leads to undefined behaviour, wherever it stops. *)
Theorem C58_cut_header_refuted : forall V little ty (dec : bytes -> V) cs L version descr fortran sh pad data file k,
  npy_format version descr fortran sh pad data file -> readable cs file ->
  (8 <= k)%nat -> (k + length data < length file)%nat -> load_npy little ty dec cs L (firstn k file) = UB.
Proof. intros V little ty dec cs L version descr fortran sh pad data file k. exact (cut_header_lemma little ty dec cs L version descr fortran sh pad data file k). Qed.
Print Assumptions C58_cut_header_refuted.
Example C58_case_cut : npy_format 1 (build_typestring true ty2) false [2; 3] 0 [] (file2 false [2; 3] 0 []) /\
  load_npy true ty2 dec2 true row_major (firstn 40 (file2 false [2; 3] 0 [])) = UB.
Proof. split; [apply file2_format; [exact shape23|reflexivity]|vm_compute; reflexivity]. Qed.
