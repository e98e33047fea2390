(** Properties C01-C05, C29, C30: addressing of dense containers. *)
From Coq Require Import List ZArith.
From Verif Require Import Prelude Strides_Model Strides_Spec Strides_Proofs.
Import ListNotations.
Open Scope Z_scope.

(** C01. Whatever the static layout L, the layout argument l and the previous
    contents of the strides, the strides computed for a shape send in-bounds
    indices bijectively to [0, size). *)
Theorem C01_dense_addressing_bijective :
  forall (L l : layout) (sh st0 bs0 : list Z),
  is_shape sh -> length st0 = length sh -> length bs0 = length sh ->
  exists st bs,
    compute_strides L sh l st0 (Some bs0) = Ok (st, Some bs, prod sh) /\
    (forall ix, in_bounds sh ix -> 0 <= element_offset st ix < prod sh) /\
    (forall i j, in_bounds sh i -> in_bounds sh j ->
       element_offset st i = element_offset st j -> i = j) /\
    (forall p, 0 <= p < prod sh -> exists ix, in_bounds sh ix /\ element_offset st ix = p).
Proof. exact dense_addressing_lemma. Qed.
Print Assumptions C01_dense_addressing_bijective.

Example C01_case :
  compute_strides dynamic [2;1;3] row_major [9;9;9] (Some [0;0;0]) = Ok ([3;0;1], Some [3;0;2], 6)
  /\ element_offset [3;0;1] [1;0;2] = 5.
Proof. vm_compute. split; reflexivity. Qed.

(** C02. Sizes, strides and backstrides have the documented values. *)
Theorem C02_documented_strides :
  forall (l : layout) (sh st0 bs0 : list Z),
  l = row_major \/ l = column_major ->
  length st0 = length sh -> length bs0 = length sh ->
  exists st bs,
    compute_strides l sh l st0 (Some bs0) = Ok (st, Some bs, prod sh) /\
    compute_strides dynamic sh l st0 (Some bs0) = Ok (st, Some bs, prod sh) /\
    compute_size sh = prod sh /\
    length st = length sh /\ length bs = length sh /\
    (forall k, (k < length sh)%nat ->
       nth k st 0 = (if nth k sh 0 =? 1 then 0
                     else match l with
                          | row_major => prod (skipn (S k) sh)
                          | _ => prod (firstn k sh)
                          end) /\
       nth k bs 0 = nth k st 0 * (nth k sh 0 - 1)).
Proof. exact documented_strides_lemma. Qed.
Print Assumptions C02_documented_strides.

Example C02_case :
  compute_strides column_major [2;3;4] column_major [0;0;0] (Some [0;0;0])
  = Ok ([1;2;6], Some [1;4;18], 24).
Proof. vm_compute. reflexivity. Qed.

(** C03. ravel_index and unravel_index are mutually inverse. *)
Theorem C03_ravel_unravel_inverse :
  forall (l : layout) (sh : list Z),
  l = row_major \/ l = column_major -> is_shape sh ->
  (forall p, 0 <= p < prod sh ->
     exists ix, unravel_index p sh l = Ok ix /\ in_bounds sh ix /\ ravel_index ix sh l = Ok p) /\
  (forall ix, in_bounds sh ix ->
     exists p, ravel_index ix sh l = Ok p /\ 0 <= p < prod sh /\ unravel_index p sh l = Ok ix).
Proof. exact ravel_unravel_lemma. Qed.
Print Assumptions C03_ravel_unravel_inverse.

Example C03_case : unravel_index 17 [2;3;4] row_major = Ok [1;1;1] /\
                   ravel_index [1;1;1] [2;3;4] row_major = Ok 17 /\
                   unravel_index 17 [2;3;4] column_major = Ok [1;2;2].
Proof. vm_compute. auto. Qed.

(** C03. The flat position is the rank in lexicographic (resp. colexicographic) order. *)
Theorem C03_ravel_is_lexicographic_rank :
  forall (sh ix : list Z), in_bounds sh ix ->
  ravel_index ix sh row_major = Ok (row_pos sh ix) /\
  ravel_index ix sh column_major = Ok (col_pos sh ix).
Proof. exact ravel_order_lemma. Qed.
Print Assumptions C03_ravel_is_lexicographic_rank.

(** C03. Other layouts are rejected. *)
Theorem C03_unravel_rejects_other_layouts :
  forall (l : layout) (sh : list Z) (p : Z),
  l = dynamic \/ l = any -> unravel_index p sh l = Throw runtime_error.
Proof. exact unravel_throws_lemma. Qed.
Print Assumptions C03_unravel_rejects_other_layouts.

(** C03. unravel_indices is unravel_index on each position. *)
Theorem C03_unravel_indices_pointwise :
  forall (l : layout) (sh ps : list Z),
  l = row_major \/ l = column_major -> is_shape sh ->
  Forall (fun p => 0 <= p < prod sh) ps ->
  exists ixs, unravel_indices ps sh l = Ok ixs /\
    Forall2 (fun p ix => unravel_index p sh l = Ok ix) ps ixs.
Proof. exact unravel_indices_lemma. Qed.
Print Assumptions C03_unravel_indices_pointwise.

Example C03_indices_case : unravel_indices [0;5;3] [2;3] row_major = Ok [[0;0];[1;2];[1;0]].
Proof. vm_compute. reflexivity. Qed.

(** C04. Too many, too few and missing indices denote a full index. The last
    clause needs at least one axis left for xt::missing to stand for (0 < n). *)
Theorem C04_short_and_long_access :
  forall st : list Z,
  (forall ix, length ix = length st ->
     data_offset st ix false = Ok (dot ix st) /\ element_offset st ix = dot ix st) /\
  (forall extra ix, length ix = length st ->
     data_offset st (extra ++ ix) false = data_offset st ix false /\
     element_offset st (extra ++ ix) = element_offset st ix) /\
  (forall ix n, (length ix + n = length st)%nat ->
     data_offset st ix false = data_offset st (repeat 0 n ++ ix) false /\
     element_offset st ix = element_offset st (repeat 0 n ++ ix)) /\
  (forall ix n, (length ix + n = length st)%nat -> (0 < n)%nat ->
     data_offset st ix true = data_offset st (ix ++ repeat 0 n) false).
Proof. exact short_long_access_lemma. Qed.
Print Assumptions C04_short_and_long_access.

Example C04_case :
  data_offset [12;4;1] [7;1;2;3] false = Ok 23 /\ data_offset [12;4;1] [2;3] false = Ok 11 /\
  data_offset [12;4;1] [2;1] true = Ok 28.
Proof. vm_compute. auto. Qed.

(** C04, finding: with as many indices as dimensions, a trailing xt::missing is
    not neutral: a(1, 2, missing) on a 2-d array is a(2, 0). *)
Theorem C04_trailing_missing_refuted :
  exists st ix, length ix = length st /\ data_offset st ix true <> data_offset st ix false.
Proof. exists [3;1], [1;2]. split; [reflexivity|]. vm_compute. discriminate. Qed.
Print Assumptions C04_trailing_missing_refuted.

(** C05. unchecked() on 1..n in-bounds indices agrees with element access at
    the index completed by zeros, although the compile-time layout replaces the
    innermost stride by 1. [sd] is the static number of dimensions (-1: dynamic). *)
Theorem C05_unchecked_agrees :
  forall (L : layout) (sh st0 st : list Z) bs ds (sd : Z) (ix : list Z),
  L = row_major \/ L = column_major \/ L = dynamic ->
  length st0 = length sh ->
  (L = dynamic -> st = st0) ->
  (L <> dynamic -> compute_strides L sh L st0 None = Ok (st, bs, ds)) ->
  sd = -1 \/ sd = Z.of_nat (length sh) ->
  ix <> [] -> (length ix <= length sh)%nat ->
  in_bounds (firstn (length ix) sh) ix ->
  unchecked_data_offset L sd st ix =
    Ok (element_offset st (ix ++ repeat 0 (length sh - length ix))).
Proof. exact unchecked_agrees_lemma. Qed.
Print Assumptions C05_unchecked_agrees.

Example C05_case :
  unchecked_data_offset row_major 3 [3;0;1] [1;0;2] = Ok 5 /\
  unchecked_data_offset column_major 3 [1;0;2] [1;0;2] = Ok 5 /\
  unchecked_data_offset row_major 2 [1;0] [2;0] = Ok 2.
Proof. vm_compute. auto. Qed.

(** C29. A layout is reported for given strides only if every element is where
    that layout puts it. *)
Theorem C29_reported_layout_truthful :
  forall (l : layout) (sh st : list Z) (zero_strides : bool),
  length st = length sh ->
  do_strides_match sh st l zero_strides = Ok true ->
  (l = row_major \/ l = column_major) /\
  forall ix, in_bounds sh ix ->
    element_offset st ix = match l with row_major => row_pos sh ix | _ => col_pos sh ix end.
Proof. exact strides_match_sound_lemma. Qed.
Print Assumptions C29_reported_layout_truthful.

(** C29. The strides a container computes for its layout are recognised. *)
Theorem C29_own_strides_recognised :
  forall (l : layout) (sh st0 : list Z),
  l = row_major \/ l = column_major -> length st0 = length sh ->
  exists st, compute_strides l sh l st0 None = Ok (st, None, prod sh) /\
             do_strides_match sh st l true = Ok true.
Proof. exact strides_match_complete_lemma. Qed.
Print Assumptions C29_own_strides_recognised.

(** C29. Exactly when a layout is reported: every stride is the one of the layout,
    or, if zero strides are accepted, 0 on an axis of extent 1. *)
Theorem C29_reported_layout_exact :
  forall (l : layout) (sh st : list Z) (zero_strides : bool),
  length st = length sh ->
  exists b, do_strides_match sh st l zero_strides = Ok b /\
  (b = true <->
   (l = row_major \/ l = column_major) /\
   forall k, (k < length sh)%nat ->
     nth k st 0 = match l with row_major => prod (skipn (S k) sh) | _ => prod (firstn k sh) end \/
     (zero_strides = true /\ nth k sh 0 = 1 /\ nth k st 0 = 0)).
Proof. exact strides_match_exact_lemma. Qed.
Print Assumptions C29_reported_layout_exact.

Example C29_case :
  do_strides_match [2;3] [3;1] row_major true = Ok true /\
  do_strides_match [2;3] [6;1] row_major true = Ok false /\
  do_strides_match [2;1;3] [3;0;1] row_major true = Ok true.
Proof. vm_compute. auto. Qed.

(** C30. xt::strides(e, type) and xt::strides(e, axis, type): the internal
    strides as stored, the normal ones without the zeros of extent-1 axes, the
    byte ones scaled by the element size. *)
Theorem C30_strides_accessors :
  forall (l : layout) (sh st0 : list Z) (esz : Z),
  l = row_major \/ l = column_major -> length st0 = length sh ->
  exists st, compute_strides l sh l st0 None = Ok (st, None, prod sh) /\
    let full := map (fun k => match l with
                              | row_major => prod (skipn (S k) sh)
                              | _ => prod (firstn k sh) end) (seq 0 (length sh)) in
    strides_of sh st l st_internal esz = Ok st /\
    strides_of sh st l st_normal esz = Ok full /\
    strides_of sh st l st_bytes esz = Ok (map (fun c => c * esz) full) /\
    (forall k, (k < length sh)%nat ->
       strides_of_axis sh st l k st_internal esz = Ok (nth k st 0) /\
       strides_of_axis sh st l k st_normal esz = Ok (nth k full 0) /\
       strides_of_axis sh st l k st_bytes esz = Ok (nth k full 0 * esz)).
Proof. exact strides_normal_lemma. Qed.
Print Assumptions C30_strides_accessors.

Example C30_case :
  strides_of [2;1;3] [3;0;1] row_major st_normal 8 = Ok [3;3;1] /\
  strides_of_axis [2;1;3] [3;0;1] row_major 1 st_bytes 8 = Ok 24.
Proof. vm_compute. auto. Qed.
