(** Properties C10 and C31: periodic, bounds-tested and checked access. *)
From Coq Require Import List ZArith.
From Verif Require Import Prelude Strides_Model Strides_Spec Access_Model Access_Spec Access_Proofs.
Import ListNotations.
Open Scope Z_scope.

(** C10. periodic(i...) reaches the element whose indices are reduced modulo
    the extents, for full index lists (and with xt::missing), for any strides. *)
Theorem C10_periodic_wraps :
  forall (sh st args : list Z),
  Forall (fun d => 0 < d) sh -> length st = length sh ->
  (length args = length sh ->
     in_bounds sh (wrap_index sh args) /\
     periodic_offset sh st args false = Ok (element_offset st (wrap_index sh args)) /\
     (in_bounds sh args -> periodic_offset sh st args false = data_offset st args false)) /\
  (forall n, (length args + n = length sh)%nat -> (0 < n)%nat ->
     periodic_offset sh st args true = Ok (element_offset st (wrap_index sh args ++ repeat 0 n))) /\
  ((length sh < length args)%nat -> periodic_offset sh st args false = Throw out_of_range).
Proof. exact periodic_lemma. Qed.
Print Assumptions C10_periodic_wraps.

Example C10_case :
  periodic_offset [2;3] [3;1] [-1;7] false = Ok 4 /\ wrap_index [2;3] [-1;7] = [1;1]
  /\ element_offset [3;1] [1;1] = 4.
Proof. vm_compute. auto. Qed.

(** C10. in_bounds(i...) decides membership for full index lists, for lists
    that are too long (the leading extra ones are ignored) and with xt::missing. *)
Theorem C10_in_bounds_decides :
  forall (sh extra args : list Z),
  length args = length sh ->
  exists b, check_in_bounds sh (extra ++ args) false = Ok b /\ (b = true <-> in_bounds sh args).
Proof. exact in_bounds_decides_lemma. Qed.
Print Assumptions C10_in_bounds_decides.

Theorem C10_in_bounds_missing :
  forall (sh args : list Z),
  (length args < length sh)%nat ->
  exists b, check_in_bounds sh args true = Ok b /\
            (b = true <-> in_bounds (firstn (length args) sh) args).
Proof. exact in_bounds_missing_lemma. Qed.
Print Assumptions C10_in_bounds_missing.

Example C10_in_bounds_case :
  check_in_bounds [2;3] [9;1;2] false = Ok true /\ check_in_bounds [2;3] [9;1;3] false = Ok false
  /\ check_in_bounds [2;3] [1] true = Ok true /\ check_in_bounds [2;3] [2] true = Ok false.
Proof. vm_compute. auto. Qed.

(** C10. With fewer indices than dimensions the indices are compared with the
    LEADING extents although element access aligns them with the trailing ones:
    in_bounds is wrong in both directions. *)
Theorem C10_in_bounds_short_refuted :
  exists sh, is_shape sh /\
  (exists i, check_in_bounds sh [i] false = Ok false /\ in_bounds sh [0; i]) /\
  (exists sh2 i, is_shape sh2 /\ check_in_bounds sh2 [i] false = Ok true /\ ~ in_bounds sh2 [0; i]).
Proof. exact in_bounds_short_refuted_lemma. Qed.
Print Assumptions C10_in_bounds_short_refuted.

(** C10. Likewise periodic with fewer indices: on a 5x2 column-major array
    (strides (1,5), 10 elements) periodic(4) addresses position 20. *)
Theorem C10_periodic_short_refuted :
  exists sh st bs i off,
    is_shape sh /\
    compute_strides dynamic sh column_major [0;0] (Some [0;0]) = Ok (st, bs, prod sh) /\
    periodic_offset sh st [i] false = Ok off /\ prod sh <= off.
Proof. exact periodic_short_refuted_lemma. Qed.
Print Assumptions C10_periodic_short_refuted.

(** C31. at(i...) with as many indices as dimensions either throws out_of_range
    or addresses an element of the array, the one the indices name; it throws
    exactly when an index is out of range on an axis of extent other than 1, and
    always when there are too many indices. *)
Theorem C31_at_checked :
  forall (L l : layout) (sh st0 st : list Z) bs ds (args : list Z),
  Forall (fun d => 0 <= d < 2 ^ 63) sh -> Forall fits args ->
  length st0 = length sh -> compute_strides L sh l st0 None = Ok (st, bs, ds) ->
  (length args = length sh ->
     (acceptable sh args -> exists ix, in_bounds sh ix /\ same_index sh args ix /\
                                       at_offset sh st args false = Ok (element_offset st ix)) /\
     (~ acceptable sh args -> at_offset sh st args false = Throw out_of_range)) /\
  (forall miss, (length sh < length args)%nat -> at_offset sh st args miss = Throw out_of_range).
Proof. exact at_checked_lemma. Qed.
Print Assumptions C31_at_checked.

Example C31_case :
  compute_strides row_major [2;3] row_major [0;0] None = Ok ([3;1], None, 6)
  /\ at_offset [2;3] [3;1] [1;2] false = Ok 5
  /\ at_offset [2;3] [3;1] [1;-1] false = Throw out_of_range
  /\ at_offset [2;3] [3;1] [1;3] false = Throw out_of_range
  /\ at_offset [2;3] [3;1] [0;1;1] false = Throw out_of_range.
Proof. vm_compute. repeat split. Qed.

(** C31. at() with fewer indices than dimensions: bounds are checked on the
    trailing axes, so the access is in range as soon as no leading axis is empty. *)
Theorem C31_at_short :
  forall (L l : layout) (lead sh st0 st : list Z) bs ds (args : list Z),
  Forall (fun d => 0 < d < 2 ^ 63) lead -> Forall (fun d => 0 <= d < 2 ^ 63) sh -> Forall fits args ->
  length st0 = length (lead ++ sh) ->
  compute_strides L (lead ++ sh) l st0 None = Ok (st, bs, ds) ->
  length args = length sh -> args <> [] ->
  (acceptable sh args -> exists ix, in_bounds (lead ++ sh) (repeat 0 (length lead) ++ ix) /\
       same_index sh args ix /\
       at_offset (lead ++ sh) st args false = Ok (element_offset st (repeat 0 (length lead) ++ ix))) /\
  (~ acceptable sh args -> at_offset (lead ++ sh) st args false = Throw out_of_range).
Proof. exact at_short_lemma. Qed.
Print Assumptions C31_at_short.

(** C31. The documented behaviour ("throws if the indices are out of bounds")
    is not what happens on axes of extent 1, nor with fewer indices than
    dimensions on an empty array, where at() reads outside the buffer. *)
Theorem C31_at_always_checks_refuted :
  (exists sh st i off, compute_strides row_major sh row_major [0] None = Ok (st, None, prod sh) /\
     ~ in_bounds sh [i] /\ at_offset sh st [i] false = Ok off) /\
  (exists sh st i off, compute_strides row_major sh row_major [0;0] None = Ok (st, None, prod sh) /\
     at_offset sh st [i] false = Ok off /\ prod sh <= off).
Proof. exact at_refuted_lemma. Qed.
Print Assumptions C31_at_always_checks_refuted.
