(** C83: the norms of arrays of integers. *)
From Coq Require Import List ZArith Lia Bool Sorted.
From Verif Require Import Prelude Strides_Model Strides_Spec Container_Model Container_Spec Stepper_Model Reduce_Model Reduce_Spec Stats_Spec
  Nan_Model Nan_Spec Norm_Model Norm_Spec Container_Proofs Nan2_Proofs Norm_Proofs.
Import ListNotations.
Open Scope Z_scope.

(** norm_l0, norm_l1, norm_sq and norm_linf, lazy, of an expression with elements of the integral
    type t, for axes counted from the front or the end, with and without keep_dims: the number of
    elements different from 0, the sum of the absolute values, the sum of the squares, the greatest
    absolute value. Missing: elements whose own norm, and totals, that are not values of the types
    in which they are computed; see the refutations. *)
Theorem C83_lazy_partial : forall (t : ity) (esh : list Z) (e : sexp Z) (ev : list Z -> Z) (axes pos : list Z) (keep : bool),
  Z.of_nat (length esh) < 2 ^ 64 -> is_shape esh -> has_elements esh e ev -> typed t esh ev ->
  names (length esh) axes pos -> valid_axes (length esh) pos ->
  norms (norm_axes l0_f esh e axes keep) keep pos esh ev is_l0 /\
  norms (norm_axes (l1_f t) esh e axes keep) keep pos esh ev (is_l1 t) /\
  norms (norm_axes (sq_f t) esh e axes keep) keep pos esh ev (is_sq t) /\
  norms (norm_axes (linf_f t) esh e axes keep) keep pos esh ev (is_linf t).
Proof. exact lazy_norms_lemma. Qed.
Print Assumptions C83_lazy_partial.

Example C83_case_lazy : has_elements [2; 3] (mat m6) (mat_ev m6) /\ typed int_t [2; 3] (mat_ev m6) /\ names 2 [-1] [1] /\ valid_axes 2 [1] /\
  read (norm_axes l0_f [2; 3] (mat m6) [-1] false) [0] = Ok 2 /\ read (norm_axes (l1_f int_t) [2; 3] (mat m6) [-1] false) [1] = Ok 15 /\
  read (norm_axes (sq_f int_t) [2; 3] (mat m6) [0] true) [0; 2] = Ok 36 /\ read (norm_axes (linf_f int_t) [2; 3] (mat m6) [0] false) [1] = Ok 5.
Proof.
  split; [apply mat_elements; reflexivity|]. split; [apply mat_typed; [in_range|reflexivity]|].
  split; [repeat constructor; cbn; lia|]. split; [repeat constructor; cbn; lia|]. repeat split; vm_compute; reflexivity.
Qed.

(** Without axes: all elements. *)
Theorem C83_all_partial : forall (t : ity) (esh : list Z) (e : sexp Z) (ev : list Z -> Z) (keep : bool),
  Z.of_nat (length esh) < 2 ^ 64 -> is_shape esh -> has_elements esh e ev -> typed t esh ev ->
  norms (norm_all l0_f esh e keep) keep (all_axes (length esh)) esh ev is_l0 /\
  norms (norm_all (l1_f t) esh e keep) keep (all_axes (length esh)) esh ev (is_l1 t) /\
  norms (norm_all (sq_f t) esh e keep) keep (all_axes (length esh)) esh ev (is_sq t) /\
  norms (norm_all (linf_f t) esh e keep) keep (all_axes (length esh)) esh ev (is_linf t).
Proof. intros t esh e ev keep Hd Hs He Ht. apply lazy_norms_lemma; auto using all_names, all_valid. Qed.
Print Assumptions C83_all_partial.

Example C83_case_all : read (norm_all (sq_f int_t) [2; 3] (mat m6) false) [] = Ok 82 /\ read (norm_all l0_f [2; 3] (mat m6) false) [] = Ok 5.
Proof. split; vm_compute; reflexivity. Qed.

(** The same, immediate, on a container. Missing besides: reductions that copy the elements
    (C42_copy_functor_refuted). *)
Theorem C83_immediate_partial : forall (t : ity) (SL DL : layout) (conv : option (Z -> option N)) (fresh : list (option N) -> Z -> list (option N)) (r0 : option N)
    (keep : bool) (c : cont Z) (axes : list Z) (ev : list Z -> Z),
  (forall d n, 0 <= n -> Z.of_nat (length (fresh d n)) = n) -> reducible SL c ev -> typed t (ct_shape c) ev -> valid_axes (length (ct_shape c)) axes ->
  ~ copied (ct_layout c) axes (ct_shape c) ->
  norms_now (reduce_immediate l0_f SL DL conv fresh r0 keep None c axes) keep axes c ev is_l0 /\
  norms_now (reduce_immediate (l1_f t) SL DL conv fresh r0 keep None c axes) keep axes c ev (is_l1 t) /\
  norms_now (reduce_immediate (sq_f t) SL DL conv fresh r0 keep None c axes) keep axes c ev (is_sq t) /\
  norms_now (reduce_immediate (linf_f t) SL DL conv fresh r0 keep None c axes) keep axes c ev (is_linf t).
Proof. exact now_norms_lemma. Qed.
Print Assumptions C83_immediate_partial.

Example C83_case_immediate : reducible row_major (ck [2; 3] row_major m6) (mat_ev m6) /\ ~ copied row_major [1] [2; 3] /\
  (let* r := reduce_immediate (l1_f int_t) row_major row_major None zeros_of None false None (ck [2; 3] row_major m6) [1] in Ok (ct_data r)) = Ok [Some 3%N; Some 15%N].
Proof. split; [exact m6_reducible|]. split; [exact gap_not_copied|]. vm_compute. reflexivity. Qed.

(** norm_induced_l1 and norm_induced_linf of a matrix: the greatest of the L1 norms of the columns,
    and of the rows. Other numbers of dimensions are rejected. *)
Theorem C83_induced_partial : forall (t : ity) (r c : Z) (e : sexp Z) (ev : list Z -> Z),
  0 <= r -> 0 <= c -> has_elements [r; c] e ev -> typed t [r; c] ev ->
  (forall i j, 0 <= i < r -> 0 <= j < c -> Z.abs (ev [i; j]) <= high (promoted t)) ->
  ((forall j, 0 <= j < c -> sum_of (map Z.abs (column r j ev)) <= high (big t)) ->
   exists q, induced 0 t [r; c] e false = Ok (Returned q) /\ g_shape q = [] /\
     norm_at q [] = Ok (max_abs (map (fun j => sum_of (map Z.abs (column r (Z.of_nat j) ev))) (seq 0 (Z.to_nat c))))) /\
  ((forall i, 0 <= i < r -> sum_of (map Z.abs (row c i ev)) <= high (big t)) ->
   exists q, induced 1 t [r; c] e false = Ok (Returned q) /\ g_shape q = [] /\
     norm_at q [] = Ok (max_abs (map (fun i => sum_of (map Z.abs (row c (Z.of_nat i) ev))) (seq 0 (Z.to_nat r))))).
Proof. exact induced_lemma. Qed.
Print Assumptions C83_induced_partial.
Theorem C83_induced_dimension : forall (axis : Z) (t : ity) (esh : list Z) (e : sexp Z) (keep : bool),
  length esh <> 2%nat -> induced axis t esh e keep = Throw runtime_error.
Proof. exact induced_dimension. Qed.
Print Assumptions C83_induced_dimension.

Example C83_case_induced : (let* q := induced 0 int_t [2; 3] (mat m6) false in read q []) = Ok 7 /\ (let* q := induced 1 int_t [2; 3] (mat m6) false in read q []) = Ok 15.
Proof. split; vm_compute; reflexivity. Qed.

(** An array of int or long with the least value of its type has no L1 and no infinity norm, and one
    with an element whose square is above the greatest int (for long: long) no squared norm,
    although the results are computed in 64 bits: the outcome is undefined. *)
Theorem C83_overflow_refuted : forall (t : ity) (esh : list Z) (e : sexp Z) (ev : list Z -> Z) (axes pos : list Z) (keep : bool) (jx : list Z),
  Z.of_nat (length esh) < 2 ^ 64 -> is_shape esh -> has_elements esh e ev ->
  names (length esh) axes pos -> valid_axes (length esh) pos -> in_bounds esh jx ->
  (signed t = true -> wide t = W32 \/ wide t = W64 -> ev jx = low t ->
   (exists q, norm_axes (l1_f t) esh e axes keep = Returned q /\ norm_at q (red_index keep pos jx) = UB) /\
   (exists q, norm_axes (linf_f t) esh e axes keep = Returned q /\ norm_at q (red_index keep pos jx) = UB)) /\
  (signed (promoted t) = true -> high (promoted t) < ev jx * ev jx ->
   exists q, norm_axes (sq_f t) esh e axes keep = Returned q /\ norm_at q (red_index keep pos jx) = UB).
Proof. exact undefined_lemma. Qed.
Print Assumptions C83_overflow_refuted.

(** 65536 is no large int, and no large unsigned short is needed either. *)
Example C83_case_overflow : typed int_t [2; 3] (mat_ev [65536; 0; 0; 0; 0; 0]) /\ (high (promoted int_t) <? 65536 * 65536) = true /\
  read (norm_all (sq_f int_t) [2; 3] (mat [65536; 0; 0; 0; 0; 0]) false) [] = UB /\
  read (norm_all (sq_f (mk_ity false W16)) [2; 3] (mat [50000; 0; 0; 0; 0; 0]) false) [] = UB /\
  read (norm_all (l1_f int_t) [2; 3] (mat [0; 0; -2147483648; 0; 0; 0]) false) [] = UB.
Proof.
  split; [apply mat_typed; [in_range|reflexivity]|]. split; [vm_compute; reflexivity|].
  split; [vm_compute; reflexivity|]. split; vm_compute; reflexivity.
Qed.

(** Elements of type unsigned int: the squares are computed in 32 bits, so that an array that is
    not 0 has the squared norm 0. *)
Theorem C83_unsigned_squares_refuted : exists (e : sexp Z) (ev : list Z -> Z), has_elements [2; 3] e ev /\ typed uint_t [2; 3] ev /\
  sum_of (map (fun v => v * v) (map ev (row_indices [2; 3]))) = 2 ^ 33 /\
  exists q, norm_all (sq_f uint_t) [2; 3] e false = Returned q /\ norm_at q [] = Ok 0.
Proof.
  exists (mat [65536; 0; 0; 0; 0; 65536]), (mat_ev [65536; 0; 0; 0; 0; 65536]). split; [apply mat_elements; reflexivity|].
  split; [apply mat_typed; [in_range|reflexivity]|]. split; [vm_compute; reflexivity|].
  apply read_returned. vm_compute. reflexivity.
Qed.
Print Assumptions C83_unsigned_squares_refuted.

(** Axes out of range, or not increasing, end the program: the functions that would throw are
    called from a function declared noexcept. *)
Theorem C83_bad_axes_refuted : forall (f : rfun Z (option N)) (esh : list Z) (e : sexp Z) (axes : list Z) (keep : bool),
  Z.of_nat (length esh) < 2 ^ 63 -> esh <> [] -> ~ valid_axes (length esh) (map (normalize_axis (length esh)) axes) ->
  (length axes <= length esh)%nat \/ keep = true -> norm_axes f esh e axes keep = Terminated.
Proof. exact bad_terminates. Qed.
Print Assumptions C83_bad_axes_refuted.

(** The same for axes counted from the end when they are written in braces, as in
    norm_l1(e, {-1}). *)
Theorem C83_negative_braces_refuted : forall (f : rfun Z (option N)) (esh : list Z) (e : sexp Z) (axes : list Z) (keep : bool),
  Z.of_nat (length esh) < 2 ^ 63 -> esh <> [] -> Exists (fun a => - 2 ^ 63 <= a < 0) axes ->
  (length axes <= length esh)%nat \/ keep = true -> norm_braces f esh e axes keep = Terminated.
Proof. exact braces_negative. Qed.
Print Assumptions C83_negative_braces_refuted.
(** Other axes can be written in braces. *)
Theorem C83_braces : forall (f : rfun Z (option N)) (esh : list Z) (e : sexp Z) (axes : list Z) (keep : bool),
  Forall (fun a => 0 <= a < 2 ^ 64) axes -> norm_braces f esh e axes keep = norm_axes f esh e axes keep.
Proof. exact braces_id. Qed.
Print Assumptions C83_braces.

Example C83_case_axes : norm_axes l0_f [2; 3] (mat m6) [2] false = Terminated /\ norm_braces (l1_f int_t) [2; 3] (mat m6) [-1] false = Terminated /\
  read (norm_braces (l1_f int_t) [2; 3] (mat m6) [1] false) [0] = Ok 3.
Proof. repeat split; vm_compute; reflexivity. Qed.
