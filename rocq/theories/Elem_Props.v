(** C88: element-wise functions, all, any, allclose, amin and amax. *)
From Coq Require Import List ZArith Lia Bool QArith Qcanon Qcabs.
From Verif Require Import Prelude Strides_Model Strides_Spec Broadcast_Model Broadcast_Spec Stepper_Model Stepper_Spec Container_Model Container_Spec
  Reduce_Model Reduce_Spec Norm_Model Elem_Model Elem_Spec Elem_Proofs Elem2_Proofs Elem3_Proofs.
Import ListNotations.
Open Scope Z_scope.

(** pow<N>(e) is the product of N factors, square(e) of 2 and cube(e) of 3, for every associative product with a unit. *)
Theorem C88_power : forall (T : Type) (mul : T -> T -> T) (one : T) (N : nat) (v : T),
  (forall x y z, mul x (mul y z) = mul (mul x y) z) -> (forall x, mul one x = x) -> (forall x, mul x one = x) ->
  let m := fun x y => Ok (mul x y) in
  pow_n one (fun x => x) (fun x => x) m N v = Ok (product mul one N v) /\
  square_f m v = Ok (product mul one 2 v) /\ cube_f m v = Ok (product mul one 3 v).
Proof.
  intros T mul one N v A L R m. split; [exact (pow_ring mul one A L R v N N (le_n N))|].
  unfold square_f, cube_f, m. cbn [product bind]. rewrite R. split; [reflexivity|]. rewrite A. reflexivity.
Qed.
Print Assumptions C88_power.
Example C88_case_power : pow_n 1%Qc (fun x => x) (fun x => x) (fun x y => Ok (x * y)%Qc) 5 (q 3 2) = Ok (q 243 32).
Proof. destruct (C88_power Qc Qcmult 1%Qc 5 (q 3 2) Qcmult_assoc Qcmult_1_l Qcmult_1_r) as [E _]. rewrite E. vm_compute. reflexivity. Qed.

(** Integers: the exact power, if it is a value of the promoted type and half the power one of the element type.
    Missing: powers whose half is not a value of the element type (see the refutation). *)
Theorem C88_power_int_partial : forall (t : ity) (N : nat) (v : Z),
  value_of t v -> value_of t (v ^ Z.of_nat (N / 2)) -> value_of (promoted t) (v ^ Z.of_nat N) -> pow_int t N v = Ok (v ^ Z.of_nat N).
Proof. intros t N v Hv Hh Hp. exact (pow_int_ok t v Hv N N (le_n N) Hh Hp). Qed.
Print Assumptions C88_power_int_partial.
Example C88_case_power_int : value_of (mk_ity true W8) 5 /\ value_of (mk_ity true W8) (5 ^ 2) /\ value_of (promoted (mk_ity true W8)) (5 ^ 5) /\
  pow_int (mk_ity true W8) 5 5 = Ok 3125.
Proof. unfold value_of. vm_compute. repeat split; congruence. Qed.

(** The halves are stored in a variable of the element type: for a narrow type the power is wrong although its value is
    a value of the result type. *)
Theorem C88_power_narrow_refuted : exists (t : ity) (N : nat) (v : Z),
  value_of t v /\ value_of (promoted t) (v ^ Z.of_nat N) /\ pow_int t N v <> Ok (v ^ Z.of_nat N) /\ exists z, pow_int t N v = Ok z.
Proof. exists (mk_ity true W8), 4%nat, 12. unfold value_of. vm_compute. repeat split; try congruence. eexists. reflexivity. Qed.
Print Assumptions C88_power_narrow_refuted.

(** Unsigned types that are not promoted: the power modulo 2 to the number of bits. *)
Theorem C88_power_unsigned : forall (t : ity) (N : nat) (v : Z),
  signed t = false -> promoted t = t -> value_of t v -> pow_int t N v = Ok (v ^ Z.of_nat N mod 2 ^ bits t).
Proof. intros t N v Hs Hp Hv. exact (pow_unsigned_ok t v Hs Hp Hv N N (le_n N)). Qed.
Print Assumptions C88_power_unsigned.
Example C88_case_power_unsigned : promoted (mk_ity false W32) = mk_ity false W32 /\ value_of (mk_ity false W32) 70000 /\
  pow_int (mk_ity false W32) 3 70000 = Ok (70000 ^ 3 mod 2 ^ 32) /\ 70000 ^ 3 mod 2 ^ 32 <> 70000 ^ 3.
Proof. unfold value_of. vm_compute. repeat split; congruence. Qed.

(** minimum and maximum are one of their arguments and beyond neither. *)
Theorem C88_extrema : forall (A : Type) (lt : A -> A -> bool) (x y : A), total_order lt ->
  (at_least lt (maximum lt x y) x /\ at_least lt (maximum lt x y) y /\ (maximum lt x y = x \/ maximum lt x y = y)) /\
  (at_least lt x (minimum lt x y) /\ at_least lt y (minimum lt x y) /\ (minimum lt x y = x \/ minimum lt x y = y)).
Proof. intros A lt x y O. split; [apply max_ub|apply min_lb]; exact O. Qed.
Print Assumptions C88_extrema.

(** clip keeps what is between its bounds and replaces the rest by the bound it is beyond. *)
Theorem C88_clip : forall (A : Type) (lt : A -> A -> bool) (v lo hi : A), total_order lt -> at_least lt hi lo ->
  at_least lt (clamp lt v lo hi) lo /\ at_least lt hi (clamp lt v lo hi) /\
  (at_least lt v lo -> at_least lt hi v -> clamp lt v lo hi = v) /\
  (lt v lo = true -> clamp lt v lo hi = lo) /\ (lt hi v = true -> clamp lt v lo hi = hi).
Proof. intros A lt v lo hi O H. exact (clamp_ok lt O v lo hi H). Qed.
Print Assumptions C88_clip.
Example C88_case_clip : total_order (int_lt (mk_ity true W32)) /\ map (fun v => clamp Z.ltb v 2 5) [1; 2; 4; 5; 9] = [2; 2; 4; 5; 5] /\
  (minimum Z.ltb 3 7, maximum Z.ltb 3 7, minimum Z.ltb 7 3, maximum Z.ltb 7 3) = (3, 7, 3, 7).
Proof. split; [apply int_order|]. split; reflexivity. Qed.

(** amax(e, axes): every element of the result is the greatest of the elements of e reduced to it, the lowest value if there are none. *)
Theorem C88_amax : forall (A : Type) (lt : A -> A -> bool) (lowest dflt : A) (esh : list Z) (e : sexp A) (ev : list Z -> A) (axes : list Z) (keep : bool),
  total_order lt -> (forall x, at_least lt x lowest) ->
  Z.of_nat (length esh) < 2 ^ 64 -> is_shape esh -> valid_axes (length esh) axes -> has_elements esh e ev ->
  exists r, make_reducer esh axes keep None = Ok r /\ r_shape r = red_shape keep axes esh /\
    forall ix, in_bounds (red_shape keep axes esh) ix -> exists m,
      rs_element (amax_f lt lowest) dflt esh (x_ops esh e) (x_deref e) r (x_begin e) ix = Ok m /\ extremum lt lowest keep axes esh ev ix m.
Proof. exact amax_ok. Qed.
Print Assumptions C88_amax.
Theorem C88_amin : forall (A : Type) (lt : A -> A -> bool) (highest dflt : A) (esh : list Z) (e : sexp A) (ev : list Z -> A) (axes : list Z) (keep : bool),
  total_order lt -> (forall x, at_least lt highest x) ->
  Z.of_nat (length esh) < 2 ^ 64 -> is_shape esh -> valid_axes (length esh) axes -> has_elements esh e ev ->
  exists r, make_reducer esh axes keep None = Ok r /\ r_shape r = red_shape keep axes esh /\
    forall ix, in_bounds (red_shape keep axes esh) ix -> exists m,
      rs_element (amin_f lt highest) dflt esh (x_ops esh e) (x_deref e) r (x_begin e) ix = Ok m /\ extremum (fun x y => lt y x) highest keep axes esh ev ix m.
Proof. exact amin_ok. Qed.
Print Assumptions C88_amin.
(** The integers of every type; an array of 3 numbers *)
Example C88_case_amax : (forall t, total_order (int_lt t) /\ (forall x, at_least (int_lt t) x (lowest t)) /\ (forall x, at_least (int_lt t) (highest t) x)) /\
  valid_axes 1 [0] /\ has_elements [3] (three 4 (-7) 2) (three_ev 4 (-7) 2) /\
  extreme (amax_f Z.ltb (- 2 ^ 31)) 4 (-7) 2 = Ok 4 /\ extreme (amin_f Z.ltb (2 ^ 31 - 1)) 4 (-7) 2 = Ok (-7).
Proof.
  split; [intros t; split; [apply int_order|split; [apply lowest_ok|apply highest_ok]]|]. split; [exact three_axes|]. split; [apply three_elements|].
  split; vm_compute; reflexivity.
Qed.

(** The initial values are the extreme finite numbers: the maximum of an array of negative infinities is the lowest number, which is not an element. *)
Theorem C88_amax_inf_refuted : forall top : Qc,
  has_elements [3] (three (Inf true) (Inf true) (Inf true)) (fun _ => Inf true) /\
  extreme (amax_f fl_lt (Fin (- top)%Qc)) (Inf true) (Inf true) (Inf true) = Ok (Fin (- top)%Qc).
Proof.
  intros top. split; [|vm_compute; reflexivity]. destruct (three_elements (Inf true) (Inf true) (Inf true)) as [H1 H2]. split; [exact H1|].
  intros jx Hb. rewrite (H2 jx Hb). unfold three_ev. destruct (Z.to_nat (nth 0 jx 0)) as [|[|[|[|n]]]]; reflexivity.
Qed.
Print Assumptions C88_amax_inf_refuted.
(** NaN: whether the maximum is a NaN depends on the order of the elements. *)
Theorem C88_amax_nan_refuted : exists a b : fl,
  extreme (amax_f fl_lt (Fin (q (-100) 1))) NaN a b = Ok b /\ extreme (amax_f fl_lt (Fin (q (-100) 1))) a b NaN = Ok NaN /\ is_nan a = false /\ is_nan b = false.
Proof. exists (Fin (q 1 1)), (Fin (q 2 1)). repeat split; vm_compute; reflexivity. Qed.
Print Assumptions C88_amax_nan_refuted.

(** sign: -1, 0 or 1 as the argument is negative, zero or positive; NaN of NaN; of a complex number: the sign of the real part if it is not
    zero and that of the imaginary part otherwise. *)
Theorem C88_sign : (forall x, sign_int x = Z.sgn x) /\ (forall x, 0 <= x -> sign_uint x = Z.sgn x) /\
  (forall a, sign_fl (Fin a) = Fin (if qlt a 0%Qc then -(1) else if qlt 0%Qc a then 1 else 0)%Qc) /\
  sign_fl (Inf true) = Fin (-(1))%Qc /\ sign_fl (Inf false) = Fin 1%Qc /\ sign_fl NaN = NaN /\
  (forall a b, sign_complex (Fin a, b) = (if qlt a 0%Qc || qlt 0%Qc a then sign_fl (Fin a) else sign_fl b, Fin 0%Qc)).
Proof.
  split; [exact sign_int_ok|]. split; [exact sign_uint_ok|]. split; [exact sign_fl_ok|]. repeat split.
  intros a b. unfold sign_complex. cbn [fst snd fl_eq]. destruct (qlt a 0%Qc), (qlt 0%Qc a); reflexivity.
Qed.
Print Assumptions C88_sign.

(** nan_to_num: finite numbers are kept; NaN becomes 0, the infinities the extreme numbers. *)
Theorem C88_nan_to_num : forall top : Qc, (forall a, nan_to_num top (Fin a) = Fin a) /\
  nan_to_num top NaN = Fin 0%Qc /\ nan_to_num top (Inf false) = Fin top /\ nan_to_num top (Inf true) = Fin (- top)%Qc.
Proof. intros top. repeat split. Qed.
Print Assumptions C88_nan_to_num.

(** isclose of numbers: the distance is at most the absolute tolerance, or the relative tolerance times the greater magnitude. It is
    symmetric, and reflexive except for NaN; NaN is close to no number; infinities are close if they are equal. *)
Theorem C88_isclose :
  (forall rtol atol nn a b, (0 <= rtol)%Qc -> isclose (Fin rtol) (Fin atol) nn (Fin a) (Fin b) = true <->
     (Qcabs (a - b) <= atol \/ Qcabs (a - b) <= rtol * Qcabs a \/ Qcabs (a - b) <= rtol * Qcabs b)%Qc) /\
  (forall rtol atol nn a b, isclose rtol atol nn a b = isclose rtol atol nn b a) /\
  (forall rtol atol nn a, (0 <= atol)%Qc -> isclose rtol (Fin atol) nn a a = match a with NaN => nn | _ => true end) /\
  (forall rtol atol nn a, is_nan a = false -> isclose rtol atol nn NaN a = false) /\
  (forall rtol atol nn s t, isclose rtol atol nn (Inf s) (Inf t) = Bool.eqb s t).
Proof.
  split; [exact isclose_fin|]. split; [exact isclose_sym|]. split; [exact isclose_refl|].
  split; [intros rtol atol nn a H; apply isclose_nan; exact H|reflexivity].
Qed.
Print Assumptions C88_isclose.

(** The documented test |a - b| <= atol + rtol * |b| is neither necessary nor sufficient. *)
Theorem C88_isclose_doc_refuted :
  (exists rtol atol a b : Qc, (0 <= rtol)%Qc /\ (0 <= atol)%Qc /\
     (Qcabs (a - b) <= atol + rtol * Qcabs b)%Qc /\ isclose (Fin rtol) (Fin atol) false (Fin a) (Fin b) = false) /\
  (exists rtol atol a b : Qc, (0 <= rtol)%Qc /\ (0 <= atol)%Qc /\
     ~ (Qcabs (a - b) <= atol + rtol * Qcabs b)%Qc /\ isclose (Fin rtol) (Fin atol) false (Fin a) (Fin b) = true).
Proof. exact (conj doc_refuted doc_refuted2). Qed.
Print Assumptions C88_isclose_doc_refuted.
(** With a positive relative tolerance, an infinity is close to every number. *)
Theorem C88_isclose_inf_refuted : forall rtol atol nn s b, (0 < rtol)%Qc -> isclose (Fin rtol) (Fin atol) nn (Inf s) (Fin b) = true.
Proof. exact isclose_inf_fin. Qed.
Print Assumptions C88_isclose_inf_refuted.

(** allclose: whether all pairs of elements of the broadcast operands are close; operands that cannot be broadcast end the program, since
    allclose is declared noexcept. *)
Theorem C88_allclose : forall DT rtol atol s1 e1 v1 s2 e2 v2, is_order DT -> real_shape s1 -> real_shape s2 ->
  (forall ix, in_bounds s1 ix -> e1 ix = Ok (v1 ix)) -> (forall ix, in_bounds s2 ix -> e2 ix = Ok (v2 ix)) ->
  (compatible [s1; s2] -> exists b sh, allclose DT rtol atol s1 e1 s2 e2 = Returned b /\ broadcast_of [s1; s2] sh /\
     (b = true <-> forall ix, in_bounds sh ix -> isclose rtol atol false (v1 (bc_index s1 ix)) (v2 (bc_index s2 ix)) = true)) /\
  (~ compatible [s1; s2] -> allclose DT rtol atol s1 e1 s2 e2 = Terminated).
Proof. exact close_ok. Qed.
Print Assumptions C88_allclose.

(** all and any over the elements *)
Theorem C88_all_any : forall DT sh (e : list Z -> res bool) p, is_order DT -> (forall ix, in_bounds sh ix -> e ix = Ok (p ix)) ->
  (exists b, x_all DT sh e = Ok b /\ (b = true <-> forall ix, in_bounds sh ix -> p ix = true)) /\
  (exists b, x_any DT sh e = Ok b /\ (b = true <-> exists ix, in_bounds sh ix /\ p ix = true)).
Proof. exact all_ok. Qed.
Print Assumptions C88_all_any.

Example C88_case_close :
  allclose row_major (Fin (q 1 10)) (Fin (q 0 1)) [2; 1] (fun ix => Ok (Fin (q (10 + nth 0 ix 0) 1))) [1] (fun _ => Ok (Fin (q 10 1))) = Returned true /\
  allclose row_major (Fin (q 1 100)) (Fin (q 0 1)) [2; 1] (fun ix => Ok (Fin (q (10 + nth 0 ix 0) 1))) [1] (fun _ => Ok (Fin (q 10 1))) = Returned false /\
  allclose row_major (Fin (q 1 100)) (Fin (q 0 1)) [2] (fun ix => Ok NaN) [3] (fun _ => Ok NaN) = Terminated /\
  x_all column_major [2; 2] (fun ix => Ok (nth 0 ix 0 =? 0)) = Ok false /\ x_any column_major [2; 2] (fun ix => Ok (nth 0 ix 0 =? 1)) = Ok true /\
  x_all row_major [0] (fun _ => Ok false) = Ok true /\ x_any row_major [0] (fun _ => Ok true) = Ok false /\
  sign_int (-5) = -1 /\ isclose (Fin (q 1 10)) (Fin (q 1 100)) false (Fin (q 10 1)) (Fin (q 109 10)) = true.
Proof. repeat split; vm_compute; reflexivity. Qed.
