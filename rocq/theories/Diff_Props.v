(** C74: diff and trapz. *)
From Coq Require Import List ZArith Lia Bool QArith Qcanon.
From Verif Require Import Prelude Strides_Model Strides_Spec Container_Model Container_Spec Stepper_Model Broadcast_Spec Assign_Model Assign_Spec Semantic_Model Semantic_Spec Stats_Model Stats_Spec
  Diff_Model Diff_Spec Semantic6_Proofs Stats4_Proofs Diff2_Proofs Diff3_Proofs Diff4_Proofs Diff5_Proofs Diff6_Proofs.
Import ListNotations.
Open Scope Z_scope.

(** diff(a, n, axis), for any operands, element type and subtraction, and any axis counted from the front or the end:
    one result, n shorter along the axis (empty when n is not less than the extent) and the same elsewhere, whose
    elements are those of the n-th difference. The loop assigns to the array a difference of two views of itself.
    Missing: arrays that are empty because of another axis, see the refutation. *)
Theorem C74_diff_partial : forall (V : Type) (g : Z -> setup) (SL : layout) (D : option nat) (DL T : layout) (rs : list V -> Z -> list V) (v : V)
  (sub : V -> V -> V) (a : aexp V) (n axis : Z) (sh : list Z) (f : list Z -> V) (p : nat),
  setups_ok g -> is_order DL -> is_order T -> resizes rs -> SL <> any ->
  match D with Some k => length sh = k | None => True end ->
  has_values g a sh f -> is_shape sh -> Forall (fun n => n < 2 ^ 63) sh -> Z.of_nat (length sh) < 2 ^ 64 ->
  axis_names (length sh) axis p -> 0 <= n -> prod sh <> 0 \/ n = 0 \/ nth p sh 0 <= 0 ->
  exists ad, (forall r, diff g SL D DL T rs v sub a n axis r <-> r = Done ad) /\ well_formed SL D ad /\
    contains ad (at_axis p (fun k => Z.max 0 (k - n)) sh) (differences sub p (Z.to_nat n) f).
Proof. exact (fun V g SL D DL T rs v sub a n axis sh f p Hg HDL HT Hrs => diff_lemma g SL D DL T rs v Hg HDL HT Hrs sub a n axis sh f p). Qed.
Print Assumptions C74_diff_partial.

Example C74_case_diff : exists ad,
  has_values g0 (AIndexed [2; 5] (fun _ => squares)) [2; 5] squares /\ axis_names 2 (-1) 1 /\
  diff g0 row_major None row_major row_major rs0 0 Z.sub (AIndexed [2; 5] (fun _ => squares)) 2 (-1) (Done ad) /\ ct_shape ad = [2; 3] /\ elt ad [1; 2] = Ok 2.
Proof.
  assert (Ha : has_values g0 (AIndexed [2; 5] (fun _ => squares)) [2; 5] squares) by (apply generated; [repeat constructor; lia|discriminate]).
  assert (Hn : axis_names 2 (-1) 1) by (split; [lia|right; reflexivity]).
  destruct (C74_diff_partial Z g0 row_major None row_major row_major rs0 0 Z.sub _ 2 (-1) [2; 5] squares 1%nat g0_ok (or_introl eq_refl) (or_introl eq_refl) rs0_ok
    ltac:(discriminate) I Ha ltac:(repeat constructor; lia) ltac:(repeat constructor; lia) ltac:(cbn; lia) Hn ltac:(lia) ltac:(left; vm_compute; discriminate)) as (ad & H & _ & (Es & Hv)).
  exists ad. split; [exact Ha|]. split; [exact Hn|]. split; [apply H; reflexivity|]. split; [exact Es|]. rewrite Hv; [reflexivity|]. repeat constructor; cbn; lia.
Qed.

(** On integers that n-th difference is the alternating sum with the binomial coefficients. *)
Theorem C74_diff_binomial : forall (p n : nat) (f : list Z -> Z) (ix : list Z),
  differences Z.sub p n f ix = zsum (map (fun k => alternating n k * binomial n k * f (further p (Z.of_nat k) ix)) (seq 0 (S n))).
Proof. exact binomial_lemma. Qed.
Print Assumptions C74_diff_binomial.

Example C74_case_binomial : map (fun k => alternating 3 k * binomial 3 k) (seq 0 4) = [-1; 3; -3; 1].
Proof. reflexivity. Qed.

(** An array of shape (0, 3): the difference along axis 1 has shape (0, 0), not (0, 2). *)
Theorem C74_diff_empty_refuted : exists (g : Z -> setup) (rs : list Z -> Z -> list Z) (a : aexp Z) (f : list Z -> Z) (ad : cont Z),
  setups_ok g /\ resizes rs /\ has_values g a [0; 3] f /\ axis_names 2 1 1 /\
  (forall r, diff g row_major None row_major row_major rs 0 Z.sub a 1 1 r <-> r = Done ad) /\ ct_shape ad = [0; 0].
Proof. exact diff_empty_lemma. Qed.
Print Assumptions C74_diff_empty_refuted.

(** trapz(y, dx, axis): the shape of y without the axis; every element is the sum of the areas of the trapezoids of
    width dx along the axis, 0 when there are fewer than two points. *)
Theorem C74_trapz : forall (SLy : layout) (Dy : option nat) (T : layout) (y : cont num) (sh : list Z) (yv : list Z -> Qc) (d : Qc) (axis : Z) (p : nat),
  is_order T -> well_formed SLy Dy y -> contains y sh (fun ix => Some (yv ix)) -> axis_names (length sh) axis p ->
  Forall (fun n => n < 2 ^ 63) sh -> Z.of_nat (length sh) < 2 ^ 64 ->
  exists q, trapz T y (Some d) axis = Ok q /\ q_shape q = drop_axis p sh /\
    forall ix, in_bounds (drop_axis p sh) ix ->
      q_at q ix = Ok (Some (trapezoids (nth p sh 0) (fun _ => d) (fun i => yv (insert_axis p i ix)))).
Proof. exact (fun SLy Dy T y sh yv d axis p HT => trapz_lemma SLy Dy T HT y sh yv d axis p). Qed.
Print Assumptions C74_trapz.

Example C74_case_trapz : (exists y, well_formed row_major None y /\ contains y [2; 3] (fun ix => Some (nine_ev ix))) /\ axis_names 2 (-1) 1 /\
  drop_axis 1 [2; 3] = [2] /\ this (trapezoids 3 (fun _ => q 2) (fun i => nine_ev (insert_axis 1 i [1]))) = (23 # 1)%Q.
Proof. split; [apply some_numbers; [repeat constructor; lia|discriminate]|]. split; [split; [lia|right; reflexivity]|]. split; vm_compute; reflexivity. Qed.

(** trapz(y, x, axis) with as many points x, in one dimension, as y has along the axis: the widths are the
    differences of consecutive points. *)
Theorem C74_trapz_line : forall (SLy : layout) (Dy : option nat) (T : layout) (g : Z -> setup) (SL : layout) (D : option nat) (DL : layout) (rs : list num -> Z -> list num)
  (y : cont num) (x : aexp num) (sh : list Z) (yv : list Z -> Qc) (xv : Z -> Qc) (axis : Z) (p : nat),
  is_order T -> setups_ok g -> is_order DL -> resizes rs ->
  well_formed SLy Dy y -> contains y sh (fun ix => Some (yv ix)) -> axis_names (length sh) axis p -> Forall (fun n => n < 2 ^ 63) sh -> Z.of_nat (length sh) < 2 ^ 64 ->
  SL <> any -> match D with Some k => k = 1%nat /\ length sh = 1%nat | None => True end ->
  has_values g x [nth p sh 0] (fun ix => Some (xv (nth 0 ix 0))) ->
  exists q, (forall r, trapz_x g SL D DL T rs y x axis r <-> r = Ok q) /\ q_shape q = drop_axis p sh /\
    forall ix, in_bounds (drop_axis p sh) ix ->
      q_at q ix = Ok (Some (trapezoids (nth p sh 0) (fun i => xv (i + 1)%Z - xv i)%Qc (fun i => yv (insert_axis p i ix)))).
Proof. exact (fun SLy Dy T g SL D DL rs y x sh yv xv axis p HT Hg HDL Hrs => trapz_x_line SLy Dy T HT g SL D DL rs Hg HDL Hrs y x sh yv xv axis p). Qed.
Print Assumptions C74_trapz_line.

(** The same with x of the shape of y, of any dimension but one. Missing: arrays that are empty because of another
    axis; x of a third shape that broadcasts. *)
Theorem C74_trapz_points_partial : forall (SLy : layout) (Dy : option nat) (T : layout) (g : Z -> setup) (SL : layout) (D : option nat) (DL : layout) (rs : list num -> Z -> list num)
  (y : cont num) (x : aexp num) (sh : list Z) (yv xv : list Z -> Qc) (axis : Z) (p : nat),
  is_order T -> setups_ok g -> is_order DL -> resizes rs ->
  well_formed SLy Dy y -> contains y sh (fun ix => Some (yv ix)) -> axis_names (length sh) axis p -> Forall (fun n => n < 2 ^ 63) sh -> Z.of_nat (length sh) < 2 ^ 64 ->
  SL <> any -> match D with Some k => length sh = k | None => True end ->
  has_values g x sh (fun ix => Some (xv ix)) -> length sh <> 1%nat -> prod sh <> 0 \/ nth p sh 0 <= 0 ->
  exists q, (forall r, trapz_x g SL D DL T rs y x axis r <-> r = Ok q) /\ q_shape q = drop_axis p sh /\
    forall ix, in_bounds (drop_axis p sh) ix ->
      q_at q ix = Ok (Some (trapezoids (nth p sh 0) (fun i => xv (insert_axis p (i + 1)%Z ix) - xv (insert_axis p i ix))%Qc (fun i => yv (insert_axis p i ix)))).
Proof. exact (fun SLy Dy T g SL D DL rs y x sh yv xv axis p HT Hg HDL Hrs => trapz_x_same SLy Dy T HT g SL D DL rs Hg HDL Hrs y x sh yv xv axis p). Qed.
Print Assumptions C74_trapz_points_partial.

Example C74_case_points : resizes rsn /\ setups_ok g0 /\ has_values g0 (AIndexed [3] (fun _ ix => Some (q (nth 0 ix 0 * nth 0 ix 0)))) [3] (fun ix => Some (q (nth 0 ix 0 * nth 0 ix 0))) /\
  has_values g0 (AIndexed [2; 3] (fun _ ix => Some (nine_ev ix))) [2; 3] (fun ix => Some (nine_ev ix)) /\
  this (trapezoids 3 (fun i => q ((i + 1) * (i + 1)) - q (i * i))%Qc (fun i => nine_ev (insert_axis 1 i [1]))) = (51 # 2)%Q.
Proof.
  split; [exact rsn_ok|]. split; [exact g0_ok|]. split; [apply (generated g0 [3] (fun ix => Some (q (nth 0 ix 0 * nth 0 ix 0)))); [repeat constructor; lia|discriminate]|].
  split; [apply (generated g0 [2; 3] (fun ix => Some (nine_ev ix))); [repeat constructor; lia|discriminate]|]. vm_compute; reflexivity.
Qed.
