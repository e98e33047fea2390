(** C72: means, variances and weighted averages. *)
From Coq Require Import List ZArith Lia Bool QArith Qcanon.
From Verif Require Import Prelude Strides_Model Strides_Spec Container_Spec Stepper_Model Reduce_Model Reduce_Spec Stats_Model Stats_Spec
  Stats_Proofs Stats2_Proofs Stats3_Proofs Stats4_Proofs.
Import ListNotations.
Open Scope Z_scope.

(** mean(e, axes), with and without keep_dims, for axes counted from the front or the end: the
    mean of the elements that are reduced, no number when there are none. *)
Theorem C72_mean : forall (esh : list Z) (e : sexp num) (ev : list Z -> Qc) (axes pos : list Z) (keep : bool),
  addressable esh -> finite esh e ev -> names (length esh) axes pos -> valid_axes (length esh) pos ->
  reduces (mean_axes esh e axes keep) keep pos esh (fun b => mean_of (map ev b)).
Proof. exact mean_lemma. Qed.
Print Assumptions C72_mean.

Example C72_case_mean : addressable [2; 3] /\ finite [2; 3] nine nine_ev /\ names 2 [-1] [1] /\ valid_axes 2 [1] /\
  reading (mean_axes [2; 3] nine [-1] false) [1] = Ok (Some 6%Q) /\ reading (mean_axes [2; 3] nine [0] true) [0; 0] = Ok (Some (5 # 2)%Q).
Proof.
  split; [exact nine_addressable|]. split; [exact nine_finite|]. split; [repeat constructor; lia|]. split; [repeat constructor; lia|].
  split; vm_compute; reflexivity.
Qed.

(** mean(e) *)
Theorem C72_mean_all : forall (esh : list Z) (e : sexp num) (ev : list Z -> Qc) (keep : bool),
  addressable esh -> finite esh e ev -> reduces (mean_all esh e keep) keep (all_axes (length esh)) esh (fun b => mean_of (map ev b)).
Proof. exact mean_all_lemma. Qed.
Print Assumptions C72_mean_all.

Example C72_case_mean_all : reading (mean_all [2; 3] nine false) [] = Ok (Some 4%Q).
Proof. vm_compute. reflexivity. Qed.

(** variance(e, axes, ddof): the sum of the squares of the distances to the mean of the elements
    that are reduced, divided by their number less ddof. When the result has more than one element,
    this is so for ddof 0 and 1 only: see the refutation. Missing: axes counted from the end, see
    the other two refutations. *)
Theorem C72_variance_partial : forall (esh : list Z) (e : sexp num) (ev : list Z -> Qc) (axes : list Z) (keep : bool) (ddof : Z),
  addressable esh -> finite esh e ev -> valid_axes (length esh) axes ->
  0 <= ddof -> ddof <= 1 \/ prod (red_shape keep axes esh) = 1 -> ddof * prod (red_shape keep axes esh) <= prod esh ->
  reduces (variance_axes esh e axes ddof keep) keep axes esh (fun b => variance_of ddof (map ev b)).
Proof. exact variance_lemma. Qed.
Print Assumptions C72_variance_partial.

Example C72_case_variance : valid_axes 2 [1] /\ 1 * prod (red_shape false [1] [2; 3]) <= prod [2; 3] /\
  reading (variance_axes [2; 3] nine [1] 0 false) [1] = Ok (Some (14 # 3)%Q) /\ reading (variance_axes [2; 3] nine [1] 1 true) [1; 0] = Ok (Some 7%Q).
Proof. split; [repeat constructor; lia|]. split; [vm_compute; discriminate|]. split; vm_compute; reflexivity. Qed.

(** variance(e, ddof), over all the elements *)
Theorem C72_variance_all : forall (esh : list Z) (e : sexp num) (ev : list Z -> Qc) (keep : bool) (ddof : Z),
  addressable esh -> finite esh e ev -> 0 <= ddof <= prod esh ->
  reduces (variance_all esh e ddof keep) keep (all_axes (length esh)) esh (fun b => variance_of ddof (map ev b)).
Proof. exact variance_all_lemma. Qed.
Print Assumptions C72_variance_all.

Example C72_case_variance_all : 2 <= prod [2; 3] /\ reading (variance_all [2; 3] nine 2 false) [] = Ok (Some 10%Q) /\ reading (variance_all [2; 3] nine 2 true) [0; 0] = Ok (Some 10%Q).
Proof. split; [vm_compute; discriminate|]. split; vm_compute; reflexivity. Qed.

(** ddof is taken from the number of all elements before dividing by the number of results: for
    ddof 2 and more, and more than one result, the divisor is always too large. *)
Theorem C72_ddof_refuted : forall (esh : list Z) (e : sexp num) (ev : list Z -> Qc) (axes : list Z) (keep : bool) (ddof : Z),
  addressable esh -> finite esh e ev -> valid_axes (length esh) axes ->
  2 <= ddof -> 2 <= prod (red_shape keep axes esh) -> ddof * prod (red_shape keep axes esh) <= prod esh ->
  exists r, variance_axes esh e axes ddof keep = Ok r /\
    forall ix, in_bounds (red_shape keep axes esh) ix -> let l := map ev (block row_major keep axes esh ix) in
      exists d, Z.of_nat (length l) - ddof < d /\ q_at r ix = Ok (quotient (deviations l) (Q2Qc (inject_Z d))).
Proof. exact ddof_lemma. Qed.
Print Assumptions C72_ddof_refuted.

Example C72_case_ddof : 2 * prod (red_shape false [1] [2; 3]) <= prod [2; 3] /\ reading (variance_axes [2; 3] nine [1] 2 false) [1] = Ok (Some 7%Q) /\
  option_map this (variance_of 2 [q 4; q 5; q 9]) = Some 14%Q.
Proof. split; [vm_compute; discriminate|]. split; vm_compute; reflexivity. Qed.

(** Axes counted from the end, accepted by mean and the other reducers: a container of signed axes
    makes variance write before the beginning of a shape; *)
Theorem C72_negative_refuted : forall (esh : list Z) (e : sexp num) (ev : list Z -> Qc) (axes pos : list Z) (ddof : Z) (keep : bool),
  addressable esh -> finite esh e ev -> names (length esh) axes pos -> valid_axes (length esh) pos ->
  Exists (fun a => a < 0) axes -> variance_axes esh e axes ddof keep = UB.
Proof. exact negative_lemma. Qed.
Print Assumptions C72_negative_refuted.

Example C72_case_negative : names 2 [-1] [1] /\ valid_axes 2 [1] /\ Exists (fun a => a < 0) [-1].
Proof. split; [repeat constructor; lia|]. split; [repeat constructor; lia|]. constructor. lia. Qed.

(** in braces they are rejected. *)
Theorem C72_braces_refuted : forall (esh : list Z) (e : sexp num) (ddof : Z) (keep : bool),
  esh <> [] -> Z.of_nat (length esh) < 2 ^ 64 - 1 -> variance_braces esh e [-1] ddof keep = Throw runtime_error.
Proof. exact braces_lemma. Qed.
Print Assumptions C72_braces_refuted.

(** average(e, weights, {axis}) with one weight for each index along the axis, counted from the
    front or the end *)
Theorem C72_average_axis : forall (esh : list Z) (e : sexp num) (ev : list Z -> Qc) (L : layout) (w : Z -> Qc) (a p : Z) (keep : bool),
  addressable esh -> finite esh e ev -> is_order L -> names (length esh) [a] [p] ->
  reduces (average_axes esh e L [nth (Z.to_nat p) esh 0] (fun jx => Some (w (hd 0 jx))) [a] keep) keep [p] esh
    (fun b => weighted_mean (map (fun jx => (ev jx, w (nth (Z.to_nat p) jx 0))) b)).
Proof. exact average_axis_lemma. Qed.
Print Assumptions C72_average_axis.

Example C72_case_average_axis : names 2 [-2] [0] /\
  reading (average_axes [2; 3] nine row_major [2] (fun jx => Some (q (hd 0 jx + 1))) [-2] false) [2] = Ok (Some 7%Q).
Proof. split; [repeat constructor; lia|]. vm_compute. reflexivity. Qed.

(** average(e, weights, axes) with one weight for each element. Missing: keep_dims, see the
    refutation. (Weights with one axis are those of the theorem above.) *)
Theorem C72_average_weights_partial : forall (esh : list Z) (e : sexp num) (ev : list Z -> Qc) (L : layout) (w : list Z -> Qc) (axes pos : list Z),
  addressable esh -> finite esh e ev -> is_order L -> names (length esh) axes pos -> valid_axes (length esh) pos -> length esh <> 1%nat ->
  reduces (average_axes esh e L esh (fun jx => Some (w jx)) axes false) false pos esh (fun b => weighted_mean (map (fun jx => (ev jx, w jx)) b)).
Proof. exact average_same_lemma. Qed.
Print Assumptions C72_average_weights_partial.

Example C72_case_average_weights :
  reading (average_axes [2; 3] nine column_major [2; 3] (fun jx => Some (q (nth 1 jx 0))) [1] false) [1] = Ok (Some (23 # 3)%Q).
Proof. vm_compute. reflexivity. Qed.

(** average(e, weights) *)
Theorem C72_average_all : forall (esh : list Z) (e : sexp num) (ev : list Z -> Qc) (w : sexp num) (wv : list Z -> Qc) (keep : bool),
  addressable esh -> finite esh e ev -> finite esh w wv ->
  reduces (average_all esh e esh w keep) keep (all_axes (length esh)) esh (fun b => weighted_mean (map (fun jx => (ev jx, wv jx)) b)).
Proof. exact average_all_lemma. Qed.
Print Assumptions C72_average_all.

Example C72_case_average_all : reading (average_all [2; 3] nine [2; 3] nine false) [] = Ok (Some (17 # 3)%Q).
Proof. vm_compute. reflexivity. Qed.

(** Weights that do not fit are rejected. *)
Theorem C72_weights : forall (esh : list Z) (e : sexp num) (L : layout) (wsh : list Z) (w : list Z -> num) (we : sexp num) (axes : list Z) (a p n : Z) (keep : bool),
  (wsh <> esh -> average_all esh e wsh we keep = Throw runtime_error) /\
  (wsh <> esh -> length wsh <> 1%nat -> average_axes esh e L wsh w axes keep = Throw runtime_error) /\
  (Z.of_nat (length esh) < 2 ^ 64 -> names (length esh) [a] [p] -> n <> nth (Z.to_nat p) esh 0 -> average_axes esh e L [n] w [a] keep = Throw runtime_error).
Proof.
  intros. split; [apply average_reject_lemma|]. split; [apply weights_reject_lemma|apply weights_reject_1_lemma].
Qed.
Print Assumptions C72_weights.

Example C72_case_weights : [3; 2] <> [2; 3] /\ names 2 [0] [0] /\ 3 <> nth (Z.to_nat 0) [2; 3] 0.
Proof. split; [discriminate|]. split; [constructor; [lia|constructor]|vm_compute; discriminate]. Qed.

(** One weight for each index along the first of several axes is accepted too, but the sum of the
    weights is then taken once, not once for each element: the average of ones is 2. *)
Theorem C72_average_axes_refuted : exists r, finite [2; 2] ones (fun _ => q 1) /\
  average_axes [2; 2] ones row_major [2] (fun _ => Some (q 1)) [0; 1] false = Ok r /\ q_at r [] = Ok (Some (q 2)).
Proof. destruct average_axes_refuted_lemma as (r & H). exists r. split; [exact ones_finite|exact H]. Qed.
Print Assumptions C72_average_axes_refuted.

(** keep_dims is passed to one of the two sums only: the shapes of the two do not fit, and the
    average has another shape than any reduction. *)
Theorem C72_average_keep_refuted : exists r, average_axes [2; 2] ones row_major [2; 2] (fun _ => Some (q 1)) [1] true = Ok r /\
  q_shape r = [2; 2] /\ red_shape true [1] [2; 2] = [2; 1].
Proof. exact average_keep_refuted_lemma. Qed.
Print Assumptions C72_average_keep_refuted.
