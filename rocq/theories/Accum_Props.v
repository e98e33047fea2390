(** Property C43: accumulations (cumsum, cumprod, nancumsum, ...). *)
From Coq Require Import List ZArith Lia.
From Verif Require Import Prelude Strides_Model Strides_Spec Container_Model Container_Spec Container_Proofs
  Reduce7_Proofs Reduce15_Proofs Accum_Model Accum_Spec Accum3_Proofs.
Import ListNotations.
Open Scope Z_scope.

(** C43, along an axis. For every container of a row or column major type, every
    axis in [-dim, dim) and every functor, the result has the shape and layout of
    the argument and its element at an index is the accumulation of the elements
    along the axis up to that index, starting from the first one passed to the
    initialisation functor if there is one.
    Missing, and refuted below: types with a dynamic layout, and, with an
    initialisation functor (nancumsum, nancumprod), unit extents next to others on
    the same side of the axis. *)
Theorem C43_axis_partial : forall (R : Type) (f : R -> R -> R) (init : option (R -> R)) (c : cont R) (ev : list Z -> R) (axis : Z),
  consistent c -> is_order (ct_layout c) -> documented c -> prod (ct_shape c) < 2 ^ 64 ->
  Z.of_nat (length (ct_shape c)) < 2 ^ 63 ->
  (forall jx, in_bounds (ct_shape c) jx -> elt c jx = Ok (ev jx)) ->
  - Z.of_nat (length (ct_shape c)) <= axis < Z.of_nat (length (ct_shape c)) ->
  let ax := Z.to_nat (axis mod Z.of_nat (length (ct_shape c))) in
  (init <> None -> no_units (firstn ax (ct_shape c)) /\ no_units (skipn (S ax) (ct_shape c))) ->
  exists r, accumulate_axis f (ct_layout c) init c axis = Ok r /\ consistent r /\ ct_shape r = ct_shape c /\ ct_layout r = ct_layout c /\
    forall ix, in_bounds (ct_shape c) ix -> elt r ix = Ok (accumulated f (init_fun init) ev ax ix).
Proof. exact (@axis_full_lemma). Qed.
Print Assumptions C43_axis_partial.

(** The cumulated sums of the columns of a 2x3 array. *)
Example C43_case_axis :
  consistent ten /\ documented ten /\ (forall jx, in_bounds (ct_shape ten) jx -> elt ten jx = Ok (six_ev jx)) /\
  (let* r := accumulate_axis Z.add row_major None ten (-2) in Ok (ct_shape r, ct_data r)) = Ok ([2;3], [1;2;3;5;7;9]) /\
  accumulated Z.add (fun x => x) six_ev 0 [1;2] = 9.
Proof.
  split; [exact ten_consistent|]. split; [apply ck_documented; left; reflexivity|]. split; [exact ten_elt|].
  split; vm_compute; reflexivity.
Qed.

(** C43, invalid axes are reported by std::runtime_error. *)
Theorem C43_bad_axis : forall (R : Type) (f : R -> R -> R) (SL : layout) (init : option (R -> R)) (c : cont R) (axis : Z),
  Z.of_nat (length (ct_shape c)) < 2 ^ 63 -> - 2 ^ 63 <= axis < 2 ^ 63 ->
  ~ - Z.of_nat (length (ct_shape c)) <= axis < Z.of_nat (length (ct_shape c)) ->
  accumulate_axis f SL init c axis = Throw runtime_error.
Proof. exact (@bad_axis_lemma). Qed.
Print Assumptions C43_bad_axis.

Example C43_case_bad_axis : accumulate_axis Z.add row_major None ten (-3) = Throw runtime_error.
Proof. vm_compute. reflexivity. Qed.

(** C43, the hypothesis on the strides holds of every container obtained by a
    history of constructions, resizes, reshapes, writes and assignments from such
    containers (the histories of C21). *)
Theorem C43_documented_strides : forall (V : Type) (SL DL : layout) (rs : list V -> Z -> list V) (n : nat) (v : V) (os : list cop) (c : cont V),
  history_ok SL DL rs (c_default SL n v) os -> (forall d, In (C_assign d) os -> documented d) ->
  c_run SL DL rs (c_default SL n v) os = Ok c -> documented c.
Proof. exact (@documented_lemma). Qed.
Print Assumptions C43_documented_strides.

Example C43_case_documented :
  history_ok row_major row_major fill_fresh (c_default row_major 0 0) [C_resize [2;3] false; C_reshape_unsigned [3;1;2] row_major] /\
  (let* c := c_run row_major row_major fill_fresh (c_default row_major 0 0) [C_resize [2;3] false; C_reshape_unsigned [3;1;2] row_major] in
   Ok (ct_shape c, ct_strides c)) = Ok ([3;1;2], [2;0;1]).
Proof.
  split; [|vm_compute; reflexivity]. cbn [history_ok op_ok]. split; [repeat constructor; lia|].
  intros c' _. split; [repeat constructor; lia|]. intros; exact I.
Qed.

(** C43, without axis: the result of xarray or one-dimensional xtensor type is the
    one-dimensional array of the accumulations of the elements in traversal order.
    Missing: xtensor of other dimensions, refuted below. *)
Theorem C43_flat_partial : forall (R : Type) (f : R -> R -> R) (SL DL : layout) (fresh : list R -> Z -> list R) (r0 : R) (dim : option nat)
    (init : option (R -> R)) (vals : list R),
  (forall d n, 0 <= n -> Z.of_nat (length (fresh d n)) = n) -> is_order SL \/ (SL = dynamic /\ is_order DL) -> dim = None \/ dim = Some 1%nat ->
  exists r, acc_flat f SL DL fresh r0 dim init vals = Ok r /\ consistent r /\ ct_shape r = [Z.of_nat (length vals)] /\
    forall k, (k < length vals)%nat -> elt r [Z.of_nat k] = Ok (accumulated_seq f (init_fun init) vals r0 k).
Proof. exact (@flat_full_lemma). Qed.
Print Assumptions C43_flat_partial.

Example C43_case_flat :
  (let* r := acc_flat Z.mul column_major row_major fill_fresh 0 None None [1;2;3;4] in Ok (ct_data r)) = Ok [1;2;6;24] /\
  accumulated_seq Z.mul (fun x => x) [1;2;3;4] 0 3 = 24.
Proof. split; vm_compute; reflexivity. Qed.

(** C43 refuted: cumsum without axis of a 2-dimensional xtensor of 6 elements makes
    a 6x0 result and writes outside its storage. *)
Theorem C43_flat_tensor_refuted : exists (vals : list Z),
  length vals = 6%nat /\ acc_flat Z.add row_major row_major fill_fresh 0 (Some 2%nat) None vals = UB.
Proof. exact flat_tensor_refuted_lemma. Qed.
Print Assumptions C43_flat_tensor_refuted.

(** C43 refuted for a dynamic layout: the cumulated sums of the rows of
    [[1,2,3],[4,5,6]] in a row major container of dynamic type; the second row
    continues the first. *)
Theorem C43_dynamic_refuted : exists (c r : cont Z),
  consistent c /\ documented c /\ ct_layout c = row_major /\ ct_shape c = [2;3] /\ ct_data c = [1;2;3;4;5;6] /\
  accumulate_axis Z.add dynamic None c 1 = Ok r /\ elt r [1;0] = Ok 10 /\ accumulated Z.add (fun x => x) six_ev 1 [1;0] = 4.
Proof. exact dynamic_refuted_lemma. Qed.
Print Assumptions C43_dynamic_refuted.

(** C43 refuted for an initialisation functor with a unit extent: nancumsum along
    axis 2 of a 2x1x2 array ignores a NaN (here -1) at the start of the second row
    only in the first one. *)
Theorem C43_init_unit_refuted : exists (c r : cont Z) (ev : list Z -> Z),
  consistent c /\ documented c /\ ct_layout c = row_major /\ ct_shape c = [2;1;2] /\ ct_data c = [1;2;-1;5] /\
  (forall jx, in_bounds (ct_shape c) jx -> elt c jx = Ok (ev jx)) /\
  accumulate_axis nan_add row_major (Some nan_zero) c 2 = Ok r /\ elt r [1;0;1] = Ok 4 /\ accumulated nan_add nan_zero ev 2 [1;0;1] = 5.
Proof. exact init_unit_refuted_lemma. Qed.
Print Assumptions C43_init_unit_refuted.
