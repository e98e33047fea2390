(** Property C42: an immediate reduction is the fold of the elements along the axes. *)
From Coq Require Import List ZArith Lia Sorted.
From Verif Require Import Prelude Strides_Model Strides_Spec Container_Model Container_Spec Container_Proofs Stepper_Model Stepper_Spec
  Reduce_Model Reduce_Spec Reduce7_Proofs Reduce15_Proofs.
Import ListNotations.
Open Scope Z_scope.

(** C42, elements. For every row or column major container, all increasing axes in
    range, with and without keep_dims and an initial value, and whatever the storage
    of the result contains after its resize: the reduction returns a consistent
    container of the layout of the argument, with the shape of the argument without
    the axes (extent 1 there if they are kept), whose element at an index is the
    fold, from the initial value, of the elements of the argument that agree with
    the index, in the order of the layout.
    Missing from the full statement, and refuted below: a result with elements from
    an argument without, and an initial value or a functor that changes the elements
    when the axes are empty or only unit axes are reduced ([copied]). The initial
    value has to commute under merge. *)
Theorem C42_elements_partial : forall (T R : Type) (f : rfun T R) (SL DL : layout) (conv : option (T -> R))
    (fresh : list R -> Z -> list R) (r0 : R) (keep : bool) (initial : option R) (c : cont T) (axes : list Z) (ev : list Z -> T),
  (forall d n, 0 <= n -> Z.of_nat (length (fresh d n)) = n) ->
  consistent c -> is_order (ct_layout c) -> SL = dynamic \/ SL = ct_layout c -> unit_strides_zero c ->
  Z.of_nat (length (ct_shape c)) < 2 ^ 64 ->
  (forall jx, in_bounds (ct_shape c) jx -> elt c jx = Ok (ev jx)) ->
  valid_axes (length (ct_shape c)) axes ->
  Forall (fun d => 0 < d) (ct_shape c) \/ axes = [] \/ length axes = length (ct_shape c) ->
  (copied (ct_layout c) axes (ct_shape c) -> initial = None /\ forall g x, conv = Some g -> g x = rf_reduce f (rf_init f) x) ->
  law_if_needed f axes initial ->
  (forall i, initial = Some i -> forall v, rf_merge f v i = rf_merge f i v) ->
  exists r, reduce_immediate f SL DL conv fresh r0 keep initial c axes = Ok r /\
    consistent r /\ ct_shape r = red_shape keep axes (ct_shape c) /\ ct_layout r = ct_layout c /\
    forall ix, in_bounds (red_shape keep axes (ct_shape c)) ix ->
      elt r ix = Ok (reduced f initial (ct_layout c) keep axes (ct_shape c) ev ix).
Proof. exact (@immediate_full_lemma). Qed.
Print Assumptions C42_elements_partial.

(** Column sums of a 2x3 array, from 100. *)
Example C42_case_elements :
  consistent ten /\ unit_strides_zero ten /\ valid_axes 2 [0] /\
  (forall jx, in_bounds (ct_shape ten) jx -> elt ten jx = Ok (six_ev jx)) /\
  ~ copied row_major [0] [2;3] /\ law_if_needed plus_fun [0] (Some 100) /\
  (let* r := reduce_immediate plus_fun row_major row_major (Some (fun x => x)) fill_fresh 0 true (Some 100) ten [0] in
   Ok (ct_shape r, ct_data r)) = Ok ([1;3], [105;107;109]).
Proof.
  split; [exact ten_consistent|]. split; [intros [|[|i]]; cbn; intros; lia|]. split; [exact six_axes|].
  split; [exact ten_elt|]. split.
  - intros [H|[_ H]]; [discriminate H|]. specialize (H 0%nat 0 ltac:(cbn; lia) (or_introl eq_refl) ltac:(cbn; lia)). discriminate H.
  - split; [right; exact plus_law|]. vm_compute. reflexivity.
Qed.

(** C42, unit strides: the hypothesis [unit_strides_zero] holds of every container
    obtained by any history of constructions, resizes, reshapes, writes and
    assignments from such containers, that is given no strides by the user. *)
Theorem C42_unit_strides : forall (V : Type) (SL DL : layout) (rs : list V -> Z -> list V) (n : nat) (v : V) (os : list cop) (c : cont V),
  (forall s st, ~ In (C_resize_strides s st) os) -> (forall d, In (C_assign d) os -> unit_strides_zero d) ->
  c_run SL DL rs (c_default SL n v) os = Ok c -> unit_strides_zero c.
Proof. exact (@unit_strides_lemma). Qed.
Print Assumptions C42_unit_strides.

Example C42_case_unit_strides :
  (let* c := c_run row_major row_major fill_fresh (c_default row_major 0 0) [C_resize [2;3] false; C_reshape_unsigned [3;1;2] row_major] in
   Ok (ct_shape c, ct_strides c)) = Ok ([3;1;2], [2;0;1]).
Proof. vm_compute. reflexivity. Qed.

(** C42, strategies: under the same hypotheses, on a row major container, the
    immediate and the lazy reduction have the same shape and elements. *)
Theorem C42_agrees_with_lazy_partial : forall (T R : Type) (f : rfun T R) (dflt : R) (SL DL : layout) (conv : option (T -> R))
    (fresh : list R -> Z -> list R) (r0 : R) (keep : bool) (initial : option R) (c : cont T) (axes : list Z) (e : sexp T) (ev : list Z -> T),
  (forall d n, 0 <= n -> Z.of_nat (length (fresh d n)) = n) ->
  consistent c -> ct_layout c = row_major -> SL = dynamic \/ SL = row_major -> unit_strides_zero c ->
  Z.of_nat (length (ct_shape c)) < 2 ^ 64 ->
  (forall jx, in_bounds (ct_shape c) jx -> elt c jx = Ok (ev jx)) -> has_elements (ct_shape c) e ev ->
  valid_axes (length (ct_shape c)) axes ->
  Forall (fun d => 0 < d) (ct_shape c) \/ axes = [] \/ length axes = length (ct_shape c) ->
  (copied row_major axes (ct_shape c) -> initial = None /\ forall g x, conv = Some g -> g x = rf_reduce f (rf_init f) x) ->
  law_if_needed f axes initial ->
  (forall i, initial = Some i -> forall v, rf_merge f v i = rf_merge f i v) ->
  exists r z, reduce_immediate f SL DL conv fresh r0 keep initial c axes = Ok r /\ make_reducer (ct_shape c) axes keep initial = Ok z /\
    ct_shape r = r_shape z /\
    forall ix, in_bounds (r_shape z) ix -> exists v, elt r ix = Ok v /\
      rs_element f dflt (ct_shape c) (x_ops (ct_shape c) e) (x_deref e) z (x_begin e) ix = Ok v.
Proof. exact (@agree_lemma). Qed.
Print Assumptions C42_agrees_with_lazy_partial.

Example C42_case_agrees :
  has_elements (ct_shape ten) six six_ev /\
  (let* r := reduce_immediate plus_fun row_major row_major None fill_fresh 0 false None ten [1] in Ok (ct_data r)) = Ok [6;15] /\
  (let* z := make_reducer [2;3] [1] false None in
   rs_element plus_fun 0 [2;3] (x_ops [2;3] six) (x_deref six) z (x_begin six) [1]) = Ok 15.
Proof. split; [exact six_elements|]. split; vm_compute; reflexivity. Qed.

(** C42, invalid axes: on a container of one dimension or more, axes that are not
    increasing, or repeated, or out of range, are reported by std::runtime_error. *)
Theorem C42_bad_axes : forall (T R : Type) (f : rfun T R) (SL DL : layout) (conv : option (T -> R)) (fresh : list R -> Z -> list R) (r0 : R)
    (keep : bool) (initial : option R) (c : cont T) (axes : list Z),
  Z.of_nat (length (ct_shape c)) < 2 ^ 64 -> ct_shape c <> [] -> Forall (fun a => 0 <= a) axes ->
  ~ valid_axes (length (ct_shape c)) axes ->
  reduce_immediate f SL DL conv fresh r0 keep initial c axes = Throw runtime_error.
Proof. exact (@immediate_bad_axes_lemma). Qed.
Print Assumptions C42_bad_axes.

Example C42_case_bad_axes : ~ valid_axes (length (ct_shape ten)) [1;0].
Proof. intros [H _]. inversion H as [|? ? _ HF]; subst. inversion HF; subst. lia. Qed.

(** C42 refuted for arguments without elements: the sum of the columns of a 0x3
    array, 3 zeros, reads outside the storage. *)
Theorem C42_empty_refuted : exists (c : cont Z) (axes : list Z),
  consistent c /\ unit_strides_zero c /\ ct_layout c = row_major /\ valid_axes (length (ct_shape c)) axes /\ merge_law plus_fun /\
  ct_shape c = [0; 3] /\ red_shape false axes (ct_shape c) = [3] /\
  reduce_immediate plus_fun row_major row_major (Some (fun x => x)) fill_fresh 0 false None c axes = UB.
Proof. exact empty_refuted_lemma. Qed.
Print Assumptions C42_empty_refuted.

(** C42 refuted for a functor that changes the elements: norm_l1 of [[-5, 7]] along
    axis 0 is [5, 7]; the immediate reduction returns [-5, 7]. *)
Theorem C42_copy_functor_refuted : exists (c r : cont Z) (ev : list Z -> Z),
  consistent c /\ unit_strides_zero c /\ ct_layout c = row_major /\ ct_shape c = [1; 2] /\ ct_data c = [-5; 7] /\ merge_law abs_fun /\
  (forall jx, in_bounds (ct_shape c) jx -> elt c jx = Ok (ev jx)) /\
  reduce_immediate abs_fun row_major row_major (Some (fun x => x)) fill_fresh 0 false None c [0] = Ok r /\
  ct_shape r = [2] /\ elt r [0] = Ok (-5) /\ reduced abs_fun None row_major false [0] (ct_shape c) ev [0] = 5.
Proof. exact copy_functor_refuted_lemma. Qed.
Print Assumptions C42_copy_functor_refuted.

(** C42 refuted for an initial value: the sum of [[-5, 7]] along axis 0 from 100 is
    [95, 107]; the immediate reduction returns [-5, 7]. *)
Theorem C42_copy_initial_refuted : exists (c r : cont Z) (ev : list Z -> Z),
  consistent c /\ unit_strides_zero c /\ ct_layout c = row_major /\ ct_shape c = [1; 2] /\ ct_data c = [-5; 7] /\ merge_law plus_fun /\
  (forall jx, in_bounds (ct_shape c) jx -> elt c jx = Ok (ev jx)) /\
  reduce_immediate plus_fun row_major row_major (Some (fun x => x)) fill_fresh 0 false (Some 100) c [0] = Ok r /\
  ct_shape r = [2] /\ elt r [0] = Ok (-5) /\ reduced plus_fun (Some 100) row_major false [0] (ct_shape c) ev [0] = 95.
Proof. exact copy_initial_refuted_lemma. Qed.
Print Assumptions C42_copy_initial_refuted.
