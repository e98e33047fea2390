(** Properties C44 to C48 and C50: sorting, argsort, partition, argmin and argmax,
    unique and setdiff1d, median. The standard algorithms are any that satisfy the
    standard ([std_ok]); [simple_algos] of the examples is an insertion sort. *)
From Coq Require Import List ZArith Bool Lia Permutation Sorted.
From Verif Require Import Prelude Strides_Model Strides_Spec Container_Model Container_Spec Container_Proofs Semantic_Spec Reduce15_Proofs
  Accum_Spec Accum3_Proofs Sort_Model Sort_Spec Sort5_Proofs Sort6_Proofs Sort7_Proofs Sort8_Proofs Sort9_Proofs.
Import ListNotations.
Open Scope Z_scope.

(** C44: sort(e, axis). For every array of one dimension or more and every valid
    axis, negative or not, each lane of the result along the axis is the lane of the
    argument in sorted order.
    Missing, and refuted below: dynamic layouts holding an array which is not of the
    default layout, and arrays of no dimension. *)
Theorem C44_sort_partial : forall (V : Type) (SL DL : layout) (fresh : list V -> Z -> list V) (n0 : nat) (v0 : V) (a : algos) (lt : V -> V -> bool),
  resizes fresh -> is_order DL -> std_ok a ->
  forall (c : cont V) (ev : list Z -> V) (axis : Z),
  consistent c -> documented c -> is_order (ct_layout c) -> sort_type SL DL n0 c ->
  (forall jx, in_bounds (ct_shape c) jx -> elt c jx = Ok (ev jx)) ->
  (1 <= length (ct_shape c))%nat -> Z.of_nat (length (ct_shape c)) < 2 ^ 63 -> valid_axis (length (ct_shape c)) axis ->
  strict_weak_order lt (ct_data c) ->
  let ax := the_axis (length (ct_shape c)) axis in let n := nth ax (ct_shape c) 0 in
  exists r ev', sort SL DL fresh n0 v0 a lt c axis = Ok r /\ ct_layout r = ct_layout c /\ array r (ct_shape c) ev' /\
    forall ix, in_bounds (ct_shape c) ix -> Permutation (lane ev ax n ix) (lane ev' ax n ix) /\ sorted lt (lane ev' ax n ix).
Proof. exact (@sort_lemma). Qed.
Print Assumptions C44_sort_partial.

Example C44_case_sort : std_ok simple_algos /\ consistent rows /\ documented rows /\ is_order (ct_layout rows) /\ sort_type row_major column_major 0 rows /\
  (forall jx, in_bounds (ct_shape rows) jx -> elt rows jx = Ok (ev_of rows jx)) /\ strict_weak_order Z.ltb (ct_data rows) /\ valid_axis 2 (-2) /\
  (let* r := sort row_major column_major fill_fresh 0 0 simple_algos Z.ltb rows (-1) in Ok (ct_data r)) = Ok [1; 2; 3; 4; 5; 6] /\
  (let* r := sort row_major column_major fill_fresh 0 0 simple_algos (fun x y => y <? x) rows (-2) in Ok (ct_data r)) = Ok [6; 5; 4; 3; 1; 2].
Proof.
  split; [exact simple_algos_ok|]. destruct rows_ok as (A & B & C & D & E & F). repeat (split; [assumption|]). split; [unfold valid_axis; lia|]. split; vm_compute; reflexivity.
Qed.

(** C44, without axis: the elements in traversal order, sorted. *)
Theorem C44_sort_flat : forall (V : Type) (a : algos) (lt : V -> V -> bool) (vals : list V), std_ok a -> strict_weak_order lt vals ->
  Permutation vals (flat_sort a lt vals) /\ sorted lt (flat_sort a lt vals).
Proof. exact (fun V a lt vals H => proj1 H V lt vals). Qed.
Print Assumptions C44_sort_flat.

Example C44_case_flat : strict_weak_order Z.ltb [3; 1; 2] /\ flat_sort simple_algos Z.ltb [3; 1; 2] = [1; 2; 3].
Proof. split; [apply zlt_swo|reflexivity]. Qed.

(** C44 refuted for a dynamic layout: [[4,3],[2,1]], stored column major in an xarray
    of dynamic layout, sorted along the axis 1 gives [[2,1],[4,3]]: it is sorted
    along the axis 0. *)
Theorem C44_sort_dynamic_refuted : exists (c r : cont Z), consistent c /\ documented c /\ ct_layout c = column_major /\ ct_shape c = [2; 2] /\
  elt c [0; 0] = Ok 4 /\ elt c [0; 1] = Ok 3 /\ elt c [1; 0] = Ok 2 /\ elt c [1; 1] = Ok 1 /\
  sort dynamic row_major fill_fresh 0 0 simple_algos Z.ltb c 1 = Ok r /\ ct_shape r = [2; 2] /\
  elt r [0; 0] = Ok 2 /\ elt r [0; 1] = Ok 1 /\ elt r [1; 0] = Ok 4 /\ elt r [1; 1] = Ok 3.
Proof. exact sort_dynamic_lemma. Qed.
Print Assumptions C44_sort_dynamic_refuted.

(** C44 refuted for an array of no dimension. *)
Theorem C44_sort_scalar_refuted : exists c : cont Z, consistent c /\ ct_layout c = row_major /\ ct_shape c = [] /\
  sort row_major row_major fill_fresh 0 0 simple_algos Z.ltb c (-1) = UB.
Proof. exact sort_scalar_lemma. Qed.
Print Assumptions C44_sort_scalar_refuted.

(** C44: an array of two dimensions or more whose strides follow no layout is
    reported by std::runtime_error. *)
Theorem C44_sort_unsupported : forall (V : Type) (SL DL : layout) (fresh : list V -> Z -> list V) (n0 : nat) (v0 : V) (a : algos) (lt : V -> V -> bool) (c : cont V) (axis : Z),
  ct_layout c = dynamic -> (2 <= length (ct_shape c))%nat -> sort SL DL fresh n0 v0 a lt c axis = Throw runtime_error.
Proof. exact (@dynamic_throw_lemma). Qed.
Print Assumptions C44_sort_unsupported.

Example C44_case_unsupported :
  sort dynamic row_major fill_fresh 0 0 simple_algos Z.ltb (mk_cont [2; 2] [3; 1] [3; 1] dynamic [4; 3; 2; 1; 0]) 1 = Throw runtime_error.
Proof. reflexivity. Qed.

(** C45: argsort(e, axis). Each lane of the result along the axis lists every
    position of the lane of the argument once, and the elements there are in sorted
    order; with the stable method equal elements keep their order.
    Missing, and refuted below: as for sort. *)
Theorem C45_argsort_partial : forall (V : Type) (SL DL : layout) (fresh : list V -> Z -> list V) (fresh_i : list Z -> Z -> list Z) (n0 : nat) (v0 : V)
    (a : algos) (lt : V -> V -> bool),
  resizes fresh -> resizes fresh_i -> is_order DL -> std_ok a ->
  forall (c : cont V) (ev : list Z -> V) (axis : Z),
  consistent c -> documented c -> is_order (ct_layout c) -> sort_type SL DL n0 c ->
  (forall jx, in_bounds (ct_shape c) jx -> elt c jx = Ok (ev jx)) ->
  (1 <= length (ct_shape c))%nat -> Z.of_nat (length (ct_shape c)) < 2 ^ 63 -> valid_axis (length (ct_shape c)) axis ->
  strict_weak_order lt (ct_data c) -> forall stable : bool,
  let ax := the_axis (length (ct_shape c)) axis in let n := nth ax (ct_shape c) 0 in
  exists r ev', argsort SL DL fresh fresh_i n0 v0 a lt stable c axis = Ok r /\ array r (ct_shape c) ev' /\
    forall ix, in_bounds (ct_shape c) ix -> sorts lt (lane ev ax n ix) (lane ev' ax n ix) /\
      (stable = true -> keeps_order lt (lane ev ax n ix) (lane ev' ax n ix)).
Proof. exact (@argsort_lemma). Qed.
Print Assumptions C45_argsort_partial.

Example C45_case_argsort : consistent rows /\ documented rows /\ sort_type row_major column_major 0 rows /\
  (let* r := argsort row_major column_major fill_fresh fill_fresh 0 0 simple_algos Z.ltb true rows 1 in Ok (ct_data r)) = Ok [1; 2; 0; 2; 1; 0] /\
  (let* r := argsort row_major column_major fill_fresh fill_fresh 0 0 simple_algos Z.ltb false rows 0 in Ok (ct_data r)) = Ok [0; 0; 0; 1; 1; 1].
Proof.
  destruct rows_ok as (A & B & C & D & E & F). repeat (split; [assumption|]). split; vm_compute; reflexivity.
Qed.

(** C45 refuted for a dynamic layout: argsort along the axis 0 of [[4,3,7],[2,1,6]],
    stored column major in an xarray of dynamic layout: the result has the index 2
    along an axis of extent 2. *)
Theorem C45_argsort_dynamic_refuted : exists (c r : cont Z), consistent c /\ documented c /\ ct_layout c = column_major /\ ct_shape c = [2; 3] /\
  ct_data c = [4; 2; 3; 1; 7; 6] /\
  argsort dynamic row_major fill_fresh fill_fresh 0 0 simple_algos Z.ltb true c 0 = Ok r /\ ct_shape r = [2; 3] /\ elt r [0; 1] = Ok 2.
Proof. exact argsort_dynamic_lemma. Qed.
Print Assumptions C45_argsort_dynamic_refuted.

(** C46: partition(e, kth, axis). Each lane of the result is a permutation of the
    lane of the argument in which each position of kth holds an element with nothing
    greater before it and nothing less after it.
    Missing: as for sort. *)
Theorem C46_partition_partial : forall (V : Type) (SL DL : layout) (fresh : list V -> Z -> list V) (n0 : nat) (v0 : V) (a : algos) (lt : V -> V -> bool),
  resizes fresh -> is_order DL -> std_ok a ->
  forall (c : cont V) (ev : list Z -> V) (axis : Z),
  consistent c -> documented c -> is_order (ct_layout c) -> sort_type SL DL n0 c ->
  (forall jx, in_bounds (ct_shape c) jx -> elt c jx = Ok (ev jx)) ->
  (1 <= length (ct_shape c))%nat -> Z.of_nat (length (ct_shape c)) < 2 ^ 63 -> valid_axis (length (ct_shape c)) axis ->
  strict_weak_order lt (ct_data c) -> forall kth : list Z,
  Forall (fun k => 0 <= k < nth (the_axis (length (ct_shape c)) axis) (ct_shape c) 0) kth ->
  let ax := the_axis (length (ct_shape c)) axis in let n := nth ax (ct_shape c) 0 in
  exists r ev', partition SL DL fresh n0 v0 a lt c kth axis = Ok r /\ ct_layout r = ct_layout c /\ array r (ct_shape c) ev' /\
    forall ix, in_bounds (ct_shape c) ix -> Permutation (lane ev ax n ix) (lane ev' ax n ix) /\
      forall k, In k kth -> in_place lt (Z.to_nat k) (lane ev' ax n ix).
Proof. exact (@partition_lemma). Qed.
Print Assumptions C46_partition_partial.

Example C46_case_partition : consistent rows /\ documented rows /\ sort_type row_major column_major 0 rows /\ Forall (fun k => 0 <= k < 3) [1; 2] /\
  (let* r := partition row_major column_major fill_fresh 0 0 simple_algos Z.ltb rows [1; 2] 1 in Ok (ct_data r)) = Ok [1; 2; 3; 4; 5; 6].
Proof.
  destruct rows_ok as (A & B & C & D & E & F). repeat (split; [assumption|]). split; [repeat constructor; lia|vm_compute; reflexivity].
Qed.

(** C46, without axis. *)
Theorem C46_partition_flat : forall (V : Type) (a : algos) (lt : V -> V -> bool), std_ok a -> forall (kth : list Z) (vals : list V),
  strict_weak_order lt vals -> Forall (fun k => 0 <= k < Z.of_nat (length vals)) kth ->
  exists r, flat_partition a lt vals kth = Ok r /\ Permutation vals r /\ forall k, In k kth -> in_place lt (Z.to_nat k) r.
Proof. exact (@partition_range_ok). Qed.
Print Assumptions C46_partition_flat.

Example C46_case_flat : flat_partition simple_algos Z.ltb [3; 1; 2; 0] [2] = Ok [0; 1; 2; 3].
Proof. reflexivity. Qed.

(** C46: argpartition(e, kth, axis): the same of the elements at the positions
    listed by each lane of the result. *)
Theorem C46_argpartition_partial : forall (V : Type) (SL DL : layout) (fresh : list V -> Z -> list V) (fresh_i : list Z -> Z -> list Z) (n0 : nat) (v0 : V)
    (a : algos) (lt : V -> V -> bool),
  resizes fresh -> resizes fresh_i -> is_order DL -> std_ok a ->
  forall (c : cont V) (ev : list Z -> V) (axis : Z),
  consistent c -> documented c -> is_order (ct_layout c) -> sort_type SL DL n0 c ->
  (forall jx, in_bounds (ct_shape c) jx -> elt c jx = Ok (ev jx)) ->
  (1 <= length (ct_shape c))%nat -> Z.of_nat (length (ct_shape c)) < 2 ^ 63 -> valid_axis (length (ct_shape c)) axis ->
  strict_weak_order lt (ct_data c) -> forall kth : list Z,
  Forall (fun k => 0 <= k < nth (the_axis (length (ct_shape c)) axis) (ct_shape c) 0) kth ->
  let ax := the_axis (length (ct_shape c)) axis in let n := nth ax (ct_shape c) 0 in
  exists r ev', argpartition SL DL fresh fresh_i n0 v0 a lt c kth axis = Ok r /\ array r (ct_shape c) ev' /\
    forall ix, in_bounds (ct_shape c) ix -> exists ws, picks (lane ev ax n ix) (lane ev' ax n ix) ws /\ forall k, In k kth -> in_place lt (Z.to_nat k) ws.
Proof. exact (@argpartition_lemma). Qed.
Print Assumptions C46_argpartition_partial.

Example C46_case_argpartition : consistent rows /\ documented rows /\ sort_type row_major column_major 0 rows /\
  (let* r := argpartition row_major column_major fill_fresh fill_fresh 0 0 simple_algos Z.ltb rows [1] 1 in Ok (ct_data r)) = Ok [1; 2; 0; 2; 1; 0].
Proof.
  destruct rows_ok as (A & B & C & D & E & F). repeat (split; [assumption|]). vm_compute; reflexivity.
Qed.

(** C46: argpartition(e, kth, xnone()) of a row major array whose last extent is not
    1 (or which has at most one element).
    Missing, and refuted below: a last extent 1, and column major arrays. *)
Theorem C46_argpartition_flat_partial : forall (V : Type) (a : algos) (lt : V -> V -> bool) (c : cont V) (kth : list Z), std_ok a ->
  consistent c -> documented c -> ct_layout c = row_major -> one_argument (ct_shape c) ->
  strict_weak_order lt (ct_data c) -> Forall (fun k => 0 <= k < prod (ct_shape c)) kth ->
  exists idx ws, flat_argpartition a lt c kth = Ok idx /\ picks (ct_data c) idx ws /\ forall k, In k kth -> in_place lt (Z.to_nat k) ws.
Proof. exact (@flat_argpartition_lemma). Qed.
Print Assumptions C46_argpartition_flat_partial.

Example C46_case_argpartition_flat : consistent rows /\ documented rows /\ one_argument (ct_shape rows) /\
  flat_argpartition simple_algos Z.ltb rows [2] = Ok [1; 2; 0; 5; 4; 3].
Proof.
  destruct rows_ok as (A & B & C & D & E & F). repeat (split; [assumption|]). split; [left; cbn; lia|vm_compute; reflexivity].
Qed.

(** C46 refuted: the argpartition without axis of [[3],[2],[1]] around the position 0
    names the greatest element, and that of a column major 2x2 array reads outside
    its storage. *)
Theorem C46_argpartition_unit_refuted : exists c : cont Z, consistent c /\ documented c /\ ct_layout c = row_major /\ ct_shape c = [3; 1] /\ ct_data c = [3; 2; 1] /\
  flat_argpartition simple_algos Z.ltb c [0] = Ok [0; 1; 2].
Proof. exact flat_argpartition_unit_lemma. Qed.
Print Assumptions C46_argpartition_unit_refuted.

Theorem C46_argpartition_column_refuted : exists c : cont Z, consistent c /\ documented c /\ ct_layout c = column_major /\ ct_shape c = [2; 2] /\
  flat_argpartition simple_algos Z.ltb c [0] = UB.
Proof. exact flat_argpartition_column_lemma. Qed.
Print Assumptions C46_argpartition_column_refuted.

(** C47: argmin(e, axis) and argmax(e, axis), traversed in the layout of the array.
    The result has the shape without the axis, and at every index the position of
    the first smallest (greatest) element of the lane.
    Missing, and refuted below: a traversal of another layout, as the default one of
    a column major array, and empty lanes. *)
Theorem C47_argmin_partial : forall (V : Type) (SL DL RL : layout) (fresh : list V -> Z -> list V) (fresh_i : list Z -> Z -> list Z) (n0 n1 : nat) (v0 : V)
    (lt : V -> V -> bool),
  resizes fresh -> resizes fresh_i -> is_order DL -> is_order RL ->
  forall (c : cont V) (ev : list Z -> V) (axis : Z),
  consistent c -> documented c -> is_order (ct_layout c) -> sort_type SL DL n0 c ->
  (forall jx, in_bounds (ct_shape c) jx -> elt c jx = Ok (ev jx)) ->
  (1 <= length (ct_shape c))%nat -> Z.of_nat (length (ct_shape c)) < 2 ^ 63 -> valid_axis (length (ct_shape c)) axis ->
  strict_weak_order lt (ct_data c) ->
  let ax := the_axis (length (ct_shape c)) axis in let n := nth ax (ct_shape c) 0 in
  exists r, argmin_axis SL DL fresh fresh_i n0 v0 lt (ct_layout c) RL n1 c axis = Ok r /\
    consistent r /\ ct_shape r = without_axis ax (ct_shape c) /\
    forall ix, in_bounds (ct_shape c) ix -> exists i, elt r (without_axis ax ix) = Ok i /\ first_min lt (lane ev ax n ix) i.
Proof. exact (fun V SL DL RL f fi n0 n1 v0 lt h1 h2 h3 h4 c ev ax g1 g2 g3 g4 g5 g6 g7 g8 g9 => @arg_func_lemma V SL DL RL f fi n0 n1 v0 lt h1 h2 h3 h4 c ev ax g1 g2 g3 g4 g5 g6 g7 g8 g9 false). Qed.
Print Assumptions C47_argmin_partial.

Theorem C47_argmax_partial : forall (V : Type) (SL DL RL : layout) (fresh : list V -> Z -> list V) (fresh_i : list Z -> Z -> list Z) (n0 n1 : nat) (v0 : V)
    (lt : V -> V -> bool),
  resizes fresh -> resizes fresh_i -> is_order DL -> is_order RL ->
  forall (c : cont V) (ev : list Z -> V) (axis : Z),
  consistent c -> documented c -> is_order (ct_layout c) -> sort_type SL DL n0 c ->
  (forall jx, in_bounds (ct_shape c) jx -> elt c jx = Ok (ev jx)) ->
  (1 <= length (ct_shape c))%nat -> Z.of_nat (length (ct_shape c)) < 2 ^ 63 -> valid_axis (length (ct_shape c)) axis ->
  strict_weak_order lt (ct_data c) ->
  let ax := the_axis (length (ct_shape c)) axis in let n := nth ax (ct_shape c) 0 in
  exists r, argmax_axis SL DL fresh fresh_i n0 v0 lt (ct_layout c) RL n1 c axis = Ok r /\
    consistent r /\ ct_shape r = without_axis ax (ct_shape c) /\
    forall ix, in_bounds (ct_shape c) ix -> exists i, elt r (without_axis ax ix) = Ok i /\ first_min (fun x y => lt y x) (lane ev ax n ix) i.
Proof. exact (fun V SL DL RL f fi n0 n1 v0 lt h1 h2 h3 h4 c ev ax g1 g2 g3 g4 g5 g6 g7 g8 g9 => @arg_func_lemma V SL DL RL f fi n0 n1 v0 lt h1 h2 h3 h4 c ev ax g1 g2 g3 g4 g5 g6 g7 g8 g9 true). Qed.
Print Assumptions C47_argmax_partial.

Example C47_case_axis : consistent rows /\ documented rows /\ is_order (ct_layout rows) /\ sort_type row_major column_major 0 rows /\
  (let* r := argmin_axis row_major column_major fill_fresh fill_fresh 0 0 Z.ltb row_major column_major 0 rows (-1) in Ok (ct_shape r, ct_data r)) = Ok ([2], [1; 2]) /\
  (let* r := argmax_axis row_major column_major fill_fresh fill_fresh 0 0 Z.ltb row_major column_major 0 rows 0 in Ok (ct_shape r, ct_data r)) = Ok ([3], [1; 1; 1]).
Proof.
  destruct rows_ok as (A & B & C & D & E & F). repeat (split; [assumption|]). split; vm_compute; reflexivity.
Qed.

(** C47, without axis: the position, in the traversal, of the first smallest
    (greatest) element of a non-empty array. *)
Theorem C47_argmin_flat : forall (V : Type) (lt : V -> V -> bool) (vals : list V), vals <> [] -> strict_weak_order lt vals -> first_min lt vals (argmin_flat lt vals).
Proof. exact (@min_position_ok). Qed.
Print Assumptions C47_argmin_flat.

Theorem C47_argmax_flat : forall (V : Type) (lt : V -> V -> bool) (vals : list V), vals <> [] -> strict_weak_order lt vals ->
  first_min (fun x y => lt y x) vals (argmax_flat lt vals).
Proof. exact (@max_position_ok). Qed.
Print Assumptions C47_argmax_flat.

Example C47_case_flat : strict_weak_order Z.ltb [2; 0; 5; 0; 5] /\ argmin_flat Z.ltb [2; 0; 5; 0; 5] = 1 /\ argmax_flat Z.ltb [2; 0; 5; 0; 5] = 2.
Proof. split; [apply zlt_swo|]. split; reflexivity. Qed.

(** C47 refuted with the default template argument for a column major array of three
    dimensions: the first smallest of 0, 1 is said to be at the position 1. *)
Theorem C47_argmin_column_refuted : exists (c r : cont Z), consistent c /\ documented c /\ ct_layout c = column_major /\ ct_shape c = [2; 3; 2] /\
  elt c [0; 1; 0] = Ok 0 /\ elt c [1; 1; 0] = Ok 1 /\
  argmin_axis column_major row_major fill_fresh fill_fresh 0 0 Z.ltb row_major row_major 0 c 0 = Ok r /\ ct_shape r = [3; 2] /\ elt r [1; 0] = Ok 1.
Proof. exact argmin_column_lemma. Qed.
Print Assumptions C47_argmin_column_refuted.

(** C47 refuted for an empty axis: the result is what was in the memory. *)
Theorem C47_argmin_empty_refuted : exists c : cont Z, consistent c /\ documented c /\ ct_layout c = row_major /\ ct_shape c = [2; 0] /\
  forall fresh_i, resizes fresh_i ->
  argmin_axis row_major row_major fill_fresh fresh_i 0 0 Z.ltb row_major row_major 0 c 1 = Ok (mk_cont [2] [1] [1] row_major (fresh_i [0] 2)).
Proof. exact argmin_empty_lemma. Qed.
Print Assumptions C47_argmin_empty_refuted.

(** C48: unique(e). For elements whose equality is the equivalence of their order,
    the result is strictly increasing, has only elements of the argument, and all of
    them. *)
Theorem C48_unique : forall (V : Type) (lt eqb : V -> V -> bool) (U : list V), strict_weak_order lt U ->
  (forall x y, In x U -> In y U -> eqb x y = equiv lt x y) -> forall a : algos, std_ok a -> forall vals : list V, incl vals U ->
  increasing lt (unique a lt eqb vals) /\ (forall x, In x (unique a lt eqb vals) -> In x vals) /\
  forall x, In x vals -> exists y, In y (unique a lt eqb vals) /\ equiv lt x y = true.
Proof. exact (@unique_lemma). Qed.
Print Assumptions C48_unique.

(** C48: setdiff1d(e1, e2) is strictly increasing and has exactly the elements of e1
    that are not in e2. *)
Theorem C48_setdiff1d : forall (V : Type) (lt eqb : V -> V -> bool) (U : list V), strict_weak_order lt U ->
  (forall x y, In x U -> In y U -> eqb x y = equiv lt x y) -> forall a : algos, std_ok a -> forall vals1 vals2 : list V, incl vals1 U -> incl vals2 U ->
  let r := setdiff1d a lt eqb vals1 vals2 in
  increasing lt r /\ (forall x, In x r -> In x vals1 /\ forall y, In y vals2 -> equiv lt x y = false) /\
  forall x, In x vals1 -> (forall y, In y vals2 -> equiv lt x y = false) -> exists z, In z r /\ equiv lt x z = true.
Proof. exact (@setdiff_lemma). Qed.
Print Assumptions C48_setdiff1d.

Example C48_case : (forall x y, Z.eqb x y = equiv Z.ltb x y) /\
  unique simple_algos Z.ltb Z.eqb [3; 1; 3; 2; 1] = [1; 2; 3] /\ setdiff1d simple_algos Z.ltb Z.eqb [3; 1; 3; 2; 1] [2; 7; 2] = [1; 3].
Proof.
  split; [|split; reflexivity]. intros x y. unfold equiv. destruct (Z.eqb_spec x y); destruct (Z.ltb_spec x y); destruct (Z.ltb_spec y x); cbn; try reflexivity; lia.
Qed.

(** C50: median(e) of a non-empty array: the middle element of the sorted elements,
    or [mid] of the two middle ones. *)
Theorem C50_median : forall (V : Type) (a : algos) (lt : V -> V -> bool) (mid : V -> V -> V), std_ok a -> forall vals s : list V,
  vals <> [] -> Z.of_nat (length vals) < 2 ^ 64 -> strict_weak_order lt vals -> Permutation vals s -> sorted lt s ->
  let h := (length vals / 2)%nat in
  exists y z, nth_error s h = Some z /\ equiv lt y z = true /\
    if Nat.even (length vals) then exists x u, nth_error s (h - 1) = Some u /\ equiv lt x u = true /\ median a lt mid vals = Ok (mid x y)
    else median a lt mid vals = Ok y.
Proof. exact (@median_lemma). Qed.
Print Assumptions C50_median.

Example C50_case : sorted Z.ltb [1; 3; 5; 9] /\ Permutation [5; 1; 9; 3] [1; 3; 5; 9] /\
  median simple_algos Z.ltb (fun x y => (x + y) / 2) [5; 1; 9; 3] = Ok 4 /\ median simple_algos Z.ltb (fun x y => (x + y) / 2) [5; 1; 9] = Ok 5.
Proof.
  split; [repeat constructor|]. split; [|split; reflexivity].
  apply Permutation_trans with [1; 5; 3; 9]; [|apply perm_skip, perm_swap].
  apply Permutation_trans with [1; 5; 9; 3]; [apply perm_swap|]. do 2 apply perm_skip. apply perm_swap.
Qed.

(** C50 refuted: the median of an empty array. *)
Theorem C50_median_empty_refuted : forall (a : algos) (V : Type) (lt : V -> V -> bool) (mid : V -> V -> V), std_ok a -> median a lt mid [] = UB.
Proof. exact median_empty_lemma. Qed.
Print Assumptions C50_median_empty_refuted.
