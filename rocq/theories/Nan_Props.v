(** C73: reductions that ignore NaN, counts, minmax. *)
From Coq Require Import List ZArith Lia Bool QArith Qcanon.
From Verif Require Import Prelude Strides_Model Strides_Spec Container_Model Container_Spec Stepper_Model Reduce_Model Reduce_Spec Accum_Spec Stats_Model Stats_Spec
  Nan_Model Nan_Spec Stats4_Proofs Nan_Proofs Nan2_Proofs.
Import ListNotations.
Open Scope Z_scope.

(** nansum, nanprod, nanmin and nanmax, lazy, for axes counted from the front or the end, with and
    without keep_dims: the sum, the product, the least and the greatest of the numbers among the
    elements that are reduced. *)
Theorem C73_lazy : forall (esh : list Z) (e : sexp num) (ev : list Z -> num) (axes pos : list Z) (keep : bool) (dflt : num),
  Z.of_nat (length esh) < 2 ^ 64 -> is_shape esh -> has_elements esh e ev -> names (length esh) axes pos -> valid_axes (length esh) pos ->
  lazily (reduce_axes nansum_f dflt esh e axes keep) keep pos esh (fun b x => x = Some (total (numbers (map ev b)))) /\
  lazily (reduce_axes nanprod_f dflt esh e axes keep) keep pos esh (fun b x => x = Some (product (numbers (map ev b)))) /\
  lazily (reduce_axes nanmin_f dflt esh e axes keep) keep pos esh (fun b x => least (map ev b) x) /\
  lazily (reduce_axes nanmax_f dflt esh e axes keep) keep pos esh (fun b x => greatest (map ev b) x).
Proof. exact nan_lazy_lemma. Qed.
Print Assumptions C73_lazy.

Example C73_case_lazy : has_elements [2; 3] gap_six gap_ev /\ names 2 [-1] [1] /\ valid_axes 2 [1] /\
  looked (reduce_axes nansum_f None [2; 3] gap_six [-1] false) [0] = Ok (Some 4%Q) /\ looked (reduce_axes nanprod_f None [2; 3] gap_six [0] true) [0; 1] = Ok (Some 1%Q) /\
  looked (reduce_axes nanmin_f None [2; 3] gap_six [0; 1] false) [] = Ok (Some 0%Q) /\ looked (reduce_axes nanmax_f None [2; 3] gap_six [0] false) [1] = Ok None.
Proof.
  split; [exact gap_elements|]. split; [repeat constructor; lia|]. split; [repeat constructor; lia|]. repeat split; vm_compute; reflexivity.
Qed.

(** The same, immediate, on a container. For nansum and nanprod, missing: reductions that copy the
    elements, see the refutation. *)
Theorem C73_immediate_partial : forall (SL DL : layout) (fresh : list num -> Z -> list num) (r0 : num) (keep : bool) (c : cont num) (axes : list Z) (ev : list Z -> num),
  (forall d n, 0 <= n -> Z.of_nat (length (fresh d n)) = n) -> reducible SL c ev -> valid_axes (length (ct_shape c)) axes ->
  immediately (reduce_immediate nanmin_f SL DL (Some (fun x => x)) fresh r0 keep None c axes) keep axes c (fun b x => least (map ev b) x) /\
  immediately (reduce_immediate nanmax_f SL DL (Some (fun x => x)) fresh r0 keep None c axes) keep axes c (fun b x => greatest (map ev b) x) /\
  (~ copied (ct_layout c) axes (ct_shape c) ->
   immediately (reduce_immediate nansum_f SL DL (Some (fun x => x)) fresh r0 keep None c axes) keep axes c (fun b x => x = Some (total (numbers (map ev b)))) /\
   immediately (reduce_immediate nanprod_f SL DL (Some (fun x => x)) fresh r0 keep None c axes) keep axes c (fun b x => x = Some (product (numbers (map ev b))))).
Proof. exact nan_immediate_lemma. Qed.
Print Assumptions C73_immediate_partial.

Example C73_case_immediate : reducible row_major (gaps [2; 3] gap_data) gap_ev /\ ~ copied row_major [1] [2; 3] /\
  stored (reduce_immediate nansum_f row_major row_major (Some (fun x => x)) fresh_none None false None (gaps [2; 3] gap_data) [1]) = Ok ([2], [Some 4%Q; Some 0%Q]).
Proof. split; [exact gap_reducible|]. split; [exact gap_not_copied|]. vm_compute. reflexivity. Qed.

(** An axis of extent 1: the immediate nansum of [[NaN, 7]] along axis 0 begins with NaN. *)
Theorem C73_copy_nansum_refuted : exists r, reducible row_major gap_row gap_row_ev /\ valid_axes 2 [0] /\
  reduce_immediate nansum_f row_major row_major (Some (fun x => x)) fresh_none None false None gap_row [0] = Ok r /\ ct_shape r = [2] /\ elt r [0] = Ok None.
Proof. destruct copy_nansum_lemma as (r & H). exists r. split; [exact gap_row_reducible|]. split; [repeat constructor; lia|exact H]. Qed.
Print Assumptions C73_copy_nansum_refuted.

(** count_nonzero and count_nonnan, lazy *)
Theorem C73_count : forall (esh : list Z) (e : sexp num) (ev : list Z -> num) (axes pos : list Z) (keep : bool),
  Z.of_nat (length esh) < 2 ^ 64 -> is_shape esh -> has_elements esh e ev -> names (length esh) axes pos -> valid_axes (length esh) pos ->
  lazily (count_nonzero esh e axes keep) keep pos esh (fun b x => x = Z.of_nat (length (nonzeros (map ev b)))) /\
  lazily (count_nonnan esh e axes keep) keep pos esh (fun b x => x = Z.of_nat (length (numbers (map ev b)))).
Proof. exact count_lemma. Qed.
Print Assumptions C73_count.

Example C73_case_count : (let* m := count_nonzero [2; 3] gap_six [0] false in g_at m [2]) = Ok 1 /\ (let* m := count_nonnan [2; 3] gap_six [0; 1] false in g_at m []) = Ok 3 /\
  (let* m := count_nonzero [2; 3] gap_six [0; 1] false in g_at m []) = Ok 5.
Proof. repeat split; vm_compute; reflexivity. Qed.

(** count_nonzero, immediate. Missing: reductions that copy the elements, see the refutation. *)
Theorem C73_count_immediate_partial : forall (SL DL : layout) (conv : option (num -> Z)) (fresh : list Z -> Z -> list Z) (r0 : Z) (keep : bool) (c : cont num)
    (axes : list Z) (ev : list Z -> num),
  (forall d n, 0 <= n -> Z.of_nat (length (fresh d n)) = n) -> reducible SL c ev -> valid_axes (length (ct_shape c)) axes -> ~ copied (ct_layout c) axes (ct_shape c) ->
  immediately (reduce_immediate count_f SL DL conv fresh r0 keep None c axes) keep axes c (fun b x => x = Z.of_nat (length (nonzeros (map ev b)))).
Proof. exact count_immediate_lemma. Qed.
Print Assumptions C73_count_immediate_partial.

Example C73_case_count_immediate : (let* r := reduce_immediate count_f row_major row_major (Some to_count) zeros_fresh 0 false None (gaps [2; 3] gap_data) [1] in Ok (ct_data r)) = Ok [3; 2].
Proof. vm_compute. reflexivity. Qed.

(** An axis of extent 1: in [[NaN, 7]] there are 7 elements different from 0 in the second column. *)
Theorem C73_copy_count_refuted : exists r, reducible row_major gap_row gap_row_ev /\ valid_axes 2 [0] /\
  reduce_immediate count_f row_major row_major (Some to_count) zeros_fresh 0 false None gap_row [0] = Ok r /\ ct_shape r = [2] /\ elt r [1] = Ok 7.
Proof. destruct copy_count_lemma as (r & H). exists r. split; [exact gap_row_reducible|]. split; [repeat constructor; lia|exact H]. Qed.
Print Assumptions C73_copy_count_refuted.

(** nanmean: the mean of the numbers, no number when there are none. *)
Theorem C73_mean : forall (esh : list Z) (e : sexp num) (ev : list Z -> num) (axes pos : list Z) (keep : bool),
  Z.of_nat (length esh) < 2 ^ 64 -> is_shape esh -> has_elements esh e ev -> names (length esh) axes pos -> valid_axes (length esh) pos ->
  lazily (nanmean esh e axes keep) keep pos esh (fun b x => x = mean_of (numbers (map ev b))).
Proof. exact nanmean_full. Qed.
Print Assumptions C73_mean.

Example C73_case_mean : looked (nanmean [2; 3] gap_six [-1] true) [0; 0] = Ok (Some 2%Q) /\ looked (nanmean [2; 3] gap_six [0] false) [1] = Ok None.
Proof. split; vm_compute; reflexivity. Qed.

(** nanvar. Missing: axes counted from the end, see the refutation. *)
Theorem C73_variance_partial : forall (esh : list Z) (e : sexp num) (ev : list Z -> num) (axes : list Z) (keep : bool),
  addressable esh -> has_elements esh e ev -> valid_axes (length esh) axes ->
  lazily (nanvar esh e axes keep) keep axes esh (fun b x => x = variance_of 0 (numbers (map ev b))).
Proof. exact nanvar_lemma. Qed.
Print Assumptions C73_variance_partial.

Example C73_case_variance : addressable [2; 3] /\ looked (nanvar [2; 3] gap_six [1] false) [0] = Ok (Some 1%Q) /\ looked (nanvar [2; 3] gap_six [0] false) [1] = Ok None.
Proof. split; [exact nine_addressable|]. split; vm_compute; reflexivity. Qed.

(** nanvar of all elements *)
Theorem C73_variance_all : forall (esh : list Z) (e : sexp num) (ev : list Z -> num) (keep : bool),
  Z.of_nat (length esh) < 2 ^ 64 -> is_shape esh -> has_elements esh e ev ->
  lazily (nanvar_all esh e keep) keep (all_axes (length esh)) esh (fun b x => x = variance_of 0 (numbers (map ev b))).
Proof. exact nanvar_all_lemma. Qed.
Print Assumptions C73_variance_all.

Example C73_case_variance_all : looked (nanvar_all [2; 3] gap_six false) [] = Ok (Some (14 # 9)%Q).
Proof. vm_compute. reflexivity. Qed.

(** Axes counted from the end make nanvar write before the beginning of a shape. *)
Theorem C73_negative_refuted : forall (esh : list Z) (e : sexp num) (ev : list Z -> num) (axes pos : list Z) (keep : bool),
  addressable esh -> has_elements esh e ev -> names (length esh) axes pos -> valid_axes (length esh) pos ->
  Exists (fun a => a < 0) axes -> nanvar esh e axes keep = UB.
Proof. exact nanvar_negative_lemma. Qed.
Print Assumptions C73_negative_refuted.

(** minmax of the elements of an integral type with the limits lo and hi *)
Theorem C73_minmax : forall (lo hi : Z) (esh : list Z) (e : sexp (value lo hi)) (ev : list Z -> value lo hi) (keep : bool),
  Z.of_nat (length esh) < 2 ^ 64 -> is_shape esh -> has_elements esh e ev ->
  lazily (minmax lo hi esh e keep) keep (all_axes (length esh)) esh (fun b x =>
    b = row_indices esh /\
    (b <> [] -> In (fst x) (map (fun jx => proj1_sig (ev jx)) b) /\ In (snd x) (map (fun jx => proj1_sig (ev jx)) b) /\
      forall jx, In jx b -> fst x <= proj1_sig (ev jx) <= snd x)).
Proof. exact minmax_lemma. Qed.
Print Assumptions C73_minmax.

Example C73_case_minmax : has_elements [2; 2] bytes bytes_ev /\ (let* m := minmax (-128) 127 [2; 2] bytes false in g_at m []) = Ok (-5, 9).
Proof. split; [exact bytes_elements|]. vm_compute. reflexivity. Qed.

(** nancumsum and nancumprod along an axis, counted from the front or the end: the sum and the
    product of the numbers up to the element. Missing: extents of 1 among others, see the
    refutation. *)
Theorem C73_cumulated_partial : forall (c : cont num) (ev : list Z -> num) (axis : Z),
  consistent c -> is_order (ct_layout c) -> documented c -> prod (ct_shape c) < 2 ^ 64 ->
  Z.of_nat (length (ct_shape c)) < 2 ^ 63 -> (forall jx, in_bounds (ct_shape c) jx -> elt c jx = Ok (ev jx)) ->
  - Z.of_nat (length (ct_shape c)) <= axis < Z.of_nat (length (ct_shape c)) ->
  let ax := Z.to_nat (axis mod Z.of_nat (length (ct_shape c))) in
  no_units (firstn ax (ct_shape c)) -> no_units (skipn (S ax) (ct_shape c)) ->
  exists s p, nancumsum (ct_layout c) c axis = Ok s /\ nancumprod (ct_layout c) c axis = Ok p /\ consistent s /\ consistent p /\
    ct_shape s = ct_shape c /\ ct_shape p = ct_shape c /\
    forall ix, in_bounds (ct_shape c) ix ->
      let l := numbers (map (fun j => ev (upd ix ax (Z.of_nat j))) (seq 0 (S (Z.to_nat (nth ax ix 0))))) in
      elt s ix = Ok (Some (total l)) /\ elt p ix = Ok (Some (product l)).
Proof. exact nancum_lemma. Qed.
Print Assumptions C73_cumulated_partial.

Example C73_case_cumulated : documented (gaps [2; 3] gap_data) /\ no_units (firstn 1 [2; 3]) /\
  stored (nancumsum row_major (gaps [2; 3] gap_data) (-1)) = Ok ([2; 3], [Some 1; Some 1; Some 4; Some 0; Some 0; Some 0]%Q).
Proof. split; [exact gap_documented|]. split; [left; repeat constructor; lia|]. vm_compute. reflexivity. Qed.

(** nancumsum of [[[1, 2]], [[NaN, 5]]] along the last axis has a NaN. *)
Theorem C73_cumulated_refuted : exists r, consistent gap_unit /\ documented gap_unit /\ nancumsum row_major gap_unit 2 = Ok r /\ elt r [1; 0; 0] = Ok None.
Proof. exact cum_unit_lemma. Qed.
Print Assumptions C73_cumulated_refuted.
