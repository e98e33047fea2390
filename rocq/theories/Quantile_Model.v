(** Model of quantile: /repo/include/xtensor/misc/xsort.hpp. *)
From Coq Require Import List ZArith Bool QArith Qcanon Qround.
From Verif Require Import Prelude Strides_Model Access_Model Container_Model SView_Model SView_Spec Reshape_Model Stepper_Model Stepper_Spec
  Reduce_Model Reduce_Spec Manip_Model Container_Spec Sort_Model Stats_Model.
Import ListNotations.
Open Scope Z_scope.

(** Exact rational numbers instead of double; NaN is left out. *)
Definition qc_of (n : Z) : Qc := Q2Qc (inject_Z n).
Definition qc_floor (x : Qc) : Z := Qfloor (this x).
(** operator< *)
Definition qc_lt (x y : Qc) : bool := match (x ?= y)%Qc with Lt => true | _ => false end.

(** xsort.hpp 771-819: select_indices_impl. [rest] is the number of axes that are left, so
    that current_dim is [length shape - rest]. The four branches are two independent
    choices: what is iterated on, and whether the axis is the last one. *)
Fixpoint select_indices_impl (shape indices : list Z) (axis rest : nat) (current_index : list Z) (out : list (list Z)) : res (list (list Z)) :=
  match rest with
  | O => Ok out
  | S rest' =>
      let current_dim := (length shape - rest)%nat in
      let* n := rd shape current_dim in
      let range := if (current_dim =? axis)%nat then indices else map Z.of_nat (seq 0 (Z.to_nat n)) in
      for_each (fun i out =>
        let* idx := wr current_index current_dim i in
        if (current_dim <? length shape - 1)%nat then select_indices_impl shape indices axis rest' idx out
        else Ok (out ++ [idx])) range out
  end.
(** xsort.hpp 820-827: select_indices *)
Definition select_indices (shape indices : list Z) (axis : nat) : res (list (list Z)) :=
  select_indices_impl shape indices axis (length shape) (repeat 0 (length shape)) [].

(** xsort.hpp 847-849: p_n_m *)
Definition position (n : Z) (alpha beta p : Qc) : Qc := (p * qc_of n + (alpha + p * (1 - alpha - beta)) - 1)%Qc.
(** clip(j, T(0), T(n - 1)) and the cast, for an integral j; n is a std::size_t *)
Definition clip_index (n j : Z) : Z := Z.min (Z.max j 0) (to_size_t (n - 1)).
(** xsort.hpp 844-859: quantile_kth_gamma, for a list of probabilities *)
Definition quantile_kth_gamma (n : Z) (probas : list Qc) (alpha beta : Qc) : list Z * list Qc :=
  let p_n_m := map (position n alpha beta) probas in
  let j := map qc_floor p_n_m in
  let j_jp1 := j ++ map (fun k => k + 1) j in
  let k_kp1 := map (clip_index n) j_jp1 in
  let gamma := map (fun x => x - qc_of (qc_floor x))%Qc p_n_m in
  let omg_g := map (fun g => 1 - g)%Qc gamma ++ gamma in
  (k_kp1, omg_g).

(** xsort.hpp 861-869: unsqueeze_shape *)
Definition unsqueeze_shape (shape : list Z) (axis : nat) : list Z := firstn axis shape ++ 1 :: skipn axis shape.

(** The elements of a sequence read at an index of one number *)
Definition at_one {A} (read : Z -> res A) (jx : list Z) : res A := match jx with [i] => read i | _ => UB end.

(** eval(e): a container of the default layout with the elements of the expression.
    Simplification: the values are stored in the order of the layout, see C01. *)
Definition evaluated (T : layout) (r : rexp) : res (cont num) :=
  let* vals := seqM (map (q_at r) (indices_of T (q_shape r))) in
  c_resize T T (fun _ m => firstn (Z.to_nat m) (vals ++ repeat None (Z.to_nat m))) (c_default T 0 None) (q_shape r) false.

Section Quantile.
(** [T] is both XTENSOR_DEFAULT_TRAVERSAL and XTENSOR_DEFAULT_LAYOUT; the other parameters
    are those of partition in Sort_Model. *)
Variables (T SL DL : layout) (fresh : list Qc -> Z -> list Qc) (n0 : nat) (v0 : Qc) (a : algos).

(** xsort.hpp 831-842: fancy_indexing of the partitioned container, as an operand. The
    element i of index_view(e, l) is e at the index l[i] (C53); the shape holds signed
    numbers. *)
Definition fancy_indexing (e : cont Qc) (indices : list Z) (ax : Z) : res (list Z * sexp num) :=
  let* shape := wrz (ct_shape e) ax (Z.of_nat (length indices)) in
  let* sel := select_indices (ct_shape e) indices (Z.to_nat ax) in
  let read i := let* ix := rdz sel i in let* x := elt e ix in Ok (Some x) in
  let* v := reshape_view T (Some 64) (mk_xexp false [Z.of_nat (length sel)] [] 0 T) shape in
  let* o := view_operand v (at_one read) in
  Ok (shape, o).

(** xsort.hpp 900-937: quantile(e, probas, axis, alpha, beta), for a container e.
    Simplification: the shape of the product is that of e_kth, of which the reshaped
    coefficients have the extents or 1. *)
Definition quantile (e : cont Qc) (probas : list Qc) (axis : Z) (alpha beta : Qc) : res rexp :=
  let dim := length (ct_shape e) in
  let ax := norm_axis dim axis in
  let* n := rdz (ct_shape e) ax in
  let '(kth, gamma) := quantile_kth_gamma n probas alpha beta in
  let* part := partition SL DL fresh n0 v0 a qc_lt e kth ax in
  let* '(kshape, e_kth) := fancy_indexing part kth ax in
  let* gshape := wrz (repeat 1 dim) ax (Z.of_nat (length gamma)) in
  let* gv := reshape_view T (Some 64) (mk_xexp false [Z.of_nat (length gamma)] [] 0 T) gshape in
  let* g := view_operand gv (at_one (rdz (map Some gamma))) in
  let e_kth_g := XFun f_times [e_kth; g] in
  let* s1 := wrz (unsqueeze_shape kshape (Z.to_nat ax)) ax 2 in
  let* m := rdz s1 (ax + 1) in
  let* s2 := wrz s1 (ax + 1) (m / 2) in
  let* pv := reshape_view T None (mk_xexp false kshape [] 0 T) s2 in
  let* po := view_operand pv (fun ix => x_value ix e_kth_g) in
  let* q := sum_axes s2 po [ax] false in
  let* r := evaluated T q in
  let* v := moveaxis T (of_cont r) ax 0 in
  Ok (mk_rexp (w_shape v) (fun ix => let* k := w_call v ix in match k with Slot p => rdz (ct_data r) p | Elem _ => UB end)).

(** xsort.hpp 978-992: quantile_method *)
Inductive quantile_method := interpolated_inverted_cdf | hazen | weibull | linear | median_unbiased | normal_unbiased.
(** The value of the enumerator; that of the first is 4 *)
Definition method_number (m : quantile_method) : nat :=
  match m with interpolated_inverted_cdf => 4 | hazen => 5 | weibull => 6 | linear => 7 | median_unbiased => 8 | normal_unbiased => 9 end.
(** xsort.hpp 1003-1049: quantile(e, probas, axis, method); alpha and beta *)
Definition method_parameters (m : quantile_method) : Qc * Qc :=
  match m with
  | interpolated_inverted_cdf => (0, 1)%Qc
  | hazen => (Q2Qc (1 # 2), Q2Qc (1 # 2))
  | weibull => (0, 0)%Qc
  | linear => (1, 1)%Qc
  | median_unbiased => (Q2Qc (1 # 3), Q2Qc (1 # 3))
  | normal_unbiased => (Q2Qc (3 # 8), Q2Qc (3 # 8))
  end.
Definition quantile_by (e : cont Qc) (probas : list Qc) (axis : Z) (m : quantile_method) : res rexp :=
  let '(alpha, beta) := method_parameters m in quantile e probas axis alpha beta.
End Quantile.
