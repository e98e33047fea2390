(** Model of mean, variance and average: /repo/include/xtensor/core/xmath.hpp. *)
From Coq Require Import List ZArith Bool QArith Qcanon.
From Verif Require Import Prelude Strides_Model Access_Model Broadcast_Model Broadcast_Spec SView_Model Reshape_Model Stepper_Model Reduce_Model.
Import ListNotations.
Open Scope Z_scope.

(** The elements: exact rational numbers, and [None] for a floating point number that is not
    finite. Simplification: no rounding, and no difference between the non-finite numbers. *)
Definition num := option Qc.
Definition lift2 (f : Qc -> Qc -> Qc) (x y : num) : num :=
  match x, y with Some a, Some b => Some (f a b) | _, _ => None end.
Definition nadd : num -> num -> num := lift2 Qcplus.
Definition nsub : num -> num -> num := lift2 Qcminus.
Definition nmul : num -> num -> num := lift2 Qcmult.
Definition ndiv (x y : num) : num :=
  match x, y with Some a, Some b => if Qc_eq_dec b 0 then None else Some (a / b)%Qc | _, _ => None end.
(** static_cast<double> of an integer *)
Definition to_num (n : Z) : num := Some (Q2Qc (inject_Z n)).

(** An expression as a shape and what is read at an index. *)
Record rexp := mk_rexp { q_shape : list Z; q_at : list Z -> res num }.

(** core/xmath.hpp 367-424 and 1838: the functors of sum, std::plus and 0 *)
Definition plus_num : rfun num num := mk_rfun nadd (Some 0%Qc) nadd.

(** core/xmath.hpp 367-424 and 1838, reducers/xreducer.hpp 917-942: sum(e, axes, es), for an
    expression of shape esh. Simplification: an immediate sum is read as a lazy one, see C42. *)
Definition sum_axes (esh : list Z) (e : sexp num) (axes : list Z) (keep : bool) : res rexp :=
  let* r := make_reducer esh (map (normalize_axis (length esh)) axes) keep None in
  Ok (mk_rexp (r_shape r) (fun ix => rs_element plus_num None esh (x_ops esh e) (x_deref e) r (x_begin e) ix)).

(** core/xmath.hpp 1863-1868: mean_division, the divisor. The quotient of the sizes is one of
    std::size_t. *)
Definition mean_divisor (ssize e_size : Z) : num := to_num (if negb (ssize =? 0) then e_size / ssize else 0).

(** core/xmath.hpp 1878-1897: detail::mean(e, axes, ddof, es). The assertion is off by default. *)
Definition mean_ddof (esh : list Z) (e : sexp num) (axes : list Z) (ddof : Z) (keep : bool) : res rexp :=
  let* s := sum_axes esh e axes keep in
  let d := mean_divisor (compute_size (q_shape s)) (to_size_t (compute_size esh - to_size_t ddof)) in
  Ok (mk_rexp (q_shape s) (fun ix => let* x := q_at s ix in Ok (ndiv x d))).
(** core/xmath.hpp 1900-1908: detail::mean_noaxis(e, ddof, es) *)
Definition mean_noaxis (esh : list Z) (e : sexp num) (ddof : Z) (keep : bool) : res rexp :=
  let* s := sum_axes esh e (all_axes (length esh)) keep in
  let d := to_num (to_size_t (compute_size esh - to_size_t ddof)) in
  Ok (mk_rexp (q_shape s) (fun ix => let* x := q_at s ix in Ok (ndiv x d))).

(** core/xmath.hpp 1932-1947: mean(e, axes, es) and mean(e, es) *)
Definition mean_axes (esh : list Z) (e : sexp num) (axes : list Z) (keep : bool) : res rexp := mean_ddof esh e axes 0 keep.
Definition mean_all (esh : list Z) (e : sexp num) (keep : bool) : res rexp := mean_noaxis esh e 0 keep.

(** The elements below a reshaped view of an expression read by [val], in the order of its
    storage: views/xstrided_view_base.hpp 255-259, see SView_Model.storage_at. *)
Definition storage_values (v : sview) (val : list Z -> res num) : res (list num) :=
  seqM (map (fun p => let* c := storage_at (w_flat v) (w_base v) (Z.of_nat p) in
                      match c with Elem ix => val ix | Slot _ => UB end)
         (seq 0 (Z.to_nat (compute_size (x_shape (w_base v)))))).
(** The view as an operand: views/xstrided_view.hpp 568-590, its stepper goes through the storage
    with the strides of the view. *)
Definition view_operand (v : sview) (val : list Z -> res num) : res (sexp num) :=
  let* b := storage_values v val in
  Ok (XStrided (mk_container (w_shape v) (w_strides v) (w_back v) (w_offset v)) b).

(** The xfunctions square(x), x - y and x * y *)
Definition f_square (l : list num) : num := match l with [x] => nmul x x | _ => None end.
Definition f_minus (l : list num) : num := match l with [x; y] => nsub x y | _ => None end.
Definition f_times (l : list num) : num := match l with [x; y] => nmul x y | _ => None end.

(** core/xmath.hpp 2117-2138: variance(e, axes, ddof, es). The means are evaluated; the shape with
    the reduced extents replaced holds signed numbers. Simplification: the shape of the
    difference is that of e, of which the reshaped means have the extents or 1. *)
Definition variance_axes (esh : list Z) (e : sexp num) (axes : list Z) (ddof : Z) (keep : bool) : res rexp :=
  let* m := mean_axes esh e axes false in
  let* kd := for_each (fun el k => wrz k el 1) axes esh in
  let* v := reshape_view row_major (Some 64) (mk_xexp false (q_shape m) [] 0 row_major) kd in
  let* mrv := view_operand v (q_at m) in
  mean_ddof esh (XFun f_square [XFun f_minus [e; mrv]]) axes ddof keep.
(** core/xmath.hpp 2193-2219: variance(e, {..}, ddof, es): the axes are converted to std::size_t. *)
Definition variance_braces (esh : list Z) (e : sexp num) (axes : list Z) (ddof : Z) (keep : bool) : res rexp :=
  variance_axes esh e (map to_size_t axes) ddof keep.
(** core/xmath.hpp 2068-2078: variance(e, ddof, es): the mean is read at no index. *)
Definition variance_all (esh : list Z) (e : sexp num) (ddof : Z) (keep : bool) : res rexp :=
  let* m := mean_all esh e keep in
  let* c := q_at m [] in
  mean_noaxis esh (XFun f_square [XFun f_minus [e; XScalar c]]) ddof keep.

(** core/xmath.hpp 1975-1999: the shape to which average reshapes the weights *)
Definition weights_shape (esh wsh axes : list Z) : res (list Z) :=
  if (length wsh =? 1)%nat then
    let* a := rd axes 0 in
    let* n := rdz esh a in
    if negb (compute_size wsh =? n) then Throw runtime_error
    else wrz (repeat 1 (length esh)) a (compute_size wsh)
  else if list_eq_dec Z.eq_dec esh wsh then Ok esh
  else Throw runtime_error.

(** core/xmath.hpp 1973-2005: average(e, weights, axes, es), for weights of shape wsh and
    elements w, of layout L. The sum of the weights is a container. *)
Definition average_axes (esh : list Z) (e : sexp num) (L : layout) (wsh : list Z) (w : list Z -> num) (axes : list Z) (keep : bool) : res rexp :=
  let ax := map (normalize_axis (length esh)) axes in
  let* bs := weights_shape esh wsh ax in
  let* v := reshape_view L None (mk_xexp false wsh [] 0 L) bs in
  let* wv := view_operand v (fun ix => Ok (w ix)) in
  let* scl := sum_axes bs wv ax false in
  let* s := sum_axes esh (XFun f_times [e; wv]) ax keep in
  let* '(sh, _) := expr_shape (EFun [ELeaf (q_shape s); ELeaf (q_shape scl)]) in
  Ok (mk_rexp sh (fun ix => let* x := q_at s ix in let* y := q_at scl (bc_index (q_shape scl) ix) in Ok (ndiv x y))).

(** core/xmath.hpp 2028-2039: average(e, weights, es), for weights of shape wsh *)
Definition average_all (esh : list Z) (e : sexp num) (wsh : list Z) (w : sexp num) (keep : bool) : res rexp :=
  if list_eq_dec Z.eq_dec wsh esh then
    let* d := sum_axes wsh w (all_axes (length wsh)) false in
    let* y := q_at d [] in
    let* s := sum_axes esh (XFun f_times [e; w]) (all_axes (length esh)) keep in
    Ok (mk_rexp (q_shape s) (fun ix => let* x := q_at s ix in Ok (ndiv x y)))
  else Throw runtime_error.
