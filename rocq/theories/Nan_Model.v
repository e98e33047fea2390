(** Model of the reducers that ignore NaN, of the counts and of minmax:
    /repo/include/xtensor/core/xmath.hpp. *)
From Coq Require Import List ZArith Bool QArith Qcanon.
From Verif Require Import Prelude Strides_Model Access_Model Broadcast_Spec SView_Model Reshape_Model Stepper_Model Reduce_Model Container_Model Accum_Model Stats_Model.
Import ListNotations.
Open Scope Z_scope.

(** Here [None] is NaN; simplification: there are no infinite numbers and there is no rounding. *)
Definition isnan (x : num) : bool := match x with None => true | Some _ => false end.

(** core/xmath.hpp 2368-2396: nan_min and nan_max *)
Definition lower (x y : num) : num := lift2 (fun a b => if Qclt_le_dec b a then b else a) x y.
Definition upper (x y : num) : num := lift2 (fun a b => if Qclt_le_dec a b then b else a) x y.
Definition nan_min (l r : num) : num := if isnan l then r else if isnan r then l else lower l r.
Definition nan_max (l r : num) : num := if isnan l then r else if isnan r then l else upper l r.
(** core/xmath.hpp 2398-2414: nan_plus and nan_multiplies *)
Definition nan_plus (l r : num) : num := if negb (isnan r) then nadd l r else l.
Definition nan_multiplies (l r : num) : num := if negb (isnan r) then nmul l r else l.
(** core/xmath.hpp 2416-2426: nan_init *)
Definition nan_init (v : Z) (x : num) : num := if isnan x then to_num v else x.

(** core/xmath.hpp 2462, 2477, 2494 and 2511: the functors of nanmin, nanmax, nansum and nanprod.
    Without a functor to merge with, the functor itself merges: reducers/xreducer.hpp 606-690. *)
Definition nanmin_f : rfun num num := mk_rfun nan_min None nan_min.
Definition nanmax_f : rfun num num := mk_rfun nan_max None nan_max.
Definition nansum_f : rfun num num := mk_rfun nan_plus (to_num 0) nan_plus.
Definition nanprod_f : rfun num num := mk_rfun nan_multiplies (to_num 1) nan_multiplies.

(** x != 0 *)
Definition nonzero (x : num) : bool := match x with None => true | Some a => if Qc_eq_dec a 0 then false else true end.
(** core/xmath.hpp 2513-2526: the functors of count_nonzero. Simplification: counts do not
    overflow. *)
Definition count_f : rfun num Z := mk_rfun (fun l r => if nonzero r then l + 1 else l) 0 Z.add.

(** What is obtained lazily: a shape, and what is read at an index. *)
Record gexp (R : Type) : Type := mk_gexp { g_shape : list Z; g_at : list Z -> res R }.
Arguments mk_gexp {R}. Arguments g_shape {R}. Arguments g_at {R}.

(** reducers/xreducer.hpp 917-942: reduce(f, e, axes, es), lazy, for an expression of shape esh *)
Definition reduce_axes {T R} (f : rfun T R) (dflt : R) (esh : list Z) (e : sexp T) (axes : list Z) (keep : bool) : res (gexp R) :=
  let* r := make_reducer esh (map (normalize_axis (length esh)) axes) keep None in
  Ok (mk_gexp (r_shape r) (fun ix => rs_element f dflt esh (x_ops esh e) (x_deref e) r (x_begin e) ix)).

(** !isnan(x), read as a number *)
Definition f_notnan (l : list num) : num := match l with [x] => to_num (if isnan x then 0 else 1) | _ => None end.
(** core/xmath.hpp 2541-2555 and 2587-2594: count_nonzero(e, axes, es) and count_nonnan(e, axes, es) *)
Definition count_nonzero (esh : list Z) (e : sexp num) (axes : list Z) (keep : bool) : res (gexp Z) := reduce_axes count_f 0 esh e axes keep.
Definition count_nonnan (esh : list Z) (e : sexp num) (axes : list Z) (keep : bool) : res (gexp Z) := count_nonzero esh (XFun f_notnan [e]) axes keep.

(** core/xmath.hpp 2741-2761 and 2763-2773: nanmean(e, axes, es), and nanmean(e, es) with all axes.
    The operands of the quotient have the same shape. *)
Definition nanmean (esh : list Z) (e : sexp num) (axes : list Z) (keep : bool) : res (gexp num) :=
  let* s := reduce_axes nansum_f None esh e axes keep in
  let* c := count_nonnan esh e axes keep in
  Ok (mk_gexp (g_shape s) (fun ix => let* x := g_at s ix in let* n := g_at c ix in Ok (ndiv x (to_num n)))).

(** core/xmath.hpp 2785-2790: nanvar(e, es). Simplification: the mean, which does not depend on
    the index, is read once. *)
Definition nanvar_all (esh : list Z) (e : sexp num) (keep : bool) : res (gexp num) :=
  let* m := nanmean esh e (all_axes (length esh)) false in
  let* c := g_at m [] in
  nanmean esh (XFun f_square [XFun f_minus [e; XScalar c]]) (all_axes (length esh)) keep.
(** core/xmath.hpp 2817-2848: nanvar(e, axes, es) *)
Definition nanvar (esh : list Z) (e : sexp num) (axes : list Z) (keep : bool) : res (gexp num) :=
  let* m := nanmean esh e axes false in
  let* kd := for_each (fun el k => wrz k el 1) axes esh in
  let* v := reshape_view row_major (Some 64) (mk_xexp false (g_shape m) [] 0 row_major) kd in
  let* mrv := view_operand v (g_at m) in
  nanmean esh (XFun f_square [XFun f_minus [e; mrv]]) axes keep.

(** The values of an integral type with the limits lo and hi *)
Definition value (lo hi : Z) : Type := { z : Z | lo <= z <= hi }.
(** core/xmath.hpp 2230-2262: minmax(e, es) *)
Definition minmax_f (lo hi : Z) : rfun (value lo hi) (Z * Z) :=
  mk_rfun (fun r v => (Z.min (fst r) (proj1_sig v), Z.max (snd r) (proj1_sig v))) (hi, lo)
    (fun r s => (Z.min (fst r) (fst s), Z.max (snd r) (snd s))).
Definition minmax (lo hi : Z) (esh : list Z) (e : sexp (value lo hi)) (keep : bool) : res (gexp (Z * Z)) :=
  reduce_axes (minmax_f lo hi) (0, 0) esh e (all_axes (length esh)) keep.

(** core/xmath.hpp 2626-2635 and 2661-2670: nancumsum(e, axis) and nancumprod(e, axis) *)
Definition nancumsum (SL : layout) (c : cont num) (axis : Z) : res (cont num) := accumulate_axis nan_plus SL (Some (nan_init 0)) c axis.
Definition nancumprod (SL : layout) (c : cont num) (axis : Z) : res (cont num) := accumulate_axis nan_multiplies SL (Some (nan_init 1)) c axis.
