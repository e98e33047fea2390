(** Model of diff and trapz: /repo/include/xtensor/core/xmath.hpp. *)
From Coq Require Import List ZArith Bool QArith Qcanon.
From Verif Require Import Prelude Strides_Model Access_Model Broadcast_Model Slice_Model SView_Model SView_Spec Reshape_Model
  Stepper_Model Container_Model Assign_Model Semantic_Model Reduce_Model Stats_Model.
Import ListNotations.
Open Scope Z_scope.

(** core/xmath.hpp 2700-2702, 2720-2722, 2917-2918 and 2949-2953: xstrided_slice_vector(dimension,
    all()) with the slice of one axis replaced. *)
Definition slice_axis (dim : nat) (saxis : Z) (u : user_slice) : res (list item) := wrz (repeat (Pick UAll) dim) saxis (Pick u).
(** range(1, xnone()) and range(xnone(), shape()[saxis] - 1). The difference is one of
    std::size_t; range converts it to std::ptrdiff_t (views/xslice.hpp 788-825). *)
Definition but_first : user_slice := URange (Some 1) None None.
Definition but_last (n : Z) : user_slice := URange None (Some (to_signed 64 (to_size_t (n - 1)))) None.

Section Diff.
Context {V : Type}.
(** The parameters of an assignment, see Semantic_Model; T is XTENSOR_DEFAULT_TRAVERSAL. *)
Context (g : Z -> setup) (SL : layout) (D : option nat) (DL T : layout) (rs : list V -> Z -> list V) (v : V).

(** strided_view(ad, slices) as an operand of an expression assigned to ad: no static layout and
    no static number of dimensions (views/xstrided_view.hpp 789-808). *)
Definition view_leaf (w : sview) : aexp V :=
  ALeaf (mk_meta KStridedView dynamic None (w_layout w)) (mk_container (w_shape w) (w_strides w) (w_back w) (w_offset w)) None.

(** core/xmath.hpp 2696-2701 and 2716-2721: the body of the loop; [sub] is the minus of operator-
    or, for bool, not_equal. The slices hold no new axis: what the new strides contain before they
    are written does not matter (see SView_Model.fill_args) and is left empty. *)
Definition f_sub (sub : V -> V -> V) (l : list V) : V := match l with [x; y] => sub x y | _ => v end.
Definition diff_operand (sub : V -> V -> V) (saxis : Z) (ad : cont V) : res (aexp V) :=
  let* n := rdz (ct_shape ad) saxis in
  let* slice1 := slice_axis (length (ct_shape ad)) saxis but_first in
  let* slice2 := slice_axis (length (ct_shape ad)) saxis (but_last n) in
  let* v1 := strided_view T (of_cont ad) slice1 [] in
  let* v2 := strided_view T (of_cont ad) slice2 [] in
  Ok (AFun (f_sub sub) [view_leaf v1; view_leaf v2]).
Definition diff_step (sub : V -> V -> V) (saxis : Z) (ad : cont V) (r : fin (cont V)) : Prop :=
  match diff_operand sub saxis ad with
  | Ok e => c_operator_assign g SL D DL rs v ad e r
  | Throw x => r = Threw x ad
  | UB => r = Undefined
  end.
(** core/xmath.hpp 2685-2723: diff_impl::operator() *)
Fixpoint diff_loop (sub : V -> V -> V) (saxis : Z) (n : nat) (ad : cont V) (r : fin (cont V)) : Prop :=
  match n with
  | O => r = Done ad
  | S n' => exists s, diff_step sub saxis ad s /\
      match s with Done ad' => diff_loop sub saxis n' ad' r | _ => r = s end
  end.
(** core/xmath.hpp 2910-2929: diff(a, n, axis) once ad holds the values of a. *)
Definition diff_from (sub : V -> V -> V) (n axis : Z) (ad : cont V) (r : fin (cont V)) : Prop :=
  let saxis := Reduce_Model.normalize_axis (length (ct_shape ad)) axis in
  if n <=? c_size SL ad then diff_loop sub saxis (Z.to_nat n) ad r
  else r = match (let* sh := wrz (ct_shape ad) saxis 0 in c_resize SL DL rs ad sh false) with
           | Ok ad' => Done ad'
           | Throw x => Threw x ad
           | UB => Undefined
           end.
(** core/xmath.hpp 2907-2930: diff(a, n, axis). The temporary_type ad is built from a. *)
Definition diff (sub : V -> V -> V) (a : aexp V) (n axis : Z) (r : fin (cont V)) : Prop :=
  exists s, c_construct g SL D DL rs v a s /\ match s with Done ad => diff_from sub n axis ad r | _ => r = s end.
End Diff.

(** The xfunctions x + y, x * y of numbers *)
Definition f_plus (l : list num) : num := match l with [x; y] => nadd x y | _ => None end.
Definition half : num := Some (Q2Qc (1 # 2)).

(** strided_view(yd, slices) as an operand of a reduction, for a container yd *)
Definition view_term (y : cont num) (w : sview) : sexp num :=
  XStrided (mk_container (w_shape w) (w_strides w) (w_back w) (w_offset w)) (ct_data y).
(** core/xmath.hpp 2949-2958 and 2997-3006: the end of trapz, for a container yd. [dx] is the operand that
    multiplies, [dxs] its shape as far as broadcasting can tell; T is XTENSOR_DEFAULT_TRAVERSAL. eval stores
    the lazy sum: see C36 and C42. *)
Definition trapz_sum (T : layout) (y : cont num) (dx : sexp num) (dxs : expr) (saxis : Z) : res rexp :=
  let dim := length (ct_shape y) in
  let* n := rdz (ct_shape y) saxis in
  let* slice1 := slice_axis dim saxis but_first in
  let* slice2 := slice_axis dim saxis (but_last n) in
  let* v1 := strided_view T (of_cont y) slice1 [] in
  let* v2 := strided_view T (of_cont y) slice2 [] in
  let* '(sh, _) := expr_shape (EFun [EFun [dxs; EFun [ELeaf (w_shape v1); ELeaf (w_shape v2)]]; EScalar]) in
  sum_axes sh (XFun f_times [XFun f_times [dx; XFun f_plus [view_term y v1; view_term y v2]]; XScalar half]) [saxis] false.

(** core/xmath.hpp 2944-2959: trapz(y, dx, axis) *)
Definition trapz (T : layout) (y : cont num) (dx : num) (axis : Z) : res rexp :=
  trapz_sum T y (XScalar dx) EScalar (normalize_axis (length (ct_shape y)) axis).

(** core/xmath.hpp 2971-3007: trapz(y, x, axis), for a container y. [SL], [D], ...: those of the temporary_type of
    x. Simplification: the first dx, of shape (0), is not kept; the assignment of the result of diff is a move. *)
Definition trapz_x (g : Z -> setup) (SL : layout) (D : option nat) (DL T : layout) (rs : list num -> Z -> list num)
  (y : cont num) (x : aexp num) (axis : Z) (r : res rexp) : Prop :=
  let dim := length (ct_shape y) in
  let saxis := normalize_axis dim axis in
  let go (dx : cont num) := trapz_sum T y (XStrided (c_strided dx) (ct_data dx)) (ELeaf (ct_shape dx)) saxis in
  let one := (dimension (a_expr x) =? 1)%nat in
  exists s, diff g SL D DL T rs None nsub x 1 (if one then -1 else axis) s /\
    r = match s with
        | Threw e _ => Throw e
        | Undefined => UB
        | Done dx =>
            if one then
              let* m := rd (ct_shape dx) 0 in
              let* shape := wrz (repeat 1 dim) saxis m in
              let* dx := c_reshape_unsigned SL DL dx shape SL in
              go dx
            else go dx
        end.
