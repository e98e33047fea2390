(** Element-wise functions of core/xmath.hpp: powers with a constant exponent, minimum, maximum, clip, sign, isclose, nan_to_num; all, any and
    allclose; the functors of amin and amax. *)
From Coq Require Import List ZArith Bool QArith Qcanon.
From Verif Require Import Prelude Strides_Model Broadcast_Model Broadcast_Spec Reshape_Model Reduce_Model Reduce_Spec Norm_Model.
Import ListNotations.
Open Scope Z_scope.

(** ** Floating-point numbers *)

(** NaN, infinities (true: the negative one) and numbers, in exact arithmetic: no rounding, no overflow, one zero. *)
Inductive fl : Type := NaN | Inf (neg : bool) | Fin (q : Qc).
Definition qlt (a b : Qc) : bool := match (a ?= b)%Qc with Lt => true | _ => false end.
Definition fl_lt (x y : fl) : bool :=
  match x, y with
  | NaN, _ | _, NaN => false
  | Inf s, Inf t => s && negb t
  | Inf s, Fin _ => s
  | Fin _, Inf t => negb t
  | Fin a, Fin b => qlt a b
  end.
Definition fl_eq (x y : fl) : bool :=
  match x, y with Inf s, Inf t => Bool.eqb s t | Fin a, Fin b => negb (qlt a b) && negb (qlt b a) | _, _ => false end.
Definition fl_le (x y : fl) : bool := fl_lt x y || fl_eq x y.
Definition fl_sub (x y : fl) : fl :=
  match x, y with
  | NaN, _ | _, NaN => NaN
  | Inf s, Inf t => if Bool.eqb s t then NaN else Inf s
  | Inf s, Fin _ => Inf s
  | Fin _, Inf t => Inf (negb t)
  | Fin a, Fin b => Fin (a - b)%Qc
  end.
Definition fl_abs (x : fl) : fl := match x with NaN => NaN | Inf _ => Inf false | Fin a => Fin (if qlt a 0%Qc then - a else a)%Qc end.
Definition fl_mul (x y : fl) : fl :=
  let by_inf := fun a s => if qlt a 0%Qc then Inf (negb s) else if qlt 0%Qc a then Inf s else NaN in
  match x, y with
  | NaN, _ | _, NaN => NaN
  | Inf s, Inf t => Inf (xorb s t)
  | Inf s, Fin a => by_inf a s
  | Fin a, Inf s => by_inf a s
  | Fin a, Fin b => Fin (a * b)%Qc
  end.
(** core/xmath.hpp 222-240: isnan and isinf *)
Definition is_nan (x : fl) : bool := match x with NaN => true | _ => false end.
Definition is_inf (x : fl) : bool := match x with Inf _ => true | _ => false end.

(** ** Functors *)

(** core/xmath.hpp 573-616: minimum, maximum and clamp_fun; xtl::select(c, x, y) is c ? x : y. [lt]: operator<; t1 > t2 is t2 < t1. *)
Definition minimum {A} (lt : A -> A -> bool) (t1 t2 : A) : A := if lt t1 t2 then t1 else t2.
Definition maximum {A} (lt : A -> A -> bool) (t1 t2 : A) : A := if lt t2 t1 then t1 else t2.
Definition clamp {A} (lt : A -> A -> bool) (v lo hi : A) : A := if lt v lo then lo else if lt hi v then hi else v.

(** core/xmath.hpp 827-853: sign_impl. copysign(m, x), x not a NaN: the magnitude of m with the sign of x. *)
Definition copysign (m : Qc) (x : fl) : fl := Fin (if fl_lt x (Fin 0%Qc) then - m else m)%Qc.
Definition sign_fl (x : fl) : fl := if is_nan x then NaN else if fl_eq x (Fin 0%Qc) then copysign 0 x else copysign 1 x.
(** Signed integers: copysign converts to double and back, which is exact for 0, 1 and -1. *)
Definition sign_int (x : Z) : Z := if x =? 0 then 0 else if x <? 0 then - 1 else 1.
Definition sign_uint (x : Z) : Z := if 0 <? x then 1 else 0.
Definition sign_complex (x : fl * fl) : fl * fl := (sign_fl (if negb (fl_eq (fst x) (Fin 0%Qc)) then fst x else snd x), Fin 0%Qc).

(** core/xmath.hpp 1731-1768: isclose. std::max(x, y) is (x < y) ? y : x. *)
Definition std_max (x y : fl) : fl := if fl_lt x y then y else x.
Definition isclose (rtol atol : fl) (equal_nan : bool) (a b : fl) : bool :=
  if is_nan a && is_nan b then equal_nan
  else if is_inf a && is_inf b then fl_eq a b
  else
    let d := fl_abs (fl_sub a b) in
    fl_le d atol || fl_le d (fl_mul rtol (std_max (fl_abs a) (fl_abs b))).

(** core/xmath.hpp 2344-2366: nan_to_num_functor; [top]: numeric_limits::max(), lowest() is its opposite *)
Definition nan_to_num (top : Qc) (a : fl) : fl :=
  if is_nan a then Fin 0%Qc else if is_inf a then (if fl_lt a (Fin 0%Qc) then Fin (- top)%Qc else Fin top) else a.

(** ** Powers *)

Section Power.
  (** T: the type of the elements; R: that of their products; [inj]: conversion to R; [conv]: conversion back. Products may be
      undefined. *)
  Context {T R : Type} (one : T) (inj : T -> R) (conv : R -> T) (mul : R -> R -> res R).
  (** core/xmath.hpp 1170-1198: pow_impl<N>; the fuel only serves termination. *)
  Fixpoint pow_impl (fuel N : nat) (v : T) : res R :=
    match N with
    | 0%nat => Ok (inj one)
    | 1%nat => Ok (inj v)
    | _ =>
        match fuel with
        | 0%nat => UB
        | S fuel' =>
            let* p := pow_impl fuel' (Nat.div N 2) v in
            let temp := conv p in
            let* s := mul (inj temp) (inj temp) in
            let* b := pow_impl fuel' (Nat.modulo N 2) v in
            mul s b
        end
    end.
End Power.
(** core/xmath.hpp 1219-1224: pow<N>(e), the functor; 1126-1135 and 1149-1158: square and cube *)
Definition pow_n {T R} one (inj : T -> R) conv mul (N : nat) (v : T) : res R := pow_impl one inj conv mul N N v.
Definition square_f {R} (mul : R -> R -> res R) (x : R) : res R := mul x x.
Definition cube_f {R} (mul : R -> R -> res R) (x : R) : res R := let* y := mul x x in mul y x.
(** Integers of type t: products are computed in the promoted type (Norm_Model); overflow of a signed type is undefined, that of
    an unsigned type wraps. Conversions to a narrower type wrap. *)
Definition int_conv (t : ity) (z : Z) : Z := if signed t then to_signed (bits t) z else z mod 2 ^ bits t.
Definition int_mul (t : ity) (a b : Z) : res Z :=
  let p := promoted t in
  if signed p then (if (low p <=? a * b) && (a * b <=? high p) then Ok (a * b) else UB) else Ok ((a * b) mod 2 ^ bits p).
Definition pow_int (t : ity) (N : nat) (v : Z) : res Z := pow_n 1 (fun x => x) (int_conv t) (int_mul t) N v.

(** ** all, any, allclose *)

(** core/xoperation.hpp 935-972: std::any_of and std::all_of over the elements of an expression in the default traversal; [e]: the
    element at an index, read as a truth value *)
Fixpoint all_of (l : list (res bool)) : res bool :=
  match l with [] => Ok true | x :: l' => let* b := x in if b : bool then all_of l' else Ok false end.
Fixpoint any_of (l : list (res bool)) : res bool :=
  match l with [] => Ok false | x :: l' => let* b := x in if b : bool then Ok true else any_of l' end.
Definition x_all (DT : layout) (sh : list Z) (e : list Z -> res bool) : res bool := all_of (map e (indices_of DT sh)).
Definition x_any (DT : layout) (sh : list Z) (e : list Z -> res bool) : res bool := any_of (map e (indices_of DT sh)).
(** core/xmath.hpp 1810-1813: allclose, noexcept. The operands: shape and element access (for their iteration, C34). The tolerances are those of isclose;
    equal_nan has its default value. *)
Definition allclose (DT : layout) (rtol atol : fl) (s1 : list Z) (e1 : list Z -> res fl) (s2 : list Z) (e2 : list Z -> res fl) : called bool :=
  noexcept (
    let* '(sh, _) := expr_shape (EFun [ELeaf s1; ELeaf s2]) in
    x_all DT sh (fun ix => let* a := e1 (bc_index s1 ix) in let* b := e2 (bc_index s2 ix) in Ok (isclose rtol atol false a b))).

(** ** amax and amin *)

(** core/xmath.hpp 772-798: the functors; [lowest], [highest]: numeric_limits of the element type *)
Definition amax_f {A} (lt : A -> A -> bool) (lowest : A) : rfun A A := mk_rfun (maximum lt) lowest (maximum lt).
Definition amin_f {A} (lt : A -> A -> bool) (highest : A) : rfun A A := mk_rfun (minimum lt) highest (minimum lt).
