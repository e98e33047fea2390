(** Model of the norms of integers and of arrays of integers:
    /repo/include/xtensor/reducers/xnorm.hpp. *)
From Coq Require Import List ZArith Bool.
From Verif Require Import Prelude Strides_Model Access_Model Stepper_Model Container_Model Reduce_Model Nan_Model.
Import ListNotations.
Open Scope Z_scope.

(** The integral types for which xnorm.hpp 242-247 and 282-286 define norms: signed char, short,
    int, long (and long long), and the unsigned ones. *)
Inductive width : Type := W8 | W16 | W32 | W64.
Record ity : Type := mk_ity { signed : bool; wide : width }.
Definition bits (t : ity) : Z := match wide t with W8 => 8 | W16 => 16 | W32 => 32 | W64 => 64 end.
(** The least and the greatest value of a type *)
Definition low (t : ity) : Z := if signed t then - 2 ^ (bits t - 1) else 0.
Definition high (t : ity) : Z := if signed t then 2 ^ (bits t - 1) - 1 else 2 ^ bits t - 1.
(** The C++ rule by which operands narrower than int become int *)
Definition promoted (t : ity) : ity := match wide t with W8 | W16 => mk_ity true W32 | _ => t end.
(** xtl::big_promote_type_t (not part of /repo): int64_t, or uint64_t for unsigned types *)
Definition big (t : ity) : ity := mk_ity (signed t) W64.

(** The value of an operation that gives z, not negative, in type t: unsigned types wrap around,
    signed ones are undefined when z is no value of the type. [None] is the undefined outcome. *)
Definition value_in (t : ity) (z : Z) : option N :=
  if signed t then (if z <=? high t then Some (Z.to_N z) else None) else Some (Z.to_N (z mod 2 ^ bits t)).

(** xnorm.hpp 219-222 and 261-264: norm_l0(t) *)
Definition scalar_l0 (v : Z) : option N := Some (if v =? 0 then 0%N else 1%N).
(** xnorm.hpp 223-226 and 265-268: norm_l1(t); 231-234 and 273-276: norm_linf(t). std::abs is that
    of the promoted type. *)
Definition scalar_l1 (t : ity) (v : Z) : option N := if signed t then value_in (promoted t) (Z.abs v) else Some (Z.to_N v).
Definition scalar_linf (t : ity) (v : Z) : option N := if signed t then value_in (promoted t) (Z.abs v) else Some (Z.to_N v).
(** xnorm.hpp 235-238 and 277-280: norm_sq(t), a product in the promoted type *)
Definition scalar_sq (t : ity) (v : Z) : option N := value_in (promoted t) (v * v).

Definition lift {A} (f : N -> N -> option A) (x y : option N) : option A :=
  match x, y with Some a, Some b => f a b | _, _ => None end.
Definition plus_in (t : ity) : option N -> option N -> option N := lift (fun a b => value_in t (Z.of_N a + Z.of_N b)).
Definition max_of : option N -> option N -> option N := lift (fun a b => Some (N.max a b)).

(** xnorm.hpp 397-435: the functors of the reductions. An accumulated value is a number or [None]
    when something undefined has happened. *)
Definition l0_f : rfun Z (option N) := mk_rfun (fun r v => plus_in (mk_ity false W64) r (scalar_l0 v)) (Some 0%N) (plus_in (mk_ity false W64)).
Definition l1_f (t : ity) : rfun Z (option N) := mk_rfun (fun r v => plus_in (big t) r (scalar_l1 t v)) (Some 0%N) (plus_in (big t)).
Definition sq_f (t : ity) : rfun Z (option N) := mk_rfun (fun r v => plus_in (big t) r (scalar_sq t v)) (Some 0%N) (plus_in (big t)).
Definition linf_f (t : ity) : rfun Z (option N) := mk_rfun (fun r v => max_of r (scalar_linf t v)) (Some 0%N) max_of.

(** A call of a function declared noexcept: an exception that leaves it ends the program. *)
Inductive called (A : Type) : Type := Returned (a : A) | Terminated | Undefined.
Arguments Returned {A}. Arguments Terminated {A}. Arguments Undefined {A}.
Definition noexcept {A} (m : res A) : called A := match m with Ok a => Returned a | Throw _ => Terminated | UB => Undefined end.

(** xnorm.hpp 397-415: NAME(e, axes, es), lazy, for a sequence of axes *)
Definition norm_axes (f : rfun Z (option N)) (esh : list Z) (e : sexp Z) (axes : list Z) (keep : bool) : called (gexp (option N)) :=
  noexcept (reduce_axes f None esh e axes keep).
(** xnorm.hpp 417-421: NAME(e, es) *)
Definition norm_all (f : rfun Z (option N)) (esh : list Z) (e : sexp Z) (keep : bool) : called (gexp (option N)) :=
  norm_axes f esh e (all_axes (length esh)) keep.
(** xnorm.hpp 369-375: NAME(e, {axes...}, es): the axes are converted to std::size_t *)
Definition norm_braces (f : rfun Z (option N)) (esh : list Z) (e : sexp Z) (axes : list Z) (keep : bool) : called (gexp (option N)) :=
  norm_axes f esh e (map to_size_t axes) keep.
(** The value read from the result *)
Definition norm_at (q : gexp (option N)) (ix : list Z) : res Z :=
  let* x := g_at q ix in match x with Some n => Ok (Z.of_N n) | None => UB end.

(** xnorm.hpp 629-637 and 649-657: norm_induced_l1 and norm_induced_linf, lazy. Simplification: the
    elements of the inner reduction are read by index (reading them one after the other gives the
    same values, C41). The elements read are numbers of the type big t. *)
Definition induced_f (t : ity) : rfun (option N) (option N) :=
  mk_rfun (fun r v => max_of r (match v with Some n => scalar_linf t (Z.of_N n) | None => None end)) (Some 0%N) max_of.
Definition induced (axis : Z) (t : ity) (esh : list Z) (e : sexp Z) (keep : bool) : res (called (gexp (option N))) :=
  if negb (length esh =? 2)%nat then Throw runtime_error else
  Ok match norm_braces (l1_f t) esh e [axis] keep with
  | Returned q => noexcept (reduce_axes (induced_f (big t)) None (g_shape q)
      (XIndexed (g_shape q) (fun ix => match g_at q ix with Ok x => x | _ => None end)) (all_axes (length (g_shape q))) keep)
  | Terminated => Terminated
  | Undefined => Undefined
  end.
