(** Model of unwrap: /repo/include/xtensor/core/xmath.hpp 3090-3170, in exact arithmetic. An array is a function of indices; the
    rational numbers are compared by ==. *)
From Coq Require Import List ZArith Bool QArith.
From Verif Require Import Prelude Reduce_Model.
Import ListNotations.
Open Scope Z_scope.

Definition qlt (x y : Q) : bool := negb (Qle_bool y x).
Definition qabs (x : Q) : Q := if qlt x 0 then (- x)%Q else x.
(** The conversion of a floating-point number to an integer, towards 0 *)
Definition trunc (x : Q) : Z := Z.quot (Qnum x) (Zpos (Qden x)).
(** std::fmod(x, y), y not 0: x minus the product of y and the truncated quotient *)
Definition fmod (x y : Q) : Q := (x - inject_Z (trunc (x / y)) * y)%Q.

(** An index with entry a replaced *)
Definition with_axis (a : nat) (j : Z) (ix : list Z) : list Z := firstn a ix ++ j :: skipn (S a) ix.

(** core/xmath.hpp 3091-3102: calculate_discontinuity; None: xnone() *)
Definition discontinuity_of (discontinuity : option Q) (period : Q) : Q := match discontinuity with Some d => d | None => ((1 # 2) * period)%Q end.
(** core/xmath.hpp 3104-3122: calculate_interval, second component; [integral]: the elements are integers *)
Definition boundary_ambiguous (integral : bool) (period : Q) : bool := if integral then (trunc period mod 2 =? 0) else true.
(** core/xmath.hpp 3153-3162: ddmod, element by element *)
Definition ddmod (ambiguous : bool) (period dd : Q) : Q :=
  let high := ((1 # 2) * period)%Q in
  let low := (- high)%Q in
  let m := (fmod (fmod (dd - low) period + period) period + low)%Q in
  if ambiguous && (Qeq_bool m low && qlt 0 dd) then high else m.
(** core/xmath.hpp 3163-3164: ph_correct *)
Definition correction (ambiguous : bool) (discont period dd : Q) : Q := if qlt (qabs dd) discont then 0%Q else (ddmod ambiguous period dd - dd)%Q.
(** diff(p, 1, axis) (C74) and cumsum(e, axis) (C43), along axis a *)
Definition difference (a : nat) (p : list Z -> Q) (ix : list Z) : Q := let jx := with_axis a (nth a ix 0 + 1) ix in (p jx - p ix)%Q.
Fixpoint cumulated (a : nat) (e : list Z -> Q) (ix : list Z) (n : nat) : Q :=
  let x := e (with_axis a (Z.of_nat n) ix) in match n with O => x | S n' => (cumulated a e ix n' + x)%Q end.
(** Conversion of the sum to the type of the elements *)
Definition stored (integral : bool) (x : Q) : Q := if integral then inject_Z (trunc x) else x.

(** core/xmath.hpp 3136-3169: unwrap(p, discontinuity, axis, period). The view of up from index 1 on is assigned that of p
    plus the cumulated corrections; the element at index 0 is that of p. *)
Definition unwrapped (integral : bool) (discontinuity : option Q) (period : Q) (a : nat) (p : list Z -> Q) (ix : list Z) : Q :=
  let ph := fun jx => correction (boundary_ambiguous integral period) (discontinuity_of discontinuity period) period (difference a p jx) in
  let i := nth a ix 0 in
  let n := Z.to_nat (i - 1) in
  if i <=? 0 then p ix else stored integral (p ix + cumulated a ph ix n)%Q.
(** 3165: E1 up(p). E1 is a reference when the argument is an lvalue: up is then p itself. The argument after the call, and the result. *)
Definition unwrap (lvalue integral : bool) (dim : nat) (p : list Z -> Q) (discontinuity : option Q) (axis : Z) (period : Q) :
  (list Z -> Q) * (list Z -> Q) :=
  let u := unwrapped integral discontinuity period (Z.to_nat (normalize_axis dim axis)) p in
  (if lvalue then u else p, u).
