(** Specification of slicing, after the Python language reference (the
    semantics docs/source/numpy.rst lines 150-165 gives for xt::range): the
    positions selected by a[start:stop:step] on an axis of n elements. *)
From Coq Require Import List ZArith Lia Bool.
Import ListNotations.
Open Scope Z_scope.

(** An omitted step is 1. *)
Definition py_step (step : option Z) : Z := match step with Some s => s | None => 1 end.

(** A bound: negative values count from the end; the result is clamped to
    [0, n] for a positive step and [-1, n-1] for a negative one. *)
Definition py_bound (n s v : Z) : Z :=
  let v := if v <? 0 then v + n else v in
  if 0 <? s then Z.max 0 (Z.min v n) else Z.max (-1) (Z.min v (n - 1)).

Definition py_start (n s : Z) (start : option Z) : Z :=
  match start with
  | Some v => py_bound n s v
  | None => if 0 <? s then 0 else n - 1
  end.
Definition py_stop (n s : Z) (stop : option Z) : Z :=
  match stop with
  | Some v => py_bound n s v
  | None => if 0 <? s then n else -1
  end.

(** x comes before the stop bound in the direction of the step. *)
Definition before (s x stop : Z) : Prop := if 0 <? s then x < stop else stop < x.

(** [selects len at_ P]: the slice enumerates exactly len positions
    at_(0), ..., at_(len-1), the k-th being the k-th term of the progression
    start, start+s, ... and the enumeration stops exactly where the
    progression reaches the stop bound. *)
Definition py_selects (n : Z) (start stop : option Z) (s : Z) (len : Z) (at_ : Z -> Z) : Prop :=
  0 <= len /\
  (forall k, 0 <= k -> (k < len <-> before s (py_start n s start + k * s) (py_stop n s stop))) /\
  (forall k, 0 <= k < len -> at_ k = py_start n s start + k * s).

(** The positions of an axis of n elements that are not listed in ds, in order. *)
Definition survivors (n : Z) (ds : list Z) : list Z :=
  filter (fun x => negb (existsb (Z.eqb x) ds)) (map Z.of_nat (seq 0 (Z.to_nat n))).

(** Strictly increasing. *)
Fixpoint increasing (l : list Z) : Prop :=
  match l with
  | x :: ((y :: _) as t) => x < y /\ increasing t
  | _ => True
  end.

(** Negative positions count from the end. *)
Definition from_end (n v : Z) : Z := if v <? 0 then n + v else v.
