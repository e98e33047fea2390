(** One-dimensional functions of core/xmath.hpp: convolve and interp. An expression
    with one axis is the list of its elements. *)
From Coq Require Import List ZArith Bool QArith.
From Verif Require Import Prelude Access_Model.
Import ListNotations.
Open Scope Z_scope.

(** * convolve *)

Inductive cmode := valid | full.

(** core/xmath.hpp 3253-3270: convolve_impl(e1, e2, valid) *)
Definition convolve_valid (e1 e2 : list Z) : res (list Z) :=
  let na := Z.of_nat (length e1) in
  let nv := Z.of_nat (length e2) in
  let n := Z.to_nat (to_size_t (na - nv + 1)) in
  for_up (fun i out =>
    for_up (fun j out =>
      let* x := rd e1 j in
      let* y := rd e2 (j + i) in
      let* o := rd out i in
      wr out i (o + x * y)) 0 (Z.to_nat nv) out) 0 n (repeat 0 n).

(** core/xmath.hpp 3272-3292: convolve_impl(e1, e2, full) *)
Definition convolve_full (e1 e2 : list Z) : res (list Z) :=
  let na := Z.of_nat (length e1) in
  let nv := Z.of_nat (length e2) in
  let n := Z.to_nat (to_size_t (na + nv - 1)) in
  for_up (fun i out =>
    let k := Z.of_nat i in
    let jmn := if to_size_t (nv - 1) <=? k then k - (nv - 1) else 0 in
    let jmx := if k <? to_size_t (na - 1) then k else to_size_t (na - 1) in
    for_up (fun d out =>
      let j := jmn + Z.of_nat d in
      let* x := rdz e1 j in
      let* y := rdz e2 (k - j) in
      let* o := rd out i in
      wr out i (o + x * y)) 0 (Z.to_nat (jmx - jmn + 1)) out) 0 n (repeat 0 n).

(** core/xmath.hpp 3304-3322: convolve, of expressions with da and dv axes. The assertion on
    the sizes is not active by default. *)
Definition convolve (da : Z) (a : list Z) (dv : Z) (v : list Z) (mode : cmode) : res (list Z) :=
  if negb (da =? 1) || negb (dv =? 1) then Throw runtime_error
  else
    let impl := match mode with valid => convolve_valid | full => convolve_full end in
    if Z.of_nat (length a) <? Z.of_nat (length v) then impl v a else impl a v.

(** * interp *)

Definition qlt (x y : Q) : bool := negb (Qle_bool y x).

(** core/xmath.hpp 3034-3041: the elements from the left; the result is the counter and the
    output. *)
Fixpoint fill_left (fuel i : nat) (x xp : list Q) (left : Q) (f : list Q) : res (nat * list Q) :=
  match fuel with
  | O => Ok (i, f)
  | S fuel' =>
      let* xi := rd x i in
      let* x0 := rd xp 0 in
      if qlt x0 xi then Ok (i, f)
      else
        let* f' := wr f i left in
        fill_left fuel' (S i) x xp left f'
  end.
(** core/xmath.hpp 3048-3055: the elements from the right *)
Fixpoint fill_right (imax : nat) (x xp : list Q) (right : Q) (f : list Q) : res (nat * list Q) :=
  match imax with
  | O => Ok (O, f)
  | S i =>
      let* xi := rd x i in
      let* xn := rdz xp (Z.of_nat (length xp) - 1) in
      if qlt xi xn then Ok (imax, f)
      else
        let* f' := wr f i right in
        fill_right i x xp right f'
  end.
(** core/xmath.hpp 3074-3077: the next data point. [fuel] bounds the number of points. *)
Fixpoint seek (fuel ip : nat) (xi : Q) (xp : list Q) : res nat :=
  let* p := rd xp ip in
  if qlt p xi then match fuel with O => UB | S fuel' => seek fuel' (S ip) xi xp end
  else Ok ip.

(** core/xmath.hpp 3016-3090: interp(x, xp, fp, left, right), in exact arithmetic. [junk]: the
    elements of the array that from_shape allocates. *)
Definition interp (junk x xp fp : list Q) (left right : Q) : res (list Q) :=
  let* '(i, f) := fill_left (length x) 0 x xp left junk in
  let* '(imax, f) := fill_right (length x) x xp right f in
  match imax with
  | O => Ok f
  | S m =>
      let* '(_, f) :=
        for_up (fun i '(ip, f) =>
          let* xi := rd x i in
          let* ip := seek (length xp) ip xi xp in
          let* f1 := rd fp ip in
          let* f0 := rd fp (ip - 1) in
          let* x1 := rd xp ip in
          let* x0 := rd xp (ip - 1) in
          let* f' := wr f i (f0 + (f1 - f0) / (x1 - x0) * (xi - x0))%Q in
          Ok (ip, f')) i (S m - i) (1%nat, f) in
      Ok f
  end.

(** core/xmath.hpp 3181-3185: interp(x, xp, fp) *)
Definition interp_default (junk x xp fp : list Q) : res (list Q) :=
  let* left := rdz fp 0 in
  let* right := rdz fp (Z.of_nat (length fp) - 1) in
  interp junk x xp fp left right.
