(** Model of roll, /repo/include/xtensor/misc/xmanipulation.hpp 937-1074. Both overloads
    read the expression through e.begin() ... e.end() and write the result through
    cpy.begin(), cpy having the shape of e; both iterators go through the elements
    in the order of XTENSOR_DEFAULT_TRAVERSAL (C11), so the functions are modelled
    on the sequence of elements in that order. An iterator is its position; the
    output iterator only moves forward, so writing through it appends. Reading
    outside the sequence is undefined. *)
From Coq Require Import List ZArith Bool.
From Verif Require Import Prelude.
Import ListNotations.
Open Scope Z_scope.

(** 963-966 and 1067-1070: while (shift < 0) shift += n. After -shift rounds either
    the loop has ended or n is not positive and it never ends, which is undefined
    (a loop without side effects may be assumed to terminate). *)
Fixpoint while_negative (fuel : nat) (shift n : Z) : res Z :=
  if shift <? 0 then
    match fuel with
    | O => UB
    | S fuel => while_negative fuel (shift + n) n
    end
  else Ok shift.
Definition make_positive (shift n : Z) : res Z := while_negative (Z.to_nat (- shift)) shift n.

(** std::copy(first, last, out) on positions of [s]. *)
Definition copy_range {V} (s : list V) (first last : Z) (out : list V) : res (list V) :=
  for_up (fun i out => let* x := rdz s (first + Z.of_nat i) in Ok (out ++ [x])) 0 (Z.to_nat (last - first)) out.

(** 953-973: roll(e, shift). *)
Definition roll_flat {V} (s : list V) (shape : list Z) (shift : Z) : res (list V) :=
  let flat_size := fold_left Z.mul shape 1 in
  let* shift := make_positive shift flat_size in
  let* shift := crem shift flat_size in
  let size := Z.of_nat (length s) in
  let* out := copy_range s (size - shift) size [] in
  copy_range s 0 (size - shift) out.

(** for (iter = first; iter != last; iter += offset) body(iter). Without an offset
    the loop does not end unless first = last. *)
Fixpoint walk {V} (fuel : nat) (body : Z -> list V -> res (list V)) (iter last offset : Z) (out : list V) : res (list V) :=
  if iter =? last then Ok out else
  match fuel with
  | O => UB
  | S fuel => let* out := body iter out in walk fuel body (iter + offset) last offset out
  end.
Definition loop {V} (body : Z -> list V -> res (list V)) (first last offset : Z) (out : list V) : res (list V) :=
  walk (Z.to_nat (Z.abs (last - first))) body first last offset out.

(** 980-1035: detail::roll; [sh] is the shape from axis M on. *)
Fixpoint roll_impl {V} (s : list V) (shift : Z) (axis M : nat) (sh : list Z) (from : Z) (out : list V) {struct sh} : res (list V) :=
  match sh with
  | [] => UB
  | dim :: rest =>
      let offset := fold_left Z.mul rest 1 in
      let line := match rest with
        | [] => fun iter out => let* x := rdz s iter in Ok (out ++ [x])
        | _ :: _ => roll_impl s shift axis (M + 1)%nat rest
        end in
      if (axis =? M)%nat then
        let split := from + (dim - shift) * offset in
        let* out := loop line split (from + dim * offset) offset out in
        loop line from split offset out
      else loop line from (from + dim * offset) offset out
  end.

(** 1050-1074: roll(e, shift, axis). saxis is the axis converted to std::size_t
    before a negative axis is adjusted, so it is at least the dimension for every
    negative axis. *)
Definition roll_axis {V} (s : list V) (shape : list Z) (shift axis : Z) : res (list V) :=
  if (axis <? 0) || (Z.of_nat (length shape) <=? axis) then Throw runtime_error else
  let* axis_dim := rdz shape axis in
  let* shift := make_positive shift axis_dim in
  roll_impl s shift (Z.to_nat axis) 0 shape 0 [].
