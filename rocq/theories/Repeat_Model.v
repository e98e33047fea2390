(** Model of xt::repeat: /repo/include/xtensor/views/xrepeat.hpp and
    /repo/include/xtensor/misc/xmanipulation.hpp 1080-1144. The stepper of the
    repeated expression is abstract (any [stepper_ops]). Extents, repeats and
    positions are unbounded integers, except where a difference of unsigned
    numbers may wrap, which goes through [to_size_t]. *)
From Coq Require Import List ZArith Bool.
From Verif Require Import Prelude Strides_Model Access_Model Stepper_Model.
Import ListNotations.
Open Scope Z_scope.

(** ** Construction *)

(** xrepeat::xrepeat, views/xrepeat.hpp 257-269. m_e is initialised before
    m_shape, so the shape is read from an argument that may have been moved from:
    [moved] is the case of a temporary xarray, whose shape (an svector of inline
    capacity 4, swapped with a default constructed one, containers/xstorage.hpp
    894-899) is then empty; writing m_shape[axis] does not change the size of an
    svector. *)
Definition rp_shape (moved : bool) (esh repeats : list Z) (axis : nat) : res (list Z) :=
  if moved then (if (axis <? 4)%nat then Ok [] else UB)
  else wr esh axis (fold_left Z.add repeats 0).

(** detail::make_xrepeat, misc/xmanipulation.hpp 1082-1091: the shape of the
    result, or the exception. e.shape(axis) is not checked. *)
Definition make_xrepeat (moved : bool) (esh repeats : list Z) (axis : nat) : res (list Z) :=
  let* d := rd esh axis in
  if negb (Z.of_nat (length repeats) =? d) then Throw invalid_argument
  else rp_shape moved esh repeats axis.

(** repeat(e, n, axis), lines 1104-1111: the broadcast repeats. *)
Definition repeat_n (esh : list Z) (n : Z) (axis : nat) : res (list Z) :=
  let* d := rd esh axis in Ok (repeat n (Z.to_nat d)).

(** ** xrepeat_stepper, views/xrepeat.hpp 468-702 *)
Record rp_state (S : Type) : Type := mk_rp {
  rp_sub : S; rp_steps : Z; rp_pos : list Z; rp_subpos : Z
}.
Arguments mk_rp {S}. Arguments rp_sub {S}. Arguments rp_steps {S}. Arguments rp_pos {S}. Arguments rp_subpos {S}.

(** The while loop of make_step, lines 614-618; a sub-position outside the
    repeats is read out of bounds. Every iteration moves the sub-position by
    one, so [fuel] can be the number of repeats plus one. *)
Fixpoint rp_forward (repeats : list Z) (fuel : nat) (steps subpos : Z) : res (Z * Z) :=
  match fuel with
  | O => UB
  | S fuel' =>
      let* r := rdz repeats subpos in
      if r <=? steps then rp_forward repeats fuel' (steps - r) (subpos + 1) else Ok (steps, subpos)
  end.

(** The while loop of make_step_back, lines 639-643. *)
Fixpoint rp_backward (repeats : list Z) (fuel : nat) (steps subpos : Z) : res (Z * Z) :=
  if steps <? 0 then
    match fuel with
    | O => UB
    | S fuel' =>
        let* r := rdz repeats (subpos - 1) in
        rp_backward repeats fuel' (steps + r) (subpos - 1)
    end
  else Ok (steps, subpos).

(** The while loops of get_next_positions (661-665, [next >= extent]) and
    get_next_positions_back (686-690, [next < 0]): the remaining position and
    the number of iterations. They do not end on an extent 0, which is reported
    as UB. *)
Fixpoint wrap_up (fuel : nat) (d next steps : Z) : res (Z * Z) :=
  if next <? d then Ok (next, steps)
  else match fuel with O => UB | S fuel' => wrap_up fuel' d (next - d) (steps + 1) end.
Fixpoint wrap_down (fuel : nat) (d next steps : Z) : res (Z * Z) :=
  if next <? 0 then
    match fuel with O => UB | S fuel' => wrap_down fuel' d (next + d) (steps + 1) end
  else Ok (next, steps).

(** get_next_positions, lines 654-677 *)
Fixpoint next_positions (shape pos : list Z) (dim : nat) (n : Z) : res (list Z) :=
  let* p := rd pos dim in
  match dim with
  | O => wr pos dim (p + n)
  | S dim' =>
      let* d := rd shape dim in
      let* '(nx, k) := wrap_up (S (Z.to_nat (p + n))) d (p + n) 0 in
      if 0 <? k then let* np := next_positions shape pos dim' k in wr np dim nx
      else wr pos dim nx
  end.

(** get_next_positions_back, lines 679-702 *)
Fixpoint next_positions_back (shape pos : list Z) (dim : nat) (n : Z) : res (list Z) :=
  let* p := rd pos dim in
  match dim with
  | O => wr pos dim (to_size_t (p - n))
  | S dim' =>
      let* d := rd shape dim in
      let* '(nx, k) := wrap_down (S (Z.to_nat (n - p))) d (p - n) 0 in
      if 0 <? k then let* np := next_positions_back shape pos dim' k in wr np dim nx
      else wr pos dim nx
  end.

Section RepeatStepper.
Context {S : Type} (ops : stepper_ops S) (shape repeats : list Z) (axis : nat).

(** Constructor, lines 472-482 *)
Definition rp_begin (s : S) : rp_state S := mk_rp s 0 (map (fun _ => 0) shape) 0.

(** make_step, lines 604-627 *)
Definition rp_make_step (dim : nat) (n : Z) (st : rp_state S) : res (rp_state S) :=
  if 0 <? n then
    let* '(sub, steps, subpos) :=
      (if (dim =? axis)%nat then
         let* '(steps, subpos) :=
           rp_forward repeats (Datatypes.S (length repeats)) (rp_steps st + n) (rp_subpos st) in
         let* sub := s_step ops dim (subpos - rp_subpos st) (rp_sub st) in
         Ok (sub, steps, subpos)
       else
         let* sub := s_step ops dim n (rp_sub st) in Ok (sub, rp_steps st, rp_subpos st)) in
    let* p := rd (rp_pos st) dim in
    let* pos := wr (rp_pos st) dim (p + n) in
    Ok (mk_rp sub steps pos subpos)
  else Ok st.

(** make_step_back, lines 629-652. The position is not made to wrap: n exceeds it
    only when the stepper is moved before the beginning. *)
Definition rp_make_step_back (dim : nat) (n : Z) (st : rp_state S) : res (rp_state S) :=
  if 0 <? n then
    let* '(sub, steps, subpos) :=
      (if (dim =? axis)%nat then
         let* '(steps, subpos) :=
           rp_backward repeats (Datatypes.S (length repeats)) (rp_steps st - n) (rp_subpos st) in
         let* sub := s_step_back ops dim (rp_subpos st - subpos) (rp_sub st) in
         Ok (sub, steps, subpos)
       else
         let* sub := s_step_back ops dim n (rp_sub st) in Ok (sub, rp_steps st, rp_subpos st)) in
    let* p := rd (rp_pos st) dim in
    let* pos := wr (rp_pos st) dim (p - n) in
    Ok (mk_rp sub steps pos subpos)
  else Ok st.

(** step, lines 490-513. The positions of the other axes are read again at every
    turn of the loop of lines 504-507. *)
Definition rp_step (dim : nat) (n : Z) (st : rp_state S) : res (rp_state S) :=
  let* p := rd (rp_pos st) dim in
  let* d := rd shape dim in
  if d <=? p + n then
    let* np := next_positions shape (rp_pos st) dim n in
    let* q := rd np dim in
    let* st := (if p <? q then rp_make_step dim (q - p) st else rp_make_step_back dim (p - q) st) in
    for_up (fun k st => let* a := rd np k in let* b := rd (rp_pos st) k in
                        rp_make_step k (to_size_t (a - b)) st) 0 dim st
  else rp_make_step dim n st.

(** step_back, lines 515-538 *)
Definition rp_step_back (dim : nat) (n : Z) (st : rp_state S) : res (rp_state S) :=
  let* p := rd (rp_pos st) dim in
  if p <? n then
    let* np := next_positions_back shape (rp_pos st) dim n in
    let* q := rd np dim in
    let* st := (if q <? p then rp_make_step_back dim (p - q) st else rp_make_step dim (q - p) st) in
    for_up (fun k st => let* a := rd np k in let* b := rd (rp_pos st) k in
                        rp_make_step_back k (to_size_t (b - a)) st) 0 dim st
  else rp_make_step_back dim n st.

(** reset, lines 540-550 *)
Definition rp_reset (dim : nat) (st : rp_state S) : res (rp_state S) :=
  let* sub := s_reset ops dim (rp_sub st) in
  let* pos := wr (rp_pos st) dim 0 in
  if (dim =? axis)%nat then Ok (mk_rp sub 0 pos 0)
  else Ok (mk_rp sub (rp_steps st) pos (rp_subpos st)).

(** reset_back, lines 552-562; m_repeats.back() of an empty vector is undefined. *)
Definition rp_reset_back (dim : nat) (st : rp_state S) : res (rp_state S) :=
  let* sub := s_reset_back ops dim (rp_sub st) in
  let* d := rd shape dim in
  let* pos := wr (rp_pos st) dim (d - 1) in
  if (dim =? axis)%nat then
    let* r := rdz repeats (Z.of_nat (length repeats) - 1) in
    Ok (mk_rp sub (r - 1) pos (Z.of_nat (length repeats) - 1))
  else Ok (mk_rp sub (rp_steps st) pos (rp_subpos st)).

(** to_begin, lines 564-571 *)
Definition rp_to_begin (st : rp_state S) : res (rp_state S) :=
  let* sub := s_to_begin ops (rp_sub st) in
  Ok (mk_rp sub 0 (map (fun _ => 0) (rp_pos st)) 0).

(** to_end, lines 573-596: the first position is one past the end when l is row
    major, the last one otherwise. *)
Definition rp_to_end (l : layout) (st : rp_state S) : res (rp_state S) :=
  let* sub := s_to_end ops l (rp_sub st) in
  let pos := map (fun d => d - 1) shape in
  let k := match l with row_major => 0%nat | _ => (length shape - 1)%nat end in
  let* p := rd pos k in
  let* pos := wr pos k (p + 1) in
  Ok (mk_rp sub 0 pos (Z.of_nat (length repeats))).

Definition rp_ops : stepper_ops (rp_state S) :=
  mk_ops rp_step rp_step_back rp_reset rp_reset_back rp_to_begin rp_to_end.

(** ** Element access *)

(** access_impl<I>, lines 453-466, without the final dereference (the arguments are
    unsigned, as the documentation requires); element, lines
    352-364, is the same loop over an iterator range. *)
Fixpoint rp_walk (k : nat) (args : list Z) (st : rp_state S) : res (rp_state S) :=
  match args with
  | [] => Ok st
  | a :: args' => let* st := rp_step k a st in rp_walk (Datatypes.S k) args' st
  end.
Definition rp_element (s : S) (args : list Z) : res (rp_state S) := rp_walk 0 args (rp_begin s).

(** operator(), lines 312-317, and access, 409-425: leading arguments are dropped
    while there are more than dimension() of them. *)
Definition rp_call (s : S) (args : list Z) : res (rp_state S) :=
  rp_element s (skipn (length args - length shape) args).

(** ** Iteration: stepper_begin, stepper_end (lines 427-451) and the iterators
    made of them by xconst_iterable. *)
Definition rp_it_begin (l : layout) (s : S) : res (@iter (rp_state S)) := it_make shape l (rp_begin s) false.
Definition rp_it_end (l : layout) (s : S) : res (@iter (rp_state S)) :=
  let* st := rp_to_end l (rp_begin s) in it_make shape l st true.
End RepeatStepper.

(** operator* of the stepper, lines 484-488, and of the iterator. *)
Definition rp_deref {V} (e : sexp V) (st : rp_state sstate) : res V := x_deref e (rp_sub st).
Definition rp_it_deref {V} (e : sexp V) (it : @iter (rp_state sstate)) : res V :=
  let '(st, _, _) := it in rp_deref e st.

(** repeat(e, repeats, axis)(args...), with an expression of shape [esh]. *)
Definition repeat_at {V} (e : sexp V) (esh repeats : list Z) (axis : nat) (args : list Z) : res V :=
  let* sh := make_xrepeat false esh repeats axis in
  let* st := rp_call (x_ops esh e) sh repeats axis (x_begin e) args in
  rp_deref e st.
Definition repeat_element {V} (e : sexp V) (esh repeats : list Z) (axis : nat) (args : list Z) : res V :=
  let* sh := make_xrepeat false esh repeats axis in
  let* st := rp_element (x_ops esh e) sh repeats axis (x_begin e) args in
  rp_deref e st.

(** The state of the loop of stepper_assigner::run (core/xassign.hpp 651-665)
    after k elements, on an iteration shape [dst] that may be larger than that
    of the repeated expression: stepper_begin(dst), lines 433-437. *)
Definition repeat_walk {V} (e : sexp V) (esh repeats : list Z) (axis : nat) (dst : list Z) (l : layout) (k : nat)
  : res V :=
  let* sh := make_xrepeat false esh repeats axis in
  let* '(_, st) := walk (rp_ops (x_ops dst e) sh repeats axis) dst l k (map (fun _ => 0) dst)
                     (rp_begin sh (x_begin e)) in
  rp_deref e st.
