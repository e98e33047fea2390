(** Model of the steppers and iterators of /repo/include/xtensor/core/xiterator.hpp
    (and of xfunction_stepper, core/xfunction.hpp 1062-1190, and xscalar_stepper,
    containers/xscalar.hpp 960-1020). Index and extent arithmetic is on
    mathematical integers; the only unsigned expression that could wrap,
    shape[i] - 1, is only evaluated on iterators that have something to visit,
    so shape[i] >= 1. *)
From Coq Require Import List ZArith Bool.
From Verif Require Import Prelude Strides_Model.
Import ListNotations.
Open Scope Z_scope.

(** The stepper interface (docs/source/developer/iterating_expression.rst):
    step(dim, n), step_back(dim, n), reset(dim), reset_back(dim), to_begin(),
    to_end(layout), on a state of type S. *)
Record stepper_ops (S : Type) : Type := mk_ops {
  s_step : nat -> Z -> S -> res S;
  s_step_back : nat -> Z -> S -> res S;
  s_reset : nat -> S -> res S;
  s_reset_back : nat -> S -> res S;
  s_to_begin : S -> res S;
  s_to_end : layout -> S -> res S
}.
Arguments s_step {S}. Arguments s_step_back {S}. Arguments s_reset {S}.
Arguments s_reset_back {S}. Arguments s_to_begin {S}. Arguments s_to_end {S}.
Arguments mk_ops {S}.

(** ** xstepper, lines 476-548: a pointer into a strided container. The state is
    the position of the pointer relative to the start of the storage; the
    container is its shape, strides, backstrides and the position of
    data_xbegin(); m_offset is the number of missing leading axes. *)
Record container : Type := mk_container {
  k_shape : list Z; k_strides : list Z; k_backstrides : list Z; k_begin : Z
}.

(** xstepper::step, lines 490-498 *)
Definition xs_step (c : container) (off : nat) (dim : nat) (n : Z) (p : Z) : res Z :=
  if (off <=? dim)%nat then let* st := rd (k_strides c) (dim - off) in Ok (p + n * st) else Ok p.
(** xstepper::step_back, lines 500-508 *)
Definition xs_step_back (c : container) (off : nat) (dim : nat) (n : Z) (p : Z) : res Z :=
  if (off <=? dim)%nat then let* st := rd (k_strides c) (dim - off) in Ok (p - n * st) else Ok p.
(** xstepper::reset, lines 510-517 *)
Definition xs_reset (c : container) (off : nat) (dim : nat) (p : Z) : res Z :=
  if (off <=? dim)%nat then let* b := rd (k_backstrides c) (dim - off) in Ok (p - b) else Ok p.
(** xstepper::reset_back, lines 519-526 *)
Definition xs_reset_back (c : container) (off : nat) (dim : nat) (p : Z) : res Z :=
  if (off <=? dim)%nat then let* b := rd (k_backstrides c) (dim - off) in Ok (p + b) else Ok p.
(** xstepper::to_begin and to_end, lines 528-538; data_xend is strided_data_end
    (containers/xcontainer.hpp 336-341, 739-749). *)
Definition xs_ops (c : container) (off : nat) : stepper_ops Z :=
  mk_ops (xs_step c off) (xs_step_back c off) (xs_reset c off) (xs_reset_back c off)
    (fun _ => Ok (k_begin c))
    (fun l _ => strided_data_end (k_shape c) (k_strides c) (k_begin c) l off).

(** xcontainer::stepper_begin / stepper_end, containers/xcontainer.hpp 694-724,
    for the iteration shape [sh]: the offset is the number of extra axes. *)
Definition k_offset (c : container) (sh : list Z) : nat := length sh - length (k_shape c).
Definition xs_begin (c : container) : Z := k_begin c.
Definition xs_end (c : container) (sh : list Z) (l : layout) : res Z :=
  strided_data_end (k_shape c) (k_strides c) (k_begin c) l (k_offset c sh).

(** ** xindexed_stepper, lines 962-1042: a multi-index into an expression of
    shape [esh]. *)
Definition ix_step (off dim : nat) (n : Z) (m : list Z) : res (list Z) :=
  if (off <=? dim)%nat then let* v := rd m (dim - off) in wr m (dim - off) (v + n) else Ok m.
Definition ix_step_back (off dim : nat) (n : Z) (m : list Z) : res (list Z) :=
  if (off <=? dim)%nat then let* v := rd m (dim - off) in wr m (dim - off) (v - n) else Ok m.
Definition ix_reset (off dim : nat) (m : list Z) : res (list Z) :=
  if (off <=? dim)%nat then wr m (dim - off) 0 else Ok m.
Definition ix_reset_back (esh : list Z) (off dim : nat) (m : list Z) : res (list Z) :=
  if (off <=? dim)%nat then let* d := rd esh (dim - off) in wr m (dim - off) (d - 1) else Ok m.
(** to_end, lines 1023-1042. On a 0-dimensional expression l_dim is
    size_t(-1) (row major) or 0: an out of bounds write either way. *)
Definition ix_to_end (esh : list Z) (l : layout) : res (list Z) :=
  let m := map (fun d => d - 1) esh in
  let l_dim := match l with row_major => (length esh - 1)%nat | _ => 0%nat end in
  let* d := rd esh l_dim in wr m l_dim d.
Definition ix_ops (esh : list Z) (off : nat) : stepper_ops (list Z) :=
  mk_ops (ix_step off) (ix_step_back off) (ix_reset off) (ix_reset_back esh off)
    (fun m => Ok (map (fun _ => 0) m)) (fun l _ => ix_to_end esh l).
(** Constructor, lines 962-974: with end = true the state is to_end(default
    traversal), whatever layout the iteration uses; the default traversal is
    row_major (core/xtensor_config.hpp 40-42). *)
Definition ix_begin (esh : list Z) : list Z := map (fun _ => 0) esh.
Definition ix_end (esh : list Z) : res (list Z) := ix_to_end esh row_major.

(** ** stepper_tools *)
Section Tools.
Context {S : Type} (ops : stepper_ops S) (sh : list Z).

(** stepper_tools<row_major>::increment_stepper, lines 590-633. The loop, from
    axis i - 1 down; [true] means "return" was executed. *)
Fixpoint row_inc_loop (i : nat) (ix : list Z) (st : S) : res (bool * list Z * S) :=
  match i with
  | O => Ok (false, ix, st)
  | Datatypes.S i' =>
      let* x := rd ix i' in
      let* d := rd sh i' in
      if negb (x =? d - 1) then
        let* ix := wr ix i' (x + 1) in
        let* st := s_step ops i' 1 st in
        Ok (true, ix, st)
      else
        let* ix := wr ix i' 0 in
        let* st := (if (i' =? 0)%nat then Ok st else s_reset ops i' st) in
        row_inc_loop i' ix st
  end.

(** Lines 616-631: index of the end, std::transform over all axes but the last. *)
Definition row_end_index (ix : list Z) : res (list Z) :=
  if (length ix =? 0)%nat then Ok ix
  else
    let n := (length ix - 1)%nat in
    let* ix := for_up (fun k ix => let* d := rd sh k in wr ix k (d - 1)) 0 n ix in
    let* d := rd sh n in wr ix n d.

Definition row_increment (ix : list Z) (st : S) : res (list Z * S) :=
  let* '(ret, ix, st) := row_inc_loop (length ix) ix st in
  if ret : bool then Ok (ix, st)
  else
    let* ix := row_end_index ix in
    let* st := s_to_end ops row_major st in
    Ok (ix, st).

(** increment_stepper(stepper, index, shape, n), lines 635-694. [fuel] bounds
    the number of iterations of the while loop; running out of it is reported
    as UB. *)
Fixpoint row_jump_loop (fuel : nat) (i : nat) (n : Z) (ix : list Z) (st : S)
  : res (nat * Z * list Z * S) :=
  match fuel with
  | O => UB
  | Datatypes.S fuel' =>
      match i with
      | O => Ok (i, n, ix, st)
      | Datatypes.S i' =>
          if n =? 0 then Ok (i, n, ix, st)
          else
            let lead := (i' =? length ix - 1)%nat in
            let inc := if lead then n else 1 in
            let* x := rd ix i' in
            let* d := rd sh i' in
            if x + inc <? d then
              let* ix := wr ix i' (x + inc) in
              let* st := s_step ops i' inc st in
              row_jump_loop fuel'
                (if negb lead || (length ix =? 1)%nat then length ix else i') (n - inc) ix st
            else
              let* '(n, st) :=
                (if lead then
                   let off := d - x - 1 in
                   let* st := s_step ops i' off st in Ok (n - off, st)
                 else Ok (n, st)) in
              let* ix := wr ix i' 0 in
              let* st := (if (i' =? 0)%nat then Ok st else s_reset ops i' st) in
              row_jump_loop fuel' i' n ix st
      end
  end.

Definition jump_fuel (ix : list Z) (n : Z) : nat :=
  (Z.to_nat n * Datatypes.S (length ix) + Datatypes.S (Datatypes.S (length ix)))%nat.

Definition row_increment_n (ix : list Z) (st : S) (n : Z) : res (list Z * S) :=
  let* '(i, n, ix, st) := row_jump_loop (jump_fuel ix n) (length ix) n ix st in
  if ((i : nat) =? 0)%nat && negb (n =? 0) then
    let* ix := row_end_index ix in
    let* st := s_to_end ops row_major st in
    Ok (ix, st)
  else Ok (ix, st).

(** stepper_tools<row_major>::decrement_stepper, lines 696-724 *)
Fixpoint row_dec_loop (i : nat) (ix : list Z) (st : S) : res (bool * list Z * S) :=
  match i with
  | O => Ok (false, ix, st)
  | Datatypes.S i' =>
      let* x := rd ix i' in
      if negb (x =? 0) then
        let* ix := wr ix i' (x - 1) in
        let* st := s_step_back ops i' 1 st in
        Ok (true, ix, st)
      else
        let* d := rd sh i' in
        let* ix := wr ix i' (d - 1) in
        let* st := (if (i' =? 0)%nat then Ok st else s_reset_back ops i' st) in
        row_dec_loop i' ix st
  end.

Definition row_decrement (ix : list Z) (st : S) : res (list Z * S) :=
  let* '(ret, ix, st) := row_dec_loop (length ix) ix st in
  if ret : bool then Ok (ix, st) else let* st := s_to_begin ops st in Ok (ix, st).

(** decrement_stepper(stepper, index, shape, n), lines 726-771 *)
Fixpoint row_back_loop (fuel : nat) (i : nat) (n : Z) (ix : list Z) (st : S)
  : res (nat * Z * list Z * S) :=
  match fuel with
  | O => UB
  | Datatypes.S fuel' =>
      match i with
      | O => Ok (i, n, ix, st)
      | Datatypes.S i' =>
          if n =? 0 then Ok (i, n, ix, st)
          else
            let lead := (i' =? length ix - 1)%nat in
            let inc := if lead then n else 1 in
            let* x := rd ix i' in
            if inc <=? x then
              let* ix := wr ix i' (x - inc) in
              let* st := s_step_back ops i' inc st in
              row_back_loop fuel'
                (if negb lead || (length ix =? 1)%nat then length ix else i') (n - inc) ix st
            else
              let* '(n, st) :=
                (if lead then let* st := s_step_back ops i' x st in Ok (n - x, st)
                 else Ok (n, st)) in
              let* d := rd sh i' in
              let* ix := wr ix i' (d - 1) in
              let* st := (if (i' =? 0)%nat then Ok st else s_reset_back ops i' st) in
              row_back_loop fuel' i' n ix st
      end
  end.

Definition row_decrement_n (ix : list Z) (st : S) (n : Z) : res (list Z * S) :=
  let* '(i, n, ix, st) := row_back_loop (jump_fuel ix n) (length ix) n ix st in
  if ((i : nat) =? 0)%nat && negb (n =? 0) then
    let* st := s_to_begin ops st in Ok (ix, st)
  else Ok (ix, st).

(** stepper_tools<column_major>::increment_stepper, lines 772-815. [k] axes
    remain, the current axis is size - k. *)
Fixpoint col_inc_loop (k : nat) (ix : list Z) (st : S) : res (bool * list Z * S) :=
  match k with
  | O => Ok (false, ix, st)
  | Datatypes.S k' =>
      let i := (length ix - k)%nat in
      let* x := rd ix i in
      let* d := rd sh i in
      if negb (x =? d - 1) then
        let* ix := wr ix i (x + 1) in
        let* st := s_step ops i 1 st in
        Ok (true, ix, st)
      else
        let* ix := wr ix i 0 in
        let* st := (if (i =? length ix - 1)%nat then Ok st else s_reset ops i st) in
        col_inc_loop k' ix st
  end.

(** Lines 799-812 *)
Definition col_end_index (ix : list Z) : res (list Z) :=
  if (length ix =? 0)%nat then Ok ix
  else
    let* ix := for_up (fun k ix => let* d := rd sh k in wr ix k (d - 1)) 1 (length ix - 1) ix in
    let* d := rd sh 0 in wr ix 0 d.

Definition col_increment (ix : list Z) (st : S) : res (list Z * S) :=
  let* '(ret, ix, st) := col_inc_loop (length ix) ix st in
  if ret : bool then Ok (ix, st)
  else
    let* ix := col_end_index ix in
    let* st := s_to_end ops column_major st in
    Ok (ix, st).

(** Lines 817-877: jump forward, column major. *)
Fixpoint col_jump_loop (fuel : nat) (i : nat) (n : Z) (ix : list Z) (st : S)
  : res (nat * Z * list Z * S) :=
  match fuel with
  | O => UB
  | Datatypes.S fuel' =>
      if (i =? length ix)%nat || (n =? 0) then Ok (i, n, ix, st)
      else
        let lead := (i =? 0)%nat in
        let inc := if lead then n else 1 in
        let* x := rd ix i in
        let* d := rd sh i in
        if x + inc <? d then
          let* ix := wr ix i (x + inc) in
          let* st := s_step ops i inc st in
          if negb lead || (length ix =? 1)%nat
          then col_jump_loop fuel' 0 (n - inc) ix st
          else col_jump_loop fuel' (Datatypes.S i) (n - inc) ix st
        else
          let* '(n, st) :=
            (if lead then
               let off := d - x - 1 in
               let* st := s_step ops i off st in Ok (n - off, st)
             else Ok (n, st)) in
          let* ix := wr ix i 0 in
          let* st := (if (i =? length ix - 1)%nat then Ok st else s_reset ops i st) in
          col_jump_loop fuel' (Datatypes.S i) n ix st
  end.

Definition col_increment_n (ix : list Z) (st : S) (n : Z) : res (list Z * S) :=
  let* '(i, n, ix, st) := col_jump_loop (jump_fuel ix n) 0 n ix st in
  if ((i : nat) =? length ix)%nat && negb (n =? 0) then
    let* ix := col_end_index ix in
    let* st := s_to_end ops column_major st in
    Ok (ix, st)
  else Ok (ix, st).

(** Lines 879-908: decrement, column major. *)
Fixpoint col_dec_loop (k : nat) (ix : list Z) (st : S) : res (bool * list Z * S) :=
  match k with
  | O => Ok (false, ix, st)
  | Datatypes.S k' =>
      let i := (length ix - k)%nat in
      let* x := rd ix i in
      if negb (x =? 0) then
        let* ix := wr ix i (x - 1) in
        let* st := s_step_back ops i 1 st in
        Ok (true, ix, st)
      else
        let* d := rd sh i in
        let* ix := wr ix i (d - 1) in
        let* st := (if (i =? length ix - 1)%nat then Ok st else s_reset_back ops i st) in
        col_dec_loop k' ix st
  end.

Definition col_decrement (ix : list Z) (st : S) : res (list Z * S) :=
  let* '(ret, ix, st) := col_dec_loop (length ix) ix st in
  if ret : bool then Ok (ix, st) else let* st := s_to_begin ops st in Ok (ix, st).

(** Lines 910-958: jump backward, column major. *)
Fixpoint col_back_loop (fuel : nat) (i : nat) (n : Z) (ix : list Z) (st : S)
  : res (nat * Z * list Z * S) :=
  match fuel with
  | O => UB
  | Datatypes.S fuel' =>
      if (i =? length ix)%nat || (n =? 0) then Ok (i, n, ix, st)
      else
        let lead := (i =? 0)%nat in
        let inc := if lead then n else 1 in
        let* x := rd ix i in
        if inc <=? x then
          let* ix := wr ix i (x - inc) in
          let* st := s_step_back ops i inc st in
          if negb lead || (length ix =? 1)%nat
          then col_back_loop fuel' 0 (n - inc) ix st
          else col_back_loop fuel' (Datatypes.S i) (n - inc) ix st
        else
          let* '(n, st) :=
            (if lead then let* st := s_step_back ops i x st in Ok (n - x, st)
             else Ok (n, st)) in
          let* d := rd sh i in
          let* ix := wr ix i (d - 1) in
          let* st := (if (i =? length ix - 1)%nat then Ok st else s_reset_back ops i st) in
          col_back_loop fuel' (Datatypes.S i) n ix st
  end.

Definition col_decrement_n (ix : list Z) (st : S) (n : Z) : res (list Z * S) :=
  let* '(i, n, ix, st) := col_back_loop (jump_fuel ix n) 0 n ix st in
  if ((i : nat) =? length ix)%nat && negb (n =? 0) then
    let* st := s_to_begin ops st in Ok (ix, st)
  else Ok (ix, st).

(** ** xiterator, lines 1084-1196: stepper, index, linear index. L is row_major
    or column_major (other values do not compile, lines 282-283). *)
Definition iter : Type := S * list Z * Z.

(** Constructor, lines 1084-1118 *)
Definition it_make (l : layout) (st : S) (end_index : bool) : res iter :=
  if end_index then
    let* ix := (match sh with
                | [] => Ok []
                | _ =>
                    let n := length sh in
                    match l with
                    | row_major => for_up (fun k ix => let* v := rd ix k in wr ix k (v - 1)) 0 (n - 1) sh
                    | _ => for_up (fun k ix => let* v := rd ix k in wr ix k (v - 1)) 1 (n - 1) sh
                    end
                end) in
    Ok (st, ix, compute_size sh)
  else Ok (st, repeat 0 (length sh), 0).

Definition it_inc (l : layout) (it : iter) : res iter :=
  let '(st, ix, lin) := it in
  let* '(ix, st) := (match l with row_major => row_increment ix st | _ => col_increment ix st end) in
  Ok (st, ix, lin + 1).

Definition it_dec (l : layout) (it : iter) : res iter :=
  let '(st, ix, lin) := it in
  let* '(ix, st) := (match l with row_major => row_decrement ix st | _ => col_decrement ix st end) in
  Ok (st, ix, lin - 1).

Definition inc_n (l : layout) (ix : list Z) (st : S) (n : Z) : res (list Z * S) :=
  match l with row_major => row_increment_n ix st n | _ => col_increment_n ix st n end.
Definition dec_n (l : layout) (ix : list Z) (st : S) (n : Z) : res (list Z * S) :=
  match l with row_major => row_decrement_n ix st n | _ => col_decrement_n ix st n end.

(** operator+=, lines 1136-1149; operator-=, 1151-1164 *)
Definition it_add (l : layout) (it : iter) (n : Z) : res iter :=
  let '(st, ix, lin) := it in
  let* '(ix, st) := (if 0 <=? n then inc_n l ix st n else dec_n l ix st (- n)) in
  Ok (st, ix, lin + n).
Definition it_sub (l : layout) (it : iter) (n : Z) : res iter :=
  let '(st, ix, lin) := it in
  let* '(ix, st) := (if 0 <=? n then dec_n l ix st n else inc_n l ix st (- n)) in
  Ok (st, ix, lin - n).

(** operator-, equal and less_than, lines 1166-1170 and 1184-1196 *)
Definition it_diff (a b : iter) : Z := snd a - snd b.
Definition it_equal (a b : iter) : bool := snd a =? snd b.
Definition it_less (a b : iter) : bool := snd a <? snd b.
End Tools.

(** k increments, k decrements. *)
Fixpoint it_inc_k {S} (ops : stepper_ops S) (sh : list Z) (l : layout) (k : nat) (it : iter) : res iter :=
  match k with
  | O => Ok it
  | Datatypes.S k' => let* it' := it_inc ops sh l it in it_inc_k ops sh l k' it'
  end.
Fixpoint it_dec_k {S} (ops : stepper_ops S) (sh : list Z) (l : layout) (k : nat) (it : iter) : res iter :=
  match k with
  | O => Ok it
  | Datatypes.S k' => let* it' := it_dec ops sh l it in it_dec_k ops sh l k' it'
  end.

(** ** Expressions and their steppers

    An expression tree: scalars (xscalar), strided containers with their storage
    (xarray, xtensor and everything using xstepper), expressions read by index
    (xgenerator, using xindexed_stepper) and lazy functions of any number of
    operands (xfunction). The value type is arbitrary. *)
Inductive sexp (V : Type) : Type :=
| XScalar (v : V)
| XStrided (c : container) (buf : list V)
| XIndexed (esh : list Z) (f : list Z -> V)
| XFun (f : list V -> V) (args : list (sexp V)).
Arguments XScalar {V}. Arguments XStrided {V}. Arguments XIndexed {V}. Arguments XFun {V}.

(** State of a stepper: nothing, a pointer, an index, or the states of the
    operands' steppers (xfunction_stepper::m_st, a tuple). *)
Inductive sstate : Type :=
| TUnit
| TPtr (p : Z)
| TIdx (m : list Z)
| TNode (l : list sstate).

(** xfunction_stepper: every operation is forwarded to all operands in turn
    (for_each over the tuple). *)
Fixpoint zipM {A S : Type} (f : A -> S -> res S) (l : list A) (st : list S) : res (list S) :=
  match l, st with
  | [], [] => Ok []
  | a :: l', s :: st' => let* s' := f a s in let* r := zipM f l' st' in Ok (s' :: r)
  | _, _ => UB
  end.

Definition node_op (f : stepper_ops sstate -> sstate -> res sstate)
  (l : list (stepper_ops sstate)) (st : sstate) : res sstate :=
  match st with TNode ss => let* ss' := zipM f l ss in Ok (TNode ss') | _ => UB end.

Definition node_ops (l : list (stepper_ops sstate)) : stepper_ops sstate :=
  mk_ops
    (fun d n => node_op (fun o => s_step o d n) l)          (* core/xfunction.hpp 1072-1080, 1092-1100 *)
    (fun d n => node_op (fun o => s_step_back o d n) l)     (* 1082-1090, 1102-1110 *)
    (fun d => node_op (fun o => s_reset o d) l)             (* 1112-1120 *)
    (fun d => node_op (fun o => s_reset_back o d) l)        (* 1122-1130 *)
    (node_op (fun o => s_to_begin o) l)                     (* 1132-1140 *)
    (fun ly => node_op (fun o => s_to_end o ly) l).         (* 1142-1150 *)

Definition ptr_op (f : Z -> res Z) (st : sstate) : res sstate :=
  match st with TPtr p => let* p' := f p in Ok (TPtr p') | _ => UB end.
Definition ptr_ops (o : stepper_ops Z) : stepper_ops sstate :=
  mk_ops (fun d n => ptr_op (s_step o d n)) (fun d n => ptr_op (s_step_back o d n))
    (fun d => ptr_op (s_reset o d)) (fun d => ptr_op (s_reset_back o d))
    (ptr_op (s_to_begin o)) (fun l => ptr_op (s_to_end o l)).
Definition idx_op (f : list Z -> res (list Z)) (st : sstate) : res sstate :=
  match st with TIdx p => let* p' := f p in Ok (TIdx p') | _ => UB end.
Definition idx_ops (o : stepper_ops (list Z)) : stepper_ops sstate :=
  mk_ops (fun d n => idx_op (s_step o d n)) (fun d n => idx_op (s_step_back o d n))
    (fun d => idx_op (s_reset o d)) (fun d => idx_op (s_reset_back o d))
    (idx_op (s_to_begin o)) (fun l => idx_op (s_to_end o l)).

(** The stepper of an expression iterated with shape [sh]. The offsets are those
    of stepper_begin: xcontainer.hpp 694-706, xgenerator.hpp 360-374. In xscalar_stepper
    (containers/xscalar.hpp 972-1016) nothing moves. *)
Fixpoint x_ops {V} (sh : list Z) (e : sexp V) : stepper_ops sstate :=
  match e with
  | XScalar _ => mk_ops (fun _ _ s => Ok s) (fun _ _ s => Ok s) (fun _ s => Ok s) (fun _ s => Ok s)
                   (fun s => Ok s) (fun _ s => Ok s)
  | XStrided c _ => ptr_ops (xs_ops c (k_offset c sh))
  | XIndexed esh _ => idx_ops (ix_ops esh (length sh - length esh))
  | XFun _ args => node_ops (map (x_ops sh) args)
  end.

(** stepper_begin(shape): core/xfunction.hpp 808-829, xcontainer.hpp 694-706,
    xgenerator.hpp 360-366. *)
Fixpoint x_begin {V} (e : sexp V) : sstate :=
  match e with
  | XScalar _ => TUnit
  | XStrided c _ => TPtr (xs_begin c)
  | XIndexed esh _ => TIdx (ix_begin esh)
  | XFun _ args => TNode (map x_begin args)
  end.

Fixpoint seqM {A : Type} (l : list (res A)) : res (list A) :=
  match l with
  | [] => Ok []
  | x :: l' => let* a := x in let* r := seqM l' in Ok (a :: r)
  end.

(** stepper_end(shape, layout) *)
Fixpoint x_end {V} (sh : list Z) (l : layout) (e : sexp V) : res sstate :=
  match e with
  | XScalar _ => Ok TUnit
  | XStrided c _ => let* p := xs_end c sh l in Ok (TPtr p)
  | XIndexed esh _ => let* m := ix_end esh in Ok (TIdx m)
  | XFun _ args => let* s := seqM (map (x_end sh l) args) in Ok (TNode s)
  end.

(** xbounded_iterator::operator*, core/xiterator.hpp 1263-1268, applied by
    xgenerator::element (xgenerator.hpp 318-325) to every index: an index that is
    not below the extent (compared unsigned) is replaced by extent - 1. *)
Definition bounded (d i : Z) : Z := if (0 <=? i) && (i <? d) then i else d - 1.
Fixpoint bounded_all (esh m : list Z) : list Z :=
  match esh, m with
  | d :: esh', i :: m' => bounded d i :: bounded_all esh' m'
  | _, _ => []
  end.

(** operator* of the steppers: xstepper 484-488, xscalar_stepper,
    xindexed_stepper 976-980, xfunction_stepper (core/xfunction.hpp 1152-1158):
    the function applied to the dereferenced operands. *)
Fixpoint zipR {A S V : Type} (f : A -> S -> res V) (l : list A) (st : list S) : res (list V) :=
  match l, st with
  | [], [] => Ok []
  | a :: l', s :: st' => let* v := f a s in let* r := zipR f l' st' in Ok (v :: r)
  | _, _ => UB
  end.

Fixpoint x_deref {V} (e : sexp V) (st : sstate) {struct e} : res V :=
  match e, st with
  | XScalar v, TUnit => Ok v
  | XStrided _ buf, TPtr p => rdz buf p
  | XIndexed esh f, TIdx m => Ok (f (bounded_all esh m))
  | XFun f args, TNode ss =>
      let* vs := zipR (fun g s => g s) (map x_deref args) ss in Ok (f vs)
  | _, _ => UB
  end.

(** begin and end iterators of an expression iterated with shape [sh] in layout
    [l]: core/xiterable.hpp (build_iterator), xiterator constructor. *)
Definition x_it_begin {V} (sh : list Z) (l : layout) (e : sexp V) : res (@iter sstate) :=
  it_make sh l (x_begin e) false.
Definition x_it_end {V} (sh : list Z) (l : layout) (e : sexp V) : res (@iter sstate) :=
  let* s := x_end sh l e in it_make sh l s true.

(** Moves on an iterator: ++, --, += n, -= n. *)
Inductive move : Type := MInc | MDec | MAdd (n : Z) | MSub (n : Z).
Definition do_move {S} (ops : stepper_ops S) (sh : list Z) (l : layout) (m : move) (it : iter) : res iter :=
  match m with
  | MInc => it_inc ops sh l it
  | MDec => it_dec ops sh l it
  | MAdd n => it_add ops sh l it n
  | MSub n => it_sub ops sh l it n
  end.
Fixpoint do_moves {S} (ops : stepper_ops S) (sh : list Z) (l : layout) (ms : list move) (it : iter) : res iter :=
  match ms with
  | [] => Ok it
  | m :: ms' => let* it' := do_move ops sh l m it in do_moves ops sh l ms' it'
  end.

(** operator* of xiterator, lines 1172-1176. *)
Definition it_deref {V} (e : sexp V) (it : @iter sstate) : res V := let '(st, _, _) := it in x_deref e st.

(** The k-th state of the loop of stepper_assigner::run, core/xassign.hpp 651-665:
    index 0 and steppers at the beginning, then one increment_stepper per
    element. *)
Fixpoint walk {S} (ops : stepper_ops S) (sh : list Z) (l : layout) (k : nat) (ix : list Z) (st : S)
  : res (list Z * S) :=
  match k with
  | O => Ok (ix, st)
  | Datatypes.S k' =>
      let* '(ix, st) := (match l with row_major => row_increment ops sh ix st | _ => col_increment ops sh ix st end) in
      walk ops sh l k' ix st
  end.
