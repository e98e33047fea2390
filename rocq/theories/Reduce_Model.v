(** Model of the reducers, /repo/include/xtensor/reducers/xreducer.hpp. Axes are
    std::size_t values (integers, after normalisation); extents and positions are
    mathematical integers. *)
From Coq Require Import List ZArith Bool.
From Verif Require Import Prelude Strides_Model Access_Model Stepper_Model Container_Model.
Import ListNotations.
Open Scope Z_scope.

(** normalize_axis, utils/xutils.hpp 376-407 (signed axes; unsigned ones are taken
    as they are, 409-425; the assertions are compiled out by default). *)
Definition normalize_axis (dim : nat) (ax : Z) : Z := if ax <? 0 then to_size_t (Z.of_nat dim + ax) else ax.

(** std::is_sorted with std::less *)
Fixpoint is_sorted (l : list Z) : bool :=
  match l with
  | a :: (b :: _) as t => negb (b <? a) && is_sorted t
  | _ => true
  end.
(** std::adjacent_find(...) != end *)
Fixpoint has_adjacent (l : list Z) : bool :=
  match l with
  | a :: (b :: _) as t => (a =? b) || has_adjacent t
  | _ => false
  end.

(** The checks, lines 333-351 and 1411-1429. dimension() - 1 is unsigned. *)
Definition check_axes (dim : nat) (axes : list Z) : res unit :=
  if negb (is_sorted axes) then Throw runtime_error
  else if has_adjacent axes then Throw runtime_error
  else match axes with
       | [] => Ok tt
       | _ => if to_size_t (Z.of_nat dim - 1) <? last axes 0 then Throw runtime_error else Ok tt
       end.

(** std::find(axes.begin(), axes.end(), i) != axes.end() *)
Definition mem_axis (i : nat) (axes : list Z) : bool := existsb (fun a => a =? Z.of_nat i) axes.

(** The triple of functors, lines 606-690: [reduce], the value of [init] and
    [merge]. *)
Record rfun (T R : Type) : Type := mk_rfun { rf_reduce : R -> T -> R; rf_init : R; rf_merge : R -> R -> R }.
Arguments mk_rfun {T R}. Arguments rf_reduce {T R}. Arguments rf_init {T R}. Arguments rf_merge {T R}.

(** * Lazy reduction: class xreducer, lines 805-908 and 1376-1450. *)
Record reducer (R : Type) : Type := mk_reducer {
  r_axes : list Z; r_shape : list Z; r_mapping : list nat; r_keep : bool; r_initial : option R
}.
Arguments mk_reducer {R}. Arguments r_axes {R}. Arguments r_shape {R}. Arguments r_mapping {R}.
Arguments r_keep {R}. Arguments r_initial {R}.

(** shape_and_mapping_computation, lines 1292-1325: [i] is the distance from the
    first extent to [iter], [d] that of d_first and map_first. *)
Fixpoint shape_mapping (rest : list Z) (i : nat) (axes : list Z) (d : nat) (shape : list Z) (mapping : list nat)
  : res (list Z * list nat) :=
  match rest with
  | [] => Ok (shape, mapping)
  | x :: rest' =>
      match axes with
      | a :: axes' =>
          if negb (a =? Z.of_nat i) then
            let* shape := wr shape d x in
            let* mapping := wr mapping d i in
            shape_mapping rest' (S i) axes (S d) shape mapping
          else shape_mapping rest' (S i) axes' d shape mapping
      | [] =>
          let* shape := wr shape d x in
          let* mapping := wr mapping d i in
          shape_mapping rest' (S i) [] (S d) shape mapping
      end
  end.

(** shape_and_mapping_computation_keep_dim, lines 1327-1345 *)
Definition shape_mapping_keep (esh : list Z) (axes : list Z) (shape : list Z) : res (list Z * list nat) :=
  let* shape := for_up (fun i shape =>
    let* x := rd esh i in wr shape i (if mem_axis i axes then 1 else x)) 0 (length esh) shape in
  Ok (shape, seq 0 (length esh)).

(** Constructor, lines 1376-1450. The members m_shape and m_dim_mapping are sized
    before the axes are checked: more axes than dimensions ask for a sequence of
    about 2^64 elements. Shapes known at compile time are not modelled. *)
Definition make_reducer {R} (esh : list Z) (axes : list Z) (keep : bool) (initial : option R) : res (reducer R) :=
  let dim := length esh in
  if negb keep && (dim <? length axes)%nat then Throw bad_alloc
  else
    let n := if keep then dim else (dim - length axes)%nat in
    let* _ := check_axes dim axes in
    let* '(shape, mapping) :=
      (if keep then shape_mapping_keep esh axes (repeat 0 n)
       else shape_mapping esh 0 axes 0 (repeat 0 n) (repeat 0%nat n)) in
    Ok (mk_reducer axes shape mapping keep initial).

(** xreducer_stepper, lines 1088-1140 and 1660-1894, over a stepper [sub] of the
    reduced expression, of shape [esh], obtained by stepper_begin(esh). [dflt] is
    the value of "reference res = {}". *)
Section Reducer_stepper.
Context {T R S : Type} (f : rfun T R) (dflt : R) (esh : list Z) (sub : stepper_ops S) (deref : S -> res T) (r : reducer R).

(** get_dim, line 1875 *)
Definition get_dim (dim : nat) : res nat := rd (r_mapping r) dim.

(** step and step_back, lines 1687-1721 *)
Definition rs_step (off dim : nat) (n : Z) (st : S) : res S :=
  if (off <=? dim)%nat then let* d := get_dim (dim - off) in s_step sub d n st else Ok st.
Definition rs_step_back (off dim : nat) (n : Z) (st : S) : res S :=
  if (off <=? dim)%nat then let* d := get_dim (dim - off) in s_step_back sub d n st else Ok st.

(** reset and reset_back, lines 1723-1755; the axes are sorted, so
    std::binary_search is a membership test. *)
Definition rs_reset (off dim : nat) (st : S) : res S :=
  if (off <=? dim)%nat then
    if r_keep r && mem_axis (dim - off) (r_axes r) then Ok st
    else let* d := get_dim (dim - off) in s_reset sub d st
  else Ok st.
Definition rs_reset_back (off dim : nat) (st : S) : res S :=
  if (off <=? dim)%nat then
    if r_keep r && mem_axis (dim - off) (r_axes r) then Ok st
    else let* d := get_dim (dim - off) in s_reset_back sub d st
  else Ok st.

(** to_begin and to_end, lines 1757-1767 *)
Definition rs_ops (off : nat) : stepper_ops S :=
  mk_ops (rs_step off) (rs_step_back off) (rs_reset off) (rs_reset_back off) (s_to_begin sub) (s_to_end sub).

(** initial_value, lines 1769-1774 *)
Definition initial_value : R := match r_initial r with Some i => i | None => rf_init f end.

(** The innermost loop, lines 1817-1826 and 1851-1858. A size of 0 makes the loop
    "for (i = 1; i != size; ++i)" run through all of size_t: reported as UB. *)
Definition inner_agg (index : nat) (st : S) : res (R * S) :=
  let* size := rd esh index in
  if size =? 0 then UB
  else
    let* x := deref st in
    let* '(v, st) := for_up (fun _ '(v, st) =>
      let* st := s_step sub index 1 st in
      let* x := deref st in
      Ok (rf_reduce f v x, st)) 1 (Z.to_nat (size - 1)) (rf_reduce f (rf_init f) x, st) in
    let* st := s_reset sub index st in
    Ok (v, st).

(** The other loops, lines 1808-1816 and 1842-1850; [inner] is the recursive call. *)
Definition outer_agg (inner : S -> res (R * S)) (index : nat) (st : S) : res (R * S) :=
  let* size := rd esh index in
  if size =? 0 then UB
  else
    let* '(v, st) := inner st in
    let* '(v, st) := for_up (fun _ '(v, st) =>
      let* st := s_step sub index 1 st in
      let* '(w, st) := inner st in
      Ok (rf_merge f v w, st)) 1 (Z.to_nat (size - 1)) (v, st) in
    let* st := s_reset sub index st in
    Ok (v, st).

(** aggregate_impl without keep_dims, lines 1800-1827, from the first of the
    remaining axes. *)
Fixpoint agg (axes : list Z) (st : S) : res (R * S) :=
  match axes with
  | [] => UB
  | [a] => inner_agg (Z.to_nat a) st
  | a :: rest => outer_agg (agg rest) (Z.to_nat a) st
  end.

(** aggregate_impl with keep_dims, lines 1829-1867: [k] dimensions remain. The
    case of an axis of extent 0 that is not the last one is not reached (line
    1783). *)
Fixpoint agg_keep (k : nat) (st : S) : res (R * S) :=
  match k with
  | O => Ok (dflt, st)
  | Datatypes.S k' =>
      let dim := (length esh - k)%nat in
      if mem_axis dim (r_axes r) then
        if Z.of_nat dim =? last (r_axes r) 0 then inner_agg dim st
        else outer_agg (agg_keep k') dim st
      else agg_keep k' st
  end.

(** operator* and aggregate, lines 1680-1685 and 1776-1798. m_stepper is mutable:
    the new state is returned too. *)
Definition rs_deref (st : S) : res (R * S) :=
  if compute_size esh =? 0 then Ok (initial_value, st)
  else if (length esh =? 0)%nat || (length (r_axes r) =? 0)%nat then
    let* x := deref st in Ok (rf_reduce f initial_value x, st)
  else
    let* '(v, st) := (if r_keep r then agg_keep (length esh) st else agg (r_axes r) st) in
    match r_initial r with
    | Some i => Ok (rf_merge f i v, st)
    | None => Ok (v, st)
    end.

(** element, lines 1566-1594 (operator() and unchecked forward to it, 1521-1557):
    from the stepper at the beginning, one step per index; indices in excess are
    dropped on the left, missing ones are 0. *)
Fixpoint step_all (dim : nat) (ix : list Z) (st : S) : res S :=
  match ix with
  | [] => Ok st
  | i :: ix' => let* st := rs_step 0 dim i st in step_all (Datatypes.S dim) ix' st
  end.
Definition rs_element (begin_ : S) (ix : list Z) : res R :=
  let n := length (r_shape r) in
  let full := match ix with
              | [] => []
              | _ => repeat 0 (n - length ix) ++ skipn (length ix - n) ix
              end in
  let* st := step_all 0 full begin_ in
  let* '(v, _) := rs_deref st in
  Ok v.

(** Reading all the elements through an iterator: [n] times operator* and
    operator++ (core/xiterator.hpp 1120-1160) on the reducer iterated over the
    shape [sh]; operator* leaves its mark on the stepper. *)
Fixpoint rs_read_all (off : nat) (sh : list Z) (l : layout) (n : nat) (ix : list Z) (st : S) : res (list R) :=
  match n with
  | O => Ok []
  | Datatypes.S n' =>
      let* '(v, st) := rs_deref st in
      let* '(ix, st) := (match l with row_major => row_increment (rs_ops off) sh ix st | _ => col_increment (rs_ops off) sh ix st end) in
      let* vs := rs_read_all off sh l n' ix st in
      Ok (v :: vs)
  end.
End Reducer_stepper.

(** * Immediate reduction: reduce_immediate, lines 298-567. *)

(** shape_computation, lines 186-226 (the resize of the result is in
    [reduce_immediate]). dimension() - axes.size() is unsigned. *)
Definition shape_computation (esh : list Z) (axes : list Z) (keep : bool) : res (list Z) :=
  if keep then
    for_up (fun i shape => let* x := rd esh i in wr shape i (if mem_axis i axes then 1 else x))
      0 (length esh) (repeat 0 (length esh))
  else if (length esh <? length axes)%nat then Throw bad_alloc
  else
    let* '(shape, _) := for_up (fun i '(shape, idx) =>
      if mem_axis i axes then Ok (shape, idx)
      else let* x := rd esh i in let* shape := wr shape idx x in Ok (shape, S idx))
      0 (length esh) (repeat 0 (length esh - length axes), 0%nat) in
    Ok shape.

(** Lines 363-375: the stride of the leading axis, or of the next axis with a
    non-zero one; [strides] are those from the leading axis on, in the direction
    of the search. *)
Fixpoint find_stride (strides : list Z) : Z :=
  match strides with
  | [] => 0
  | s :: rest => if s =? 0 then (match rest with [] => s | _ => find_stride rest end) else s
  end.

(** merge_loops, lines 391-405: the axes in the order of the iterators; returns
    the outer loop size and the last axis merged. *)
Fixpoint merge_loops (esh : list Z) (axes : list Z) (outer last_ax : Z) : res (Z * Z) :=
  match axes with
  | [] => Ok (outer, last_ax)
  | a :: rest =>
      if Z.abs (a - last_ax) =? 1 then
        let* d := rdz esh a in merge_loops esh rest (outer * d) a
      else merge_loops esh rest outer last_ax
  end.

(** next_idx, lines 437-459: the index from axis i - 1 down; true when i reaches 0. *)
Fixpoint next_idx (iter_shape : list Z) (i : nat) (idx : list Z) : res (bool * list Z) :=
  match i with
  | O => Ok (true, idx)
  | Datatypes.S i' =>
      let* x := rd idx i' in
      let* d := rd iter_shape i' in
      if d - 1 <=? x then
        let* idx := wr idx i' 0 in next_idx iter_shape i' idx
      else
        let* idx := wr idx i' (x + 1) in Ok (false, idx)
  end.

Section Immediate.
Context {T R : Type} (f : rfun T R).

(** std::accumulate over n elements from position p *)
Definition accumulate (data : list T) (p : Z) (n : nat) (v : R) : res R :=
  for_up (fun k v => let* x := rdz data (p + Z.of_nat k) in Ok (rf_reduce f v x)) 0 n v.

(** std::transform(out, out + n, begin, out, g) *)
Definition transform_at (g : R -> T -> R) (data : list T) (p : Z) (n : nat) (q : Z) (out : list R) : res (list R) :=
  for_up (fun k out =>
    let* v := rdz out (q + Z.of_nat k) in
    let* x := rdz data (p + Z.of_nat k) in
    wrz out (q + Z.of_nat k) (g v x)) 0 n out.

(** The body of the loop of lines 484-501 (inner stride 1) and 512-530. State:
    position in the source, position in the result, the result, merge. *)
Definition reduce_row (data : list T) (outer : nat) (begin out : Z) (buf : list R) (merge : bool) : res (Z * list R) :=
  let* tmp := accumulate data begin outer (rf_init f) in
  let* v := (if merge then let* o := rdz buf out in Ok (rf_merge f o tmp) else Ok tmp) in
  let* buf := wrz buf out v in
  Ok (begin + Z.of_nat outer, buf).

Definition reduce_block (data : list T) (outer inner : nat) (begin out : Z) (buf : list R) (merge : bool) : res (Z * list R) :=
  let* buf := transform_at (fun v1 v2 => if merge then rf_reduce f v1 v2 else rf_reduce f (rf_init f) v2)
                data begin inner out buf in
  for_up (fun _ '(begin, buf) =>
    let* buf := transform_at (rf_reduce f) data begin inner out buf in
    Ok (begin + Z.of_nat inner, buf)) 1 (outer - 1) (begin + Z.of_nat inner, buf).

(** The while loops, lines 482-516 and 518-555. [fuel] bounds the number of
    iterations; running out of it is reported as UB. *)
Fixpoint reduce_loop (fuel : nat) (data : list T) (outer inner : nat) (iter_shape iter_strides : list Z)
  (idx : list Z) (begin out border : Z) (merge : bool) (buf : list R) : res (list R) :=
  match fuel with
  | O => UB
  | Datatypes.S fuel' =>
      let* '(begin, buf) :=
        (if (inner =? 1)%nat then reduce_row data outer begin out buf merge
         else reduce_block data outer inner begin out buf merge) in
      let* '(stop, idx) := next_idx iter_shape (length iter_shape) idx in
      let out := inner_product idx iter_strides 0 in
      let '(border, merge) := if border <? out then (out, false) else (border, true) in
      if stop : bool then Ok buf
      else reduce_loop fuel' data outer inner iter_shape iter_strides idx begin out border merge buf
  end.

(** copy_to_reduced, lines 241-288: the elements of the expression in storage order
    (it is an evaluated container; its layout is taken to be row or column major), converted if they can be, otherwise passed to
    the functor. [conv]: the conversion, if there is one. *)
Definition copy_to_reduced (conv : option (T -> R)) (data : list T) : list R :=
  match conv with
  | Some g => map g data
  | None => map (fun v => rf_reduce f (rf_init f) v) data
  end.

(** reduce_immediate, lines 298-567, on the evaluated container [c]. [SL] is its
    static layout, [fresh n] the contents of the result after a resize to n
    elements. result.resize(shape, layout) is c_resize_layout on a new container. *)
Definition reduce_immediate (SL DL : layout) (conv : option (T -> R)) (fresh : list R -> Z -> list R) (r0 : R)
  (keep : bool) (initial : option R) (c : cont T) (axes : list Z) : res (cont R) :=
  let esh := ct_shape c in
  let dim := length esh in
  let row := layout_eqb (ct_layout c) row_major in
  let set_data (r : cont R) d := mk_cont (ct_shape r) (ct_strides r) (ct_back r) (ct_layout r) d in
  if (length axes =? 0)%nat then
    let* r := c_resize_layout SL DL fresh (c_default SL 0 r0) esh (ct_layout c) in
    let d := copy_to_reduced conv (ct_data c) in
    if (length d <=? length (ct_data r))%nat then Ok (set_data r (d ++ skipn (length d) (ct_data r))) else UB
  else
    let* _ := check_axes dim axes in
    let* shape := shape_computation esh axes keep in
    let* r := c_resize_layout SL DL fresh (c_default SL 0 r0) shape (ct_layout c) in
    if (dim =? length axes)%nat then
      let v := fold_left (rf_reduce f) (ct_data c) (match initial with Some i => i | None => rf_init f end) in
      let* d := wr (ct_data r) 0 v in Ok (set_data r d)
    else
      let* leading := (if row then rd axes (length axes - 1) else rd axes 0) in
      let* _ := rd (ct_strides c) (Z.to_nat leading) in
      let inner_stride :=
        if row then find_stride (rev (firstn (S (Z.to_nat leading)) (ct_strides c)))
        else find_stride (skipn (Z.to_nat leading) (ct_strides c)) in
      if inner_stride =? 0 then
        let d := copy_to_reduced conv (ct_data c) in
        if (length d <=? length (ct_data r))%nat then Ok (set_data r (d ++ skipn (length d) (ct_data r))) else UB
      else
        let* outer := rdz esh leading in
        let* '(iter_strides, _) := for_up (fun i '(st, idx) =>
          if mem_axis i axes then Ok (st, idx)
          else
            let* s := rd (ct_strides r) (if keep then i else idx) in
            let* st := wr st i s in
            Ok (st, S idx)) 0 dim (repeat 0 dim, 0%nat) in
        let* '(iter_shape, iter_strides, outer) :=
          (match ct_layout c with
           | row_major =>
               let* '(outer, last_ax) := merge_loops esh (tl (rev axes)) outer (last axes 0) in
               Ok (firstn (Z.to_nat last_ax) esh, firstn (Z.to_nat last_ax) iter_strides, outer)
           | column_major =>
               let* '(outer, last_ax) := merge_loops esh (tl axes) outer (hd 0 axes) in
               Ok (rev (skipn (S (Z.to_nat last_ax)) esh), rev (skipn (S (Z.to_nat last_ax)) iter_strides), outer)
           | _ => Throw runtime_error
           end) in
        let* d := reduce_loop (S (Z.to_nat (compute_size esh))) (ct_data c) (Z.to_nat outer) (Z.to_nat inner_stride)
          iter_shape iter_strides (repeat 0 (length iter_shape)) 0 0 0 false (ct_data r) in
        match initial with
        | Some i => Ok (set_data r (map (fun v => rf_merge f v i) d))
        | None => Ok (set_data r d)
        end.
End Immediate.

(** reduce without axes, lines 1011-1030: all of them. *)
Definition all_axes (dim : nat) : list Z := map Z.of_nat (seq 0 dim).
