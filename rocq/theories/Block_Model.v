(** Blockwise reducers: reducers/xblockwise_reducer.hpp,
    reducers/xblockwise_reducer_functors.hpp, core/xmultiindex_iterator.hpp. *)
From Coq Require Import List ZArith Bool QArith.
From Verif Require Import Prelude Strides_Model Access_Model Slice_Model Container_Model Reduce_Model Reduce_Spec Chunk_Model.
Import ListNotations.
Open Scope Z_scope.

(** * The multi-index iterator *)

(** core/xmultiindex_iterator.hpp 46-59: the loop of operator++, from axis i - 1
    down. *)
Fixpoint mi_carry (i : nat) (b e cur : list Z) : res (list Z) :=
  match i with
  | O => Ok cur
  | S i' =>
      let* x := rd cur i' in
      let* n := rd e i' in
      if x + 1 =? n then
        let* y := rd b i' in
        let* cur' := wr cur i' y in
        mi_carry i' b e cur'
      else wr cur i' (x + 1)
  end.
(** core/xmultiindex_iterator.hpp 44-62: operator++; the linear index is counted by
    the loops below. *)
Definition mi_next (b e cur : list Z) : res (list Z) := mi_carry (length b) b e cur.
(** core/xmultiindex_iterator.hpp 115-119: the linear index of the end *)
Definition mi_count (b e : list Z) : res Z :=
  for_up (fun i n => let* y := rd e i in let* x := rd b i in Ok (n * to_size_t (y - x))) 0 (length b) 1.
(** The multi-indices dereferenced by for (it = begin; it != end; ++it), in order *)
Definition mi_all (b e : list Z) : res (list (list Z)) :=
  let* n := mi_count b e in
  let* '(_, l) := for_up (fun _ '(cur, l) => let* cur' := mi_next b e cur in Ok (cur', l ++ [cur])) 0 (Z.to_nat n) (b, []) in
  Ok l.

(** * The reducer *)

(** xblockwise_reducer.hpp 64-72: the members. Options other than keep_dims (the
    evaluation strategy, an initial value) are not modelled. *)
Record breducer := mk_breducer {
  b_in : chunking;
  b_axes : list Z;
  b_keep : bool;
  b_shape : list Z;
  b_chunk : list Z;
  b_map : list nat;
  b_strides : list Z
}.

(** xblockwise_reducer.hpp 220-264: init_shapes. Axes are compared as they are given.
    More axes than dimensions ask for a sequence of about 2^64 elements. *)
Definition init_shapes (sh bs axes : list Z) (keep : bool) : res (list Z * list Z * list nat) :=
  let dim := length sh in
  if keep then
    for_up (fun i '(rs, rc, m) =>
      let* m' := wr m i i in
      if mem_axis i axes then
        let* rs' := wr rs i 1 in
        let* rc' := wr rc i 1 in
        Ok (rs', rc', m')
      else
        let* s := rd sh i in
        let* rs' := wr rs i s in
        let* c := rd bs i in
        let* rc' := wr rc i c in
        Ok (rs', rc', m')) 0 dim (repeat 0 dim, repeat 0 dim, repeat O dim)
  else if (dim <? length axes)%nat then Throw bad_alloc
  else
    let n := (dim - length axes)%nat in
    let* '(_, r) :=
      for_up (fun i '(idx, (rs, rc, m)) =>
        if mem_axis i axes then Ok (idx, (rs, rc, m))
        else
          let* s := rd sh i in
          let* rs' := wr rs idx s in
          let* c := rd bs i in
          let* rc' := wr rc idx c in
          let* m' := wr m idx i in
          Ok (S idx, (rs', rc', m'))) 0 dim (O, (repeat 0 n, repeat 0 n, repeat O n)) in
    Ok r.

(** xblockwise_reducer.hpp 89-96: the strides of the grid *)
Definition grid_strides (grid : list Z) : res (list Z) :=
  let* '(st, _) :=
    for_down (fun i '(st, s) => let* st' := wr st i s in let* g := rd grid i in Ok (st', s * g))
      (length grid) (repeat 0 (length grid), 1) in
  Ok st.

(** xblockwise_reducer.hpp 75-97: constructor *)
Definition make_breducer (sh bs axes : list Z) (keep : bool) : res breducer :=
  let* g := view_chunking sh bs in
  let* '(rs, rc, m) := init_shapes sh bs axes keep in
  let* st := grid_strides (g_grid g) in
  Ok (mk_breducer g axes keep rs rc m st).

(** xblockwise_reducer.hpp 141-151: get_input_chunk_iter *)
Definition input_iter (b : breducer) (index : list Z) : res chunk_it :=
  let* n := for_up (fun i n => let* x := rd index i in let* s := rd (b_strides b) i in Ok (n + x * s)) 0 (length (g_shape (b_in b))) 0 in
  it_make (b_in b) index n.

(** xblockwise_reducer.hpp 187-218: compute_input_chunk_range, the begin and the end *)
Definition input_range (b : breducer) (index : list Z) : res (list Z * list Z) :=
  let dim := length (g_shape (b_in b)) in
  for_up (fun r '(lo, hi) =>
    let* s := rd (b_shape b) r in
    if s =? 1 then Ok (lo, hi)
    else
      let* i := rd (b_map b) r in
      let* x := rd index r in
      let* lo' := wr lo i x in
      let* hi' := wr hi i (x + 1) in
      Ok (lo', hi')) 0 (length (b_shape b)) (repeat 0 dim, g_grid (b_in b)).

(** * The functors *)

(** A functor of xblockwise_reducer_functors.hpp, cell by cell: [bf_compute] of the
    product of the block's extents along the axes and of the elements the reducer over
    the block folds into the cell, [bf_start] the reduction variable, [bf_merge] of
    the block's result, [first], the cell and the variable, [bf_final] of the product
    of the input's extents along the axes. The variable of variance holds one count
    for the chunk: here each cell has its copy, all of them are equal. *)
Record bfun (T B C R : Type) := mk_bfun {
  bf_compute : Z -> list T -> B;
  bf_start : C;
  bf_merge : B -> bool -> R * C -> R * C;
  bf_final : Z -> R -> R
}.
Arguments mk_bfun {T B C R}. Arguments bf_compute {T B C R}. Arguments bf_start {T B C R}.
Arguments bf_merge {T B C R}. Arguments bf_final {T B C R}.

(** xblockwise_reducer_functors.hpp 48-189: sum, prod, amin, amax and mean, 264-497: the
    norms. [op] is the operation of merge, of the block's result
    and of the cell; the block is reduced by [f]. *)
Definition simple {T R} (f : rfun T R) (op : R -> R -> R) (final : Z -> R -> R) : bfun T R unit R :=
  mk_bfun (fun _ l => fold_left (rf_reduce f) l (rf_init f)) tt
    (fun v first '(r, c) => ((if first then v else op v r), c)) final.
Definition keep_value {R} (_ : Z) (r : R) : R := r.

(** 314-349: norm_l2, for a given square root *)
Definition norm_l2_b (sqrt : Z -> Z) : bfun Z Z unit Z :=
  simple (mk_rfun (fun r x => r + x * x) 0 Z.add) (fun v r => r + v) (fun _ r => sqrt r).

(** The operations over Z. *)
Definition add_fun : rfun Z Z := mk_rfun Z.add 0 Z.add.
Definition mul_fun : rfun Z Z := mk_rfun Z.mul 1 Z.mul.
Definition sum_b : bfun Z Z unit Z := simple add_fun (fun v r => r + v) keep_value.
Definition prod_b : bfun Z Z unit Z := simple mul_fun (fun v r => r * v) keep_value.
(** 98-146. [top], [bottom]: numeric_limits<T>::max() and lowest(), from which the
    reducers start. *)
Definition amin_b (top : Z) : bfun Z Z unit Z := simple (mk_rfun Z.min top Z.min) Z.min keep_value.
Definition amax_b (bottom : Z) : bfun Z Z unit Z := simple (mk_rfun Z.max bottom Z.max) Z.max keep_value.
(** 264-287: norm_l0, 289-312: norm_l1, 351-374: norm_sq, 376-399: norm_linf *)
Definition count_b : bfun Z Z unit Z := simple (mk_rfun (fun r x => r + (if x =? 0 then 0 else 1)) 0 Z.add) (fun v r => r + v) keep_value.
Definition norm_l1_b : bfun Z Z unit Z := simple (mk_rfun (fun r x => r + Z.abs x) 0 Z.add) (fun v r => r + v) keep_value.
Definition norm_sq_b : bfun Z Z unit Z := simple (mk_rfun (fun r x => r + x * x) 0 Z.add) (fun v r => r + v) keep_value.
Definition norm_linf_b (bottom : Z) : bfun Z Z unit Z := simple (mk_rfun (fun r x => Z.max r (Z.abs x)) bottom Z.max) Z.max keep_value.
(** 401-447: norm_lp_to_p, for an exponent p that is a natural number. *)
Definition norm_lp_to_p_b (p : nat) : bfun Z Z unit Z :=
  simple (mk_rfun (fun r x => r + x ^ Z.of_nat p) 0 Z.add) (fun v r => r + v) keep_value.

(** 148-189: mean, in exact arithmetic *)
Definition mean_b : bfun Q Q unit Q :=
  simple (mk_rfun Qplus 0%Q Qplus) (fun v r => (r + v)%Q) (fun w r => (r / inject_Z w)%Q).

(** core/xmath.hpp 1877-1947, 2116-2150: mean and variance of the elements of a block, in exact
    arithmetic: the sum, and the sum of the squares of the differences to the mean,
    divided by the number of elements. *)
Definition mean_of (l : list Q) : Q := (fold_left Qplus l 0 / inject_Z (Z.of_nat (length l)))%Q.
Definition variance_of (l : list Q) : Q :=
  (fold_left Qplus (map (fun x => (x - mean_of l) * (x - mean_of l)) l) 0 / inject_Z (Z.of_nat (length l)))%Q.

(** 191-252: variance, in exact arithmetic. A block's result is (variance, mean,
    weight), the variable (mean, count). *)
Definition variance_b : bfun Q (Q * Q * Q) (Q * Q) Q :=
  mk_bfun (fun w l => (variance_of l, mean_of l, inject_Z w)) (0, 0)%Q
    (fun '(vb, mb, nb) first '(va, (ma, na)) =>
       if first then (vb, (mb, na + nb))%Q
       else
         let m := ((na * ma + nb * mb) / (na + nb))%Q in
         let v := ((na * va + nb * vb + na * ((ma - m) * (ma - m)) + nb * ((mb - m) * (mb - m))) / (na + nb))%Q in
         (v, (m, na + nb))%Q)
    keep_value.

(** 254-262: stddev, for a given square root *)
Definition stddev_b (sqrt : Q -> Q) : bfun Q (Q * Q * Q) (Q * Q) Q :=
  mk_bfun (bf_compute variance_b) (bf_start variance_b) (bf_merge variance_b) (fun _ r => sqrt r).

(** * The assignment *)

Section Assign.
  (** TL: the traversal of the assignments to a chunk of the result. *)
  Context {T B C R : Type} (TL : layout) (f : bfun T B C R).

  (** The product of the extents along the axes: xblockwise_reducer_functors.hpp
      181-186 (of the input), 200-204 (of a block). *)
  Definition axes_size (sh axes : list Z) : res Z :=
    for_each (fun a n => let* s := rdz sh a in Ok (n * s)) axes 1.

  (** The cell of the container's buffer at index ix of the result. *)
  Definition on_cell (st ix : list Z) (g : R -> R) (d : list R) : res (list R) :=
    let o := element_offset st ix in
    let* r := rdz d o in
    wrz d o (g r).

  (** m_functor.merge over the cells of a chunk; the expressions assigned have the
      shape [rsh] of the reducer over the block and are assigned without broadcast only
      if it is the shape of the chunk; the others are not modelled (UB). The reducer
      over the block folds the elements of [block] (proved of the lazy reducers, C41).
      cs: the variables of the cells. *)
  Definition merge_chunk (st : list Z) (rsl isl : list (Z * Z)) (axes : list Z) (keep : bool) (rsh : list Z) (w : Z)
      (ev : list Z -> T) (first : bool) (s : list C * list R) : res (list C * list R) :=
    if list_eq_dec Z.eq_dec rsh (sv_shape rsl) then
      let* '(_, s') :=
        for_each (fun j '(k, (cs, d)) =>
          let o := element_offset st (shift rsl j) in
          let* r := rdz d o in
          let* c := rd cs k in
          let v := bf_compute f w (map (fun jx => ev (shift isl jx)) (block row_major keep axes (sv_shape isl) j)) in
          let '(r', c') := bf_merge f v first (r, c) in
          let* d' := wrz d o r' in
          let* cs' := wr cs k c' in
          Ok (S k, (cs', d'))) (indices_of TL rsh) (O, s) in
      Ok s'
    else UB.

  (** xblockwise_reducer.hpp 153-185: assign_to_chunk. The reductions over the block
      normalize the axes (xreducer.hpp) and check them. *)
  Definition assign_to_chunk (b : breducer) (st : list Z) (ev : list Z -> T) (rit : chunk_it) (d : list R) : res (list R) :=
    let rsl := it_slices rit in
    let dim := length (g_shape (b_in b)) in
    let axes := map (normalize_axis dim) (b_axes b) in
    let* '(lo, hi) := input_range b (it_index rit) in
    let* n := mi_count lo hi in
    let* '(_, _, (_, d')) :=
      for_up (fun _ '(cur, first, s) =>
        let* it := input_iter b cur in
        let isl := it_slices it in
        let* r := make_reducer (sv_shape isl) axes (b_keep b) (None (A := R)) in
        let* w := axes_size (sv_shape isl) (b_axes b) in
        let* s' := merge_chunk st rsl isl axes (b_keep b) (r_shape r) w ev first s in
        let* cur' := mi_next lo hi cur in
        Ok (cur', false, s')) 0 (Z.to_nat n) (lo, true, (repeat (bf_start f) (length (indices_of TL (sv_shape rsl))), d)) in
    let* w := axes_size (g_shape (b_in b)) (b_axes b) in
    for_each (fun j d => on_cell st (shift rsl j) (bf_final f w) d) (indices_of TL (sv_shape rsl)) d'.

  (** xblockwise_reducer.hpp 127-139: assign_to(result). [ev]: the elements of the
      reduced expression. *)
  Definition assign_to (b : breducer) (ev : list Z -> T) (c : cont R) : res (cont R) :=
    let* g := view_chunking (ct_shape c) (b_chunk b) in
    let n := compute_size (g_grid g) in
    let* it := it_begin g in
    let* '(_, d) :=
      for_up (fun _ '(it, d) =>
        let* d' := assign_to_chunk b (ct_strides c) ev it d in
        let* it' := it_next g n it in
        Ok (it', d')) 0 (Z.to_nat n) (it, ct_data c) in
    Ok (with_buffer c d).
End Assign.
