(** Chunked arrays: chunk/xchunked_array.hpp, xchunked_assign.hpp, xchunked_view.hpp. *)
From Coq Require Import List ZArith Bool.
From Verif Require Import Prelude Strides_Model Access_Model Slice_Model Container_Model Reduce_Spec.
Import ListNotations.
Open Scope Z_scope.

Section Chunk.
  Context {V : Type}.
  (** SL: the layout of the chunks' type, GL: that of the container of chunks, DL:
      the library's default layout, TL: its default traversal
      (XTENSOR_DEFAULT_TRAVERSAL), [fresh]: what the buffer of a chunk holds after a
      resize (Container_Model), v0: a default constructed value. *)
  Context (SL GL DL TL : layout) (fresh : list V -> Z -> list V) (v0 : V).

  (** xchunked_array.hpp 85-229 (members): shape, chunk shape and an in-memory
      container of chunks (CS = xarray<xarray<T>>, as made by chunked_array). *)
  Record chunked := mk_chunked {
    k_shape : list Z;
    k_chunk_shape : list Z;
    k_chunks : cont (cont V)
  }.

  (** xchunked_array.hpp 604-620, xchunked_view.hpp 125-141: number of chunks along
      each axis. A zero chunk extent divides by zero; std::transform reads one chunk
      extent per axis of the shape. *)
  Fixpoint grid_shape_of (sh cs : list Z) {struct sh} : res (list Z) :=
    match sh, cs with
    | [], _ => Ok []
    | s :: sh', c :: cs' =>
        if c =? 0 then UB
        else let* g := grid_shape_of sh' cs' in
             Ok ((if 0 <? s mod c then s / c + 1 else s / c) :: g)
    | _ :: _, [] => UB
    end.

  (** xchunked_array.hpp 298-307: chunk_helper::resize, for (auto& c : chunks) *)
  Fixpoint resize_chunks (cs : list Z) (lay : layout) (l : list (cont V)) : res (list (cont V)) :=
    match l with
    | [] => Ok []
    | c :: l' =>
        let* c' := c_resize_layout SL DL fresh c cs lay in
        let* r := resize_chunks cs lay l' in
        Ok (c' :: r)
    end.

  (** A default constructed chunk, and the default constructed container of chunks
      (a 0-D array holding one chunk). *)
  Definition new_chunk : cont V := c_default SL 0 v0.
  Definition new_grid : cont (cont V) := c_default GL 0 new_chunk.
  (** Resizing the container of chunks default constructs the chunks when the number
      of chunks changes and keeps them otherwise (xstorage.hpp 217-228, resize_impl). *)
  Definition fresh_chunks (old : list (cont V)) (n : Z) : list (cont V) :=
    if n =? Z.of_nat (length old) then old else repeat new_chunk (Z.to_nat n).

  Definition with_chunks (g : cont (cont V)) (d : list (cont V)) : cont (cont V) :=
    mk_cont (ct_shape g) (ct_strides g) (ct_back g) (ct_layout g) d.

  (** xchunked_array.hpp 600-626: resize *)
  Definition k_resize (g : cont (cont V)) (sh cs : list Z) (lay : layout) : res chunked :=
    let* gs := grid_shape_of sh cs in
    let* g1 := c_resize GL DL fresh_chunks g gs false in
    let* d := resize_chunks cs lay (ct_data g1) in
    Ok (mk_chunked sh cs (with_chunks g1 d)).

  (** xchunked_array.hpp 345-366, 388-394: chunked_array<T>(shape, chunk_shape, layout) *)
  Definition k_create (sh cs : list Z) (lay : layout) : res chunked := k_resize new_grid sh cs lay.

  (** xchunked_array.hpp 636-644: get_chunk_indexes_in_dimension *)
  Definition in_dimension (k : chunked) (dim : nat) (idx : Z) : res (Z * Z) :=
    let* c := rd (k_chunk_shape k) dim in
    if c =? 0 then UB
    else let q := to_size_t idx / c in Ok (q, to_size_t (to_size_t idx - q * c)).

  (** xchunked_array.hpp 628-634, 646-667 (a pack of indices), 669-683 (a range):
      axis by axis from the first. *)
  Fixpoint get_indexes (k : chunked) (dim : nat) (ix : list Z) : res (list Z * list Z) :=
    match ix with
    | [] => Ok ([], [])
    | i :: ix' =>
        let* '(q, r) := in_dimension k dim i in
        let* '(qs, rs) := get_indexes k (S dim) ix' in
        Ok (q :: qs, r :: rs)
    end.

  (** xchunked_array.hpp 448-482: operator()(idxs...) and element(first, last):
      m_chunks.element(...) then chunk.element(...). *)
  Definition k_get (k : chunked) (ix : list Z) : res V :=
    let* '(q, r) := get_indexes k 0 ix in
    let* c := rdz (ct_data (k_chunks k)) (element_offset (ct_strides (k_chunks k)) q) in
    rdz (ct_data c) (element_offset (ct_strides c) r).

  Definition with_buffer (c : cont V) (d : list V) : cont V :=
    mk_cont (ct_shape c) (ct_strides c) (ct_back c) (ct_layout c) d.
  Definition with_cell (k : chunked) (o : Z) (c : cont V) : res chunked :=
    let* d := wrz (ct_data (k_chunks k)) o c in
    Ok (mk_chunked (k_shape k) (k_chunk_shape k) (with_chunks (k_chunks k) d)).

  (** The same reference assigned to: a(idxs...) = v *)
  Definition k_set (k : chunked) (ix : list Z) (v : V) : res chunked :=
    let* '(q, r) := get_indexes k 0 ix in
    let o := element_offset (ct_strides (k_chunks k)) q in
    let* c := rdz (ct_data (k_chunks k)) o in
    let* d := wrz (ct_data c) (element_offset (ct_strides c) r) v in
    with_cell k o (with_buffer c d).

  (** * The chunk iterator (xchunked_assign.hpp 148-189, 273-375) *)

  (** What the iterator asks its expression (an xchunked_array or an xchunked_view):
      shape, chunk shape, grid shape. *)
  Record chunking := mk_chunking { g_shape : list Z; g_chunk : list Z; g_grid : list Z }.

  Record chunk_it := mk_it { it_index : list Z; it_linear : Z; it_slices : list (Z * Z) }.

  (** xchunked_assign.hpp 366-375: fill_slice_vector(i), the range computed *)
  Definition slice_at (g : chunking) (index : list Z) (i : nat) : res (Z * Z) :=
    let* x := rd index i in
    let* c := rd (g_chunk g) i in
    let* s := rd (g_shape g) i in
    Ok (x * c, Z.min ((x + 1) * c) s).
  Definition fill_slice (g : chunking) (index : list Z) (i : nat) (sl : list (Z * Z)) : res (list (Z * Z)) :=
    let* r := slice_at g index i in
    wr sl i r.

  (** xchunked_assign.hpp 273-284: constructor *)
  Definition it_make (g : chunking) (index : list Z) (linear : Z) : res chunk_it :=
    let* sl := for_up (fun i sl => fill_slice g index i sl) 0 (length index) (repeat (0, 0) (length index)) in
    Ok (mk_it index linear sl).

  (** xchunked_array.hpp 560-565, xchunked_view.hpp 244-249: chunk_begin *)
  Definition it_begin (g : chunking) : res chunk_it := it_make g (repeat 0 (length (g_shape g))) 0.

  (** xchunked_assign.hpp 291-306: the loop of operator++ *)
  Fixpoint it_carry (g : chunking) (i : nat) (index : list Z) (sl : list (Z * Z)) : res (list Z * list (Z * Z)) :=
    match i with
    | O => Ok (index, sl)
    | S i' =>
        let* x := rd index i' in
        let* n := rd (g_grid g) i' in
        if x + 1 =? n then
          let* index' := wr index i' 0 in
          let* sl' := fill_slice g index' i' sl in
          it_carry g i' index' sl'
        else
          let* index' := wr index i' (x + 1) in
          let* sl' := fill_slice g index' i' sl in
          Ok (index', sl')
    end.

  (** xchunked_assign.hpp 286-310: operator++ *)
  Definition it_next (g : chunking) (grid_size : Z) (it : chunk_it) : res chunk_it :=
    let* '(index, sl) :=
      if it_linear it + 1 =? grid_size then Ok (it_index it, it_slices it)
      else it_carry g (length (g_shape g)) (it_index it) (it_slices it) in
    Ok (mk_it index (it_linear it + 1) sl).

  (** xchunked_assign.hpp 350-364: get_chunk_slice_vector (size_t arithmetic); only
      the ends, the ranges start at 0. *)
  Definition chunk_end_at (g : chunking) (index : list Z) (i : nat) : res Z :=
    let* c := rd (g_chunk g) i in
    let* s := rd (g_shape g) i in
    let* x := rd index i in
    Ok (Z.min c (to_size_t (s - x * c))).
  Definition chunk_ends (g : chunking) (index : list Z) : res (list Z) :=
    for_up (fun i l => let* e := chunk_end_at g index i in Ok (l ++ [e])) 0 (length index) [].

  (** * Assignment *)

  (** A strided view on ranges start..stop (start <= stop <= extent, so that xrange
      does not adjust them) has one axis of extent stop - start per slice and at [j]
      the element [start + j] of its expression; that is proved of the strided views
      in C19. *)
  Definition sv_shape (sl : list (Z * Z)) : list Z := map (fun p => snd p - fst p) sl.
  Fixpoint shift (sl : list (Z * Z)) (j : list Z) : list Z :=
    match sl, j with
    | p :: sl', x :: j' => fst p + x :: shift sl' j'
    | _, _ => []
    end.

  (** noalias(dst) = src for a destination addressed through strides: every element
      of the shape is written (the assigners are proved correct in C03, C21 and C36;
      here the loop of the stepper assigner). *)
  Definition copy_into (strides : list Z) (where_ : list Z -> list Z) (sh : list Z) (src : list Z -> res V) (d : list V)
    : res (list V) :=
    for_each (fun j d => let* v := src j in wrz d (element_offset strides (where_ j)) v) (indices_of TL sh) d.

  (** xchunked_assign.hpp 112-122: get_chunk, *(chunks().begin() + i): the i-th chunk
      in the default traversal order *)
  Definition chunk_offset (k : chunked) (i : Z) : res Z :=
    let* q := rdz (indices_of TL (ct_shape (k_chunks k))) i in
    Ok (element_offset (ct_strides (k_chunks k)) q).

  Definition chunking_of (k : chunked) : chunking :=
    mk_chunking (k_shape k) (k_chunk_shape k) (ct_shape (k_chunks k)).

  (** xchunked_assign.hpp 213-221: the body of the loop of assign_xexpression. The
      expression is given by its element function [ev]; its shape is that of the
      array, as in the constructor (xchunked_array.hpp 413-414). In the second branch
      the chunk already has the shape of [rhs], so that noalias does not resize it.
      A chunk shape with more axes than the shape is not modelled here (UB). *)
  Definition assign_chunk (ev : list Z -> V) (it : chunk_it) (k : chunked) : res chunked :=
    let rhs_shape := sv_shape (it_slices it) in
    let rhs j := Ok (ev (shift (it_slices it) j)) in
    let* o := chunk_offset k (it_linear it) in
    let* c := rdz (ct_data (k_chunks k)) o in
    if negb (length (ct_shape c) =? length rhs_shape)%nat then UB
    else if zlist_eqb rhs_shape (k_chunk_shape k) then
      let* d := copy_into (ct_strides c) (fun j => j) rhs_shape rhs (ct_data c) in
      with_cell k o (with_buffer c d)
    else
      let* ends := chunk_ends (chunking_of k) (it_index it) in
      if zlist_eqb ends rhs_shape then
        let* d := copy_into (ct_strides c) (fun j => j) rhs_shape rhs (ct_data c) in
        with_cell k o (with_buffer c d)
      else Throw broadcast_error.

  (** xchunked_assign.hpp 203-225: assign_xexpression. The loop ends when the linear
      index of the iterator is grid_size(), after that many steps. *)
  Definition k_assign (ev : list Z -> V) (k : chunked) : res chunked :=
    let g := chunking_of k in
    let n := Z.of_nat (length (ct_data (k_chunks k))) in
    let* it := it_begin g in
    let* '(_, k') :=
      for_up (fun _ '(it, k) =>
                let* k' := assign_chunk ev it k in
                let* it' := it_next g n it in
                Ok (it', k'))
        0 (Z.to_nat n) (it, k) in
    Ok k'.

  (** xchunked_array.hpp 368-374, 403-415: chunked_array(e, chunk_shape, layout) *)
  Definition k_from (sh : list Z) (ev : list Z -> V) (cs : list Z) (lay : layout) : res chunked :=
    let* k := k_resize new_grid sh cs lay in
    k_assign ev k.
  (** xchunked_array.hpp 376-382, 396-401: chunked_array(e, layout) for an e that is
      not chunked: one chunk of the shape of e *)
  Definition k_from_whole (sh : list Z) (ev : list Z -> V) (lay : layout) : res chunked := k_from sh ev sh lay.

  (** xchunked_assign.hpp 195-201, 253-260: a = e, through a temporary built with the
      chunk shape of [a] and the default layout *)
  Definition k_assign_op (k : chunked) (sh : list Z) (ev : list Z -> V) : res chunked :=
    k_from sh ev (k_chunk_shape k) DL.

  (** xchunked_assign.hpp 242-251: scalar_computed_assign, every stored value of every
      chunk (xsemantic.hpp: each container applies f to all its elements) *)
  Definition k_scalar (f : V -> V) (k : chunked) : chunked :=
    mk_chunked (k_shape k) (k_chunk_shape k)
      (with_chunks (k_chunks k) (map (fun c => with_buffer c (map f (ct_data c))) (ct_data (k_chunks k)))).

  (** * Views in chunks on an array: as_chunked (xchunked_view.hpp) *)

  (** xchunked_view.hpp 100-110, 122-148, 282-286 *)
  Definition view_chunking (sh cs : list Z) : res chunking :=
    let* g := grid_shape_of sh cs in Ok (mk_chunking sh cs g).

  (** xchunked_view.hpp 150-162: as_chunked(c, chunk_shape) = e, for an e of the shape
      of c: each chunk of c, a strided view, is assigned the same slice of e *)
  Definition view_assign (c : cont V) (cs : list Z) (ev : list Z -> V) : res (cont V) :=
    let* g := view_chunking (ct_shape c) cs in
    let n := compute_size (g_grid g) in
    let* it := it_begin g in
    let* '(_, d) :=
      for_up (fun _ '(it, d) =>
                let sl := it_slices it in
                let* d' := copy_into (ct_strides c) (shift sl) (sv_shape sl) (fun j => Ok (ev (shift sl j))) d in
                let* it' := it_next g n it in
                Ok (it', d'))
        0 (Z.to_nat n) (it, ct_data c) in
    Ok (with_buffer c d).

  (** xchunked_view.hpp 164-200: as_chunked(c) = k for a chunked array k of the same
      shape: the chunks of c are paired with those of k; an edge chunk of c takes the
      elements 0..size of the chunk of k. *)
  Definition view_assign_chunked (c : cont V) (k : chunked) : res (cont V) :=
    let* g := view_chunking (ct_shape c) (k_chunk_shape k) in
    let n := compute_size (g_grid g) in
    let* it := it_begin g in
    let* '(_, _, d) :=
      for_up (fun _ '(it, i2, d) =>
                let sl := it_slices it in
                let* o := chunk_offset k i2 in
                let* c2 := rdz (ct_data (k_chunks k)) o in
                let* d' := copy_into (ct_strides c) (shift sl) (sv_shape sl)
                             (fun j => rdz (ct_data c2) (element_offset (ct_strides c2) j)) d in
                let* it' := it_next g n it in
                Ok (it', i2 + 1, d'))
        0 (Z.to_nat n) (it, 0, ct_data c) in
    Ok (with_buffer c d).
End Chunk.
Arguments chunked : clear implicits.
