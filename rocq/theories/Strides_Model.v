(** Model of the stride arithmetic of /repo/include/xtensor/core/xstrides.hpp.
    Shapes, strides, offsets and indices are mathematical integers here; the
    64-bit versions are in Machine_Model.v. *)
From Coq Require Import List ZArith Bool.
From Verif Require Import Prelude.
Import ListNotations.
Open Scope Z_scope.

(** core/xlayout.hpp 20-34: enum class layout_type. *)
Inductive layout := dynamic | any | row_major | column_major.

Definition layout_eqb (a b : layout) : bool :=
  match a, b with
  | dynamic, dynamic | any, any | row_major, row_major | column_major, column_major => true
  | _, _ => false
  end.

(** core/xstrides.hpp 336-343 (unsigned compute_size_impl): std::accumulate
    with multiplies, starting at 1, from the left. *)
Definition compute_size (shape : list Z) : Z := fold_left Z.mul shape 1.

(** core/xstrides.hpp 327-334 (signed compute_size_impl): absolute value of the product. *)
Definition compute_size_signed (shape : list Z) : Z := Z.abs (fold_left Z.mul shape 1).

(** core/xstrides.hpp 499-526: detail::adapt_strides at axis i. The backstrides
    pointer is [None] for the nullptr_t overload. *)
Definition adapt_strides_at (shape strides : list Z) (bs : option (list Z)) (i : nat)
  : res (list Z * option (list Z)) :=
  let* sh := rd shape i in
  let* strides := (if sh =? 1 then wr strides i 0 else Ok strides) in
  match bs with
  | None => Ok (strides, None)
  | Some b =>
      let* st := rd strides i in
      let* b := wr b i (st * (sh - 1)) in
      Ok (strides, Some b)
  end.

(** core/xstrides.hpp 622-639: adapt_strides over all the axes. *)
Definition adapt_strides (shape strides : list Z) (bs : option (list Z))
  : res (list Z * option (list Z)) :=
  for_up (fun i '(st, b) => adapt_strides_at shape st b i) 0 (length shape) (strides, bs).

(** core/xstrides.hpp 528-562: detail::compute_strides<L>. State: strides,
    backstrides, data_size. The else branch is taken for every layout that is
    not row_major. *)
Definition compute_strides_body (shape : list Z) (i : nat)
  (s : list Z * option (list Z) * Z) : res (list Z * option (list Z) * Z) :=
  let '(strides, bs, data_size) := s in
  let* strides := wr strides i data_size in
  let* st := rd strides i in
  let* sh := rd shape i in
  let data_size := st * sh in
  let* '(strides, bs) := adapt_strides_at shape strides bs i in
  Ok (strides, bs, data_size).

Definition compute_strides (L : layout) (shape : list Z) (l : layout)
  (strides : list Z) (bs : option (list Z)) : res (list Z * option (list Z) * Z) :=
  if layout_eqb L row_major || layout_eqb l row_major then
    for_down (compute_strides_body shape) (length shape) (strides, bs, 1)
  else
    for_up (compute_strides_body shape) 0 (length shape) (strides, bs, 1).

(** core/xstrides.hpp 578-583 *)
Definition stride_match_condition (stride sh data_size : Z) (zero_strides : bool) : bool :=
  ((sh =? 1) && (stride =? 0) && zero_strides) || (stride =? data_size).

(** core/xstrides.hpp 585-620: do_strides_match. The early [return false] is
    the [None] state. *)
Definition do_strides_match_body (shape strides : list Z) (zero_strides : bool)
  (i : nat) (s : option Z) : res (option Z) :=
  match s with
  | None => Ok None
  | Some data_size =>
      let* st := rd strides i in
      let* sh := rd shape i in
      if stride_match_condition st sh data_size zero_strides
      then Ok (Some (data_size * sh)) else Ok None
  end.

Definition do_strides_match (shape strides : list Z) (l : layout) (zero_strides : bool) : res bool :=
  match l with
  | row_major =>
      let* s := for_down (do_strides_match_body shape strides zero_strides) (length strides) (Some 1) in
      Ok (match s with Some _ => true | None => false end)
  | column_major =>
      let* s := for_up (do_strides_match_body shape strides zero_strides) 0 (length strides) (Some 1) in
      Ok (match s with Some _ => true | None => false end)
  | _ => Ok false
  end.

(** core/xstrides.hpp 358-376: detail::raw_data_offset<dim>. An argument pack is
    its list of integers plus a flag telling that xt::missing follows them; the
    overload for missing_type adds 0. [strides] may be a pointer into the strides
    array, so it is passed as the remaining suffix. *)
Fixpoint raw_data_offset (dim : nat) (strides : list Z) (args : list Z) : res Z :=
  match args with
  | [] => Ok 0
  | arg :: args' =>
      let* st := rd strides dim in
      let* rest := raw_data_offset (S dim) strides args' in
      Ok (arg * st + rest)
  end.

(** core/xstrides.hpp 446-477: data_offset. [miss]: the last argument is
    xt::missing. sizeof...(Args)+1 is the number of integers plus one for
    missing; dropping the first argument of a pack reduced to missing leaves the
    empty pack (overload 446-450). last_type_is_missing<Args...> (utils/xexception.hpp
    46-57) ignores the first argument, so it is false for the pack (missing). *)
Fixpoint data_offset (strides : list Z) (args : list Z) (miss : bool) : res Z :=
  let nargs := (length args + if miss then 1 else 0)%nat in
  match args with
  | [] => Ok 0 (* no argument, or missing alone: every overload returns 0 *)
  | _ :: args' =>
      if (nargs =? length strides)%nat then raw_data_offset 0 strides args
      else if (length strides <? nargs)%nat then data_offset strides args' miss
      else if miss then raw_data_offset 0 strides args
      else raw_data_offset 0 (skipn (length strides - nargs) strides) args
  end.

(** core/xstrides.hpp 378-443: detail::layout_data_offset<L, static_dim>::run<dim>,
    for a non-empty argument pack. [static_dim] is -1 for dynamic dimensions. *)
Fixpoint layout_data_offset (L : layout) (static_dim : Z) (dim : nat)
  (strides : list Z) (args : list Z) : res Z :=
  match args with
  | [] => Ok 0
  | arg :: args' =>
      match L, args' with
      | row_major, [] =>
          if Z.of_nat dim + 1 =? static_dim then Ok arg
          else let* st := rd strides dim in Ok (arg * st)
      | row_major, _ =>
          let* st := rd strides dim in
          let* rest := layout_data_offset L static_dim (S dim) strides args' in
          Ok (arg * st + rest)
      | column_major, [] =>
          if (dim =? 0)%nat then Ok arg
          else let* st := rd strides dim in Ok (arg * st)
      | column_major, _ =>
          if (dim =? 0)%nat then
            let* rest := layout_data_offset L static_dim (S dim) strides args' in
            Ok (arg + rest)
          else
            let* st := rd strides dim in
            let* rest := layout_data_offset L static_dim (S dim) strides args' in
            Ok (arg * st + rest)
      | _, _ => raw_data_offset dim strides args
      end
  end.

(** core/xstrides.hpp 479-485 *)
Definition unchecked_data_offset (L : layout) (static_dim : Z) (strides args : list Z) : res Z :=
  layout_data_offset L static_dim 0 strides args.

(** std::inner_product over two ranges of the same length. *)
Fixpoint inner_product (l1 l2 : list Z) (acc : Z) : Z :=
  match l1, l2 with
  | a :: l1', b :: l2' => inner_product l1' l2' (acc + a * b)
  | _, _ => acc
  end.

(** core/xstrides.hpp 487-495: element_offset: inner product of the last
    min(#indices, #strides) entries of both sequences. *)
Definition element_offset (strides index : list Z) : Z :=
  let size := Nat.min (length index) (length strides) in
  inner_product (skipn (length index - size) index) (skipn (length strides - size) strides) 0.

(** core/xstrides.hpp 643-670: detail::unravel_noexcept. State: idx, result. *)
Definition unravel_body (strides : list Z) (i : nat) (s : Z * list Z) : res (Z * list Z) :=
  let '(idx, result) := s in
  let* str := rd strides i in
  let* quot := (if negb (str =? 0) then cdiv idx str else Ok 0) in
  let* idx := (if negb (str =? 0) then crem idx str else Ok idx) in
  let* result := wr result i quot in
  Ok (idx, result).

Definition unravel_noexcept (idx : Z) (strides : list Z) (l : layout) : res (list Z) :=
  let result := repeat 0 (length strides) in
  let* '(_, result) :=
    match l with
    | row_major => for_up (unravel_body strides) 0 (length strides) (idx, result)
    | _ => for_down (unravel_body strides) (length strides) (idx, result)
    end in
  Ok result.

(** core/xstrides.hpp 673-681 *)
Definition unravel_from_strides (idx : Z) (strides : list Z) (l : layout) : res (list Z) :=
  match l with
  | row_major | column_major => unravel_noexcept idx strides l
  | _ => Throw runtime_error
  end.

(** core/xstrides.hpp 683-687 *)
Definition ravel_from_strides (index strides : list Z) : Z := element_offset strides index.

(** core/xstrides.hpp 689-697 *)
Definition unravel_index (index : Z) (shape : list Z) (l : layout) : res (list Z) :=
  let strides := repeat 0 (length shape) in
  let* '(strides, _, _) := compute_strides dynamic shape l strides None in
  unravel_from_strides index strides l.

(** core/xstrides.hpp 699-714: unravel_indices; the strides are computed once. *)
Definition unravel_indices (idx : list Z) (shape : list Z) (l : layout) : res (list (list Z)) :=
  let strides := repeat 0 (length shape) in
  let* '(strides, _, _) := compute_strides dynamic shape l strides None in
  for_each (fun i out => let* x := unravel_from_strides i strides l in Ok (out ++ [x])) idx [].

(** core/xstrides.hpp 716-723 *)
Definition ravel_index (index shape : list Z) (l : layout) : res Z :=
  let strides := repeat 0 (length shape) in
  let* '(strides, _, _) := compute_strides dynamic shape l strides None in
  Ok (ravel_from_strides index strides).

(** core/xstrides.hpp 204-227: detail::compute_stride_impl *)
Definition compute_stride_impl (l : layout) (shape : list Z) (axis : nat) (default_stride : Z) : Z :=
  match l with
  | row_major => fold_left Z.mul (skipn (axis + 1) shape) 1
  | column_major => fold_left Z.mul (firstn axis shape) 1
  | _ => default_stride
  end.

(** core/xstrides.hpp 233-238 *)
Inductive stride_type := st_internal | st_normal | st_bytes.

(** core/xstrides.hpp 247-282: strides(e, type); [esz] is sizeof(value_type). *)
Definition strides_of (shape estrides : list Z) (l : layout) (type : stride_type) (esz : Z) : res (list Z) :=
  match type with
  | st_internal => Ok estrides
  | _ =>
      let* ret := for_up (fun i ret =>
                    let* sh := rd shape i in
                    if sh =? 1 then
                      let* d := rd ret i in
                      wr ret i (compute_stride_impl l shape i d)
                    else Ok ret) 0 (length estrides) estrides in
      Ok (match type with st_bytes => map (fun c => c * esz) ret | _ => ret end)
  end.

(** core/xstrides.hpp 291-319: strides(e, axis, type) *)
Definition strides_of_axis (shape estrides : list Z) (l : layout) (axis : nat)
  (type : stride_type) (esz : Z) : res Z :=
  let* ret := rd estrides axis in
  match type with
  | st_internal => Ok ret
  | _ =>
      let* ret :=
        (if ret =? 0 then
           let* sh := rd shape axis in
           if sh =? 1 then Ok (compute_stride_impl l shape axis ret) else Ok ret
         else Ok ret) in
      Ok (match type with st_bytes => ret * esz | _ => ret end)
  end.

(** core/xstrides.hpp 169-196: strided_data_end, as an offset from [begin]. *)
Definition strided_data_end (shape strides : list Z) (begin : Z) (l : layout) (offset : nat) : res Z :=
  match shape with
  | [] => Ok (begin + 1)
  | _ =>
      let* b := for_up (fun i b =>
                  let* st := rd strides i in
                  let* sh := rd shape i in
                  Ok (b + st * (sh - 1))) 0 (length shape) begin in
      match l with
      | row_major => let* st := rd strides (length strides - 1) in Ok (b + st)
      | _ => if (offset =? 0)%nat then let* st := rd strides 0 in Ok (b + st) else Ok b
      end
  end.
