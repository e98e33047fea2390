(** Model of checked, periodic and bounds-tested element access:
    /repo/include/xtensor/utils/xexception.hpp, core/xstrides.hpp 845-913 and
    core/xaccessible.hpp. Argument packs are as in Strides_Model.data_offset:
    a list of integers and a flag for a trailing xt::missing. *)
From Coq Require Import List ZArith Bool.
From Verif Require Import Prelude Strides_Model.
Import ListNotations.
Open Scope Z_scope.

(** static_cast<std::size_t> of an integer, on 64 bits. *)
Definition to_size_t (x : Z) : Z := x mod 2 ^ 64.

(** sizeof...(Args) *)
Definition nargs (args : list Z) (miss : bool) : nat := (length args + if miss then 1 else 0)%nat.

(** utils/xexception.hpp 182-205: detail::check_index_impl<S, dim> *)
Fixpoint check_index_impl (dim : nat) (shape args : list Z) : res unit :=
  match args with
  | [] => Ok tt
  | arg :: args' =>
      let* sh := rd shape dim in
      if (to_size_t sh <=? to_size_t arg) && negb (sh =? 1) then Throw out_of_range
      else check_index_impl (S dim) shape args'
  end.

(** utils/xexception.hpp 207-241: check_index *)
Fixpoint check_index (shape args : list Z) (miss : bool) : res unit :=
  match args with
  | [] => Ok tt
  | _ :: args' =>
      if (nargs args miss =? length shape)%nat then check_index_impl 0 shape args
      else if (length shape <? nargs args miss)%nat then check_index shape args' miss
      else if miss then check_index_impl 0 shape args
      else check_index_impl 0 (skipn (length shape - nargs args miss) shape) args
  end.

(** utils/xexception.hpp 270-281: check_dimension *)
Definition check_dimension (shape args : list Z) (miss : bool) : res unit :=
  if (length shape <? nargs args miss)%nat then Throw out_of_range else Ok tt.

(** utils/xexception.hpp 305-310: check_access *)
Definition check_access (shape args : list Z) (miss : bool) : res unit :=
  let* _ := check_dimension shape args miss in check_index shape args miss.

(** core/xaccessible.hpp 173-179, 272-278 (at) followed by containers/xcontainer.hpp
    441-465 (operator()): the buffer position read or written. *)
Definition at_offset (shape strides args : list Z) (miss : bool) : res Z :=
  let* _ := check_access shape args miss in data_offset strides args miss.

(** utils/xexception.hpp 243-264: check_element_index (run by element() when
    assertions are enabled); [axis] starts at 0 whatever the number of indices. *)
Fixpoint check_element_loop (shape idx : list Z) (axis : nat) : res unit :=
  match idx with
  | [] => Ok tt
  | i :: idx' =>
      let* sh := rd shape axis in
      if (sh <=? i) && negb (sh =? 1) then Throw out_of_range
      else check_element_loop shape idx' (S axis)
  end.
Definition check_element_index (shape idx : list Z) : res unit :=
  let dst := length idx in
  check_element_loop shape (skipn (dst - Nat.min (length shape) dst) idx) 0.

(** core/xstrides.hpp 847-878: check_in_bounds (xaccessible.hpp 246-251, in_bounds). *)
Fixpoint check_in_bounds_impl (dim : nat) (shape args : list Z) (miss : bool) : res bool :=
  match args with
  | [] => Ok true
  | arg :: args' =>
      if (length shape <? nargs args miss)%nat then check_in_bounds_impl dim shape args' miss
      else
        let* sh := rd shape dim in
        if (0 <=? arg) && (arg <? sh) then check_in_bounds_impl (S dim) shape args' miss
        else Ok false
  end.
Definition check_in_bounds (shape args : list Z) (miss : bool) : res bool :=
  check_in_bounds_impl 0 shape args miss.

(** core/xstrides.hpp 882-906: normalize_periodic_impl<dim>, the updated arguments. *)
Fixpoint normalize_periodic_impl (dim : nat) (shape args : list Z) (miss : bool) : res (list Z) :=
  match args with
  | [] => Ok []
  | arg :: args' =>
      if (length shape <? nargs args miss)%nat then
        let* rest := normalize_periodic_impl dim shape args' miss in Ok (arg :: rest)
      else
        let* n := rd shape dim in
        let* r := crem arg n in
        let* arg := crem (n + r) n in
        let* rest := normalize_periodic_impl (S dim) shape args' miss in
        Ok (arg :: rest)
  end.

(** core/xstrides.hpp 908-913 *)
Definition normalize_periodic (shape args : list Z) (miss : bool) : res (list Z) :=
  let* _ := check_dimension shape args miss in normalize_periodic_impl 0 shape args miss.

(** core/xaccessible.hpp 215-221, 313-319 (periodic) followed by operator(). *)
Definition periodic_offset (shape strides args : list Z) (miss : bool) : res Z :=
  let* args := normalize_periodic shape args miss in data_offset strides args miss.
