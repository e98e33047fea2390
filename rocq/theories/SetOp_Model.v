(** Set membership and insertion points: misc/xset_operation.hpp. *)
From Coq Require Import List ZArith Bool.
From Verif Require Import Prelude Strides_Model Container_Model Access_Model Sort_Model.
Import ListNotations.
Open Scope Z_scope.

(** std::find: the position of the first element equal to the value, or the end *)
Fixpoint std_find {V} (eqb : V -> V -> bool) (l : list V) (x : V) : nat :=
  match l with [] => 0 | y :: t => if eqb y x then 0 else S (std_find eqb t x) end.

(** The functor of isin, misc/xset_operation.hpp 24-58 and 72-115: applied to every
    element of the expression (a lazy xfunction, C17). The test elements are those
    seen by the call; the captured references of lines 33-43 and 108-114 are
    modelled in Isin_Model. *)
Definition isin {V} (eqb : V -> V -> bool) (test_elements : list V) (t : V) : bool :=
  negb (std_find eqb test_elements t =? length test_elements)%nat.

(** std::lower_bound and std::upper_bound: the range is required to be partitioned
    ([alg.binary.search]); the result is then the partition point. *)
Fixpoint prefix_length {V} (p : V -> bool) (l : list V) : nat :=
  match l with [] => 0 | y :: t => if p y then S (prefix_length p t) else 0 end.
Definition partition_point {V} (p : V -> bool) (l : list V) : res nat :=
  let k := prefix_length p l in
  if existsb p (skipn k l) then UB else Ok k.
Definition std_lower_bound {V} (lt : V -> V -> bool) (l : list V) (x : V) : res nat := partition_point (fun y => lt y x) l.
Definition std_upper_bound {V} (lt : V -> V -> bool) (l : list V) (x : V) : res nat := partition_point (fun y => negb (lt x y)) l.

(** searchsorted, lines 186-212: [vals] are the elements of a in the order of
    cbegin() ... cend(); [v] is a container; [RL] is the layout of the result of
    xt::empty, XTENSOR_DEFAULT_LAYOUT, and [n1] its number of dimensions if it is an
    xtensor. v(i) and out(i) are accesses with one argument, which goes to the last
    axis (C04). *)
Definition searchsorted {V} (RL : layout) (fresh : list Z -> Z -> list Z) (n1 : nat) (lt : V -> V -> bool) (vals : list V) (v : cont V) (right : bool) : res (cont Z) :=
  let* out := c_resize_layout RL RL fresh (c_default RL n1 0) (ct_shape v) RL in
  let step := match ct_strides out with [] => 0 | _ => last (ct_strides out) 0 end in
  let* d := for_up (fun i d =>
      let* x := read_flat v (Z.of_nat i) in
      let* k := if right then std_lower_bound lt vals x else std_upper_bound lt vals x in
      wrz d (Z.of_nat i * step) (Z.of_nat k)) 0 (Z.to_nat (compute_size (ct_shape v))) (ct_data out) in
  Ok (with_data out d).
