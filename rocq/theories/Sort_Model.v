(** Model of the sorting functions, /repo/include/xtensor/misc/xsort.hpp, on
    containers. The algorithms of the standard library are parameters ([algos]);
    what the standard promises of them is in Sort_Spec. Sizes and positions are
    mathematical integers. *)
From Coq Require Import List ZArith Bool.
From Verif Require Import Prelude Strides_Model Access_Model Container_Model SView_Model SView_Spec Manip_Model.
Import ListNotations.
Open Scope Z_scope.

(** std::sort, std::stable_sort and std::nth_element on the contents of a range,
    with a comparison function. *)
Record algos : Type := mk_algos {
  std_sort : forall A : Type, (A -> A -> bool) -> list A -> list A;
  std_stable_sort : forall A : Type, (A -> A -> bool) -> list A -> list A;
  std_nth_element : forall A : Type, (A -> A -> bool) -> list A -> nat -> list A
}.

(** A function [f] applied in place to the range [pos, pos + len) of a buffer. *)
Definition on_range {A} (f : list A -> res (list A)) (pos len : Z) (data : list A) : res (list A) :=
  if (0 <=? pos) && (0 <=? len) && (pos + len <=? Z.of_nat (length data)) then
    let p := Z.to_nat pos in
    let n := Z.to_nat len in
    let* r := f (firstn n (skipn p data)) in
    Ok (firstn p data ++ r ++ skipn (p + n) data)
  else UB.

(** shape() and strides() with layout() == row_major, lines 42-57:
    adjust_secondary_stride and get_secondary_stride. *)
Definition adjust_secondary_stride (stride shape : Z) : Z := if negb (stride =? 0) then stride else shape.
Definition get_secondary_stride {V} (c : cont V) : res Z :=
  let dim := length (ct_shape c) in
  if layout_eqb (ct_layout c) row_major then
    if (dim <? 2)%nat then UB
    else
      let* st := rd (ct_strides c) (dim - 2) in
      let* n := rd (ct_shape c) (dim - 1) in
      Ok (adjust_secondary_stride st n)
  else
    let* st := rd (ct_strides c) 1 in
    let* n := rd (ct_shape c) 0 in
    Ok (adjust_secondary_stride st n).

(** leading_axis_n_iters, lines 60-72 *)
Definition leading_axis_n_iters {V} (c : cont V) : res Z :=
  let dim := length (ct_shape c) in
  if (dim =? 0)%nat then UB
  else if layout_eqb (ct_layout c) row_major then Ok (compute_size (firstn (dim - 1) (ct_shape c)))
  else Ok (compute_size (skipn 1 (ct_shape c))).

Definition with_data {V} (c : cont V) (d : list V) : cont V :=
  mk_cont (ct_shape c) (ct_strides c) (ct_back c) (ct_layout c) d.

(** call_over_leading_axis on one container, lines 75-89; [f] is what fct does to
    the range it is given. With a stride of 0 begin and end are equal. *)
Definition call_over_leading_axis {V} (f : list V -> res (list V)) (c : cont V) : res (cont V) :=
  let* n_iters := leading_axis_n_iters c in
  let* ss := get_secondary_stride c in
  if ss =? 0 then Ok c
  else
    let* d := for_up (fun i d => on_range f (Z.of_nat i * ss) ss d) 0 (Z.to_nat n_iters) (ct_data c) in
    Ok (with_data c d).

(** call_over_leading_axis on two containers, lines 91-112. The first is written:
    [f src r] is the new contents of its range, [r] the old ones, and [src] the
    buffer of the second from the start of its range on. *)
Definition call_over_leading_axis2 {V W} (f : list V -> list W -> res (list W)) (e1 : cont W) (e2 : cont V) : res (cont W) :=
  let* n_iters := leading_axis_n_iters e1 in
  let* ss1 := get_secondary_stride e1 in
  let* ss2 := get_secondary_stride e2 in
  if (ss1 =? 0) || (ss2 =? 0) then Ok e1
  else
    let* d := for_up (fun i d =>
      let p2 := Z.of_nat i * ss2 in
      if (0 <=? p2) && (p2 <=? Z.of_nat (length (ct_data e2))) then
        on_range (f (skipn (Z.to_nat p2) (ct_data e2))) (Z.of_nat i * ss1) ss1 d
      else UB) 0 (Z.to_nat n_iters) (ct_data e1) in
    Ok (with_data e1 d).

(** leading_axis, lines 114-126; dimension() - 1 is unsigned. *)
Definition leading_axis {V} (c : cont V) : res Z :=
  match ct_layout c with
  | row_major => Ok (to_size_t (Z.of_nat (length (ct_shape c)) - 1))
  | column_major => Ok 0
  | _ => Throw runtime_error
  end.

(** std::find on a sequence: the position found, the length if there is none. *)
Fixpoint find_pos (x : Z) (l : list Z) : nat :=
  match l with [] => 0%nat | y :: l' => if y =? x then 0%nat else S (find_pos x l') end.

(** get_permutations, lines 129-154 *)
Definition get_permutations (dim : nat) (ax : Z) (l : layout) : res (list Z * list Z) :=
  if Z.of_nat dim <=? ax then UB
  else
    let ids := iota dim in
    let rest := firstn (Z.to_nat ax) ids ++ skipn (S (Z.to_nat ax)) ids in
    let permutation := if layout_eqb l row_major then rest ++ [ax] else ax :: rest in
    Ok (permutation, map (fun i => Z.of_nat (find_pos (Z.of_nat i) permutation)) (seq 0 dim)).

(** R res = v, or res = v where v is a view of res itself (in which case a
    temporary is built and moved, C36), for a strided view v over the buffer
    [data]: a default container of static layout [SL] (and [n0] dimensions, 0 for an
    xarray) is resized to the shape of v and the elements are copied; the order of
    the copies is immaterial (C15) and here row major. *)
Definition c_of_view {V} (SL DL : layout) (fresh : list V -> Z -> list V) (n0 : nat) (v0 : V) (v : sview) (data : list V) : res (cont V) :=
  let* r := c_resize SL DL fresh (c_default SL n0 v0) (w_shape v) false in
  let* d := for_each (fun ix d =>
      let* x := read_cell data (w_element v ix) in
      wrz d (element_offset (ct_strides r) ix) x) (indices (w_shape v)) (ct_data r) in
  Ok (with_data r d).

(** normalize_axis as a std::size_t, utils/xutils.hpp 376-380 *)
Definition norm_axis (dim : nat) (axis : Z) : Z := to_size_t (if axis <? 0 then Z.of_nat dim + axis else axis).

Section Sort.
Context {V : Type} (SL DL : layout) (fresh : list V -> Z -> list V) (n0 : nat) (v0 : V).

(** transpose(c, permutation), evaluated *)
Definition transposed (c : cont V) (perm : list Z) : res (cont V) :=
  let* v := transpose_none DL (of_cont c) perm in
  c_of_view SL DL fresh n0 v0 v (ct_data c).

(** map_axis, lines 156-181, for a container e whose type is R (so that R res = e
    is a copy). A container of one dimension stores its elements one after the
    other, hence begin() and end() are those of the storage. *)
Definition map_axis (f : list V -> res (list V)) (e : cont V) (axis : Z) : res (cont V) :=
  let dim := length (ct_shape e) in
  if (dim =? 1)%nat then
    let* d := on_range f 0 (Z.of_nat (length (ct_data e))) (ct_data e) in Ok (with_data e d)
  else
    let ax := norm_axis dim axis in
    let* lead := leading_axis e in
    if ax =? lead then call_over_leading_axis f e
    else
      let* '(perm, rev_perm) := get_permutations dim ax (ct_layout e) in
      let* res := transposed e perm in
      let* res := call_over_leading_axis f res in
      transposed res rev_perm.

Context (a : algos) (lt : V -> V -> bool).

(** sort(e, axis), lines 254-268 *)
Definition sort (e : cont V) (axis : Z) : res (cont V) := map_axis (fun l => Ok (std_sort a V lt l)) e axis.

(** flat_sort_impl and sort(e, xnone()), lines 208-226: [vals] are the elements of
    the expression in the order of cbegin() ... cend(); the result is one
    dimensional and given by its elements. *)
Definition flat_sort (vals : list V) : list V := std_sort a V lt vals.

(** partition_iter, lines 503-519: the indices in the order of the iterators; the
    state is k_last. A position beyond k_last is outside the range given to
    nth_element, and nth_element(first, last, last) does nothing. *)
Fixpoint partition_iter {A} (cmp : A -> A -> bool) (kth : list Z) (k_last : Z) (data : list A) : res (list A) :=
  match kth with
  | [] => Ok data
  | k :: kth' =>
      if (k <? 0) || (k_last <? k) then UB
      else
        let* data := on_range (fun l => Ok (if k =? k_last then l else std_nth_element a A cmp l (Z.to_nat k))) 0 k_last data in
        partition_iter cmp kth' k data
  end.
Definition partition_range {A} (cmp : A -> A -> bool) (kth : list Z) (data : list A) : res (list A) :=
  partition_iter cmp (rev (std_sort a Z Z.ltb kth)) (Z.of_nat (length data)) data.

(** partition(e, kth, axis), lines 595-609, and partition(e, kth, xnone()), lines
    564-577 ([vals]: the elements in storage order). *)
Definition partition (e : cont V) (kth : list Z) (axis : Z) : res (cont V) := map_axis (partition_range lt kth) e axis.
Definition flat_partition (vals : list V) (kth : list Z) : res (list V) := partition_range lt kth vals.

(** median(e), lines 1087-1105: [vals] are the elements of flatten(e); [mid x y] is
    (x + y) / value_type(2). szh - 1 is unsigned; values[k] is the k-th element. *)
Definition median (mid : V -> V -> V) (vals : list V) : res V :=
  let sz := Z.of_nat (length vals) in
  if sz mod 2 =? 0 then
    let szh := sz / 2 in
    let k0 := to_size_t (szh - 1) in
    let* values := partition_range lt [k0; szh] vals in
    let* x := rdz values k0 in
    let* y := rdz values szh in
    Ok (mid x y)
  else
    let k := (sz - 1) / 2 in
    let* values := partition_range lt [k] vals in
    rdz values k.

(** std::unique: the first of each group of consecutive equal elements *)
Fixpoint unique_from (eqb : V -> V -> bool) (x : V) (l : list V) : list V :=
  match l with
  | [] => [x]
  | y :: t => if eqb x y then unique_from eqb x t else x :: unique_from eqb y t
  end.
Definition std_unique (eqb : V -> V -> bool) (l : list V) : list V :=
  match l with [] => [] | x :: t => unique_from eqb x t end.

(** std::set_difference *)
Fixpoint set_difference (l1 l2 : list V) {struct l1} : list V :=
  let fix loop2 (l2 : list V) {struct l2} : list V :=
    match l1, l2 with
    | [], _ => []
    | _, [] => l1
    | x :: t1, y :: t2 =>
        if lt x y then x :: set_difference t1 l2
        else if lt y x then loop2 t2
        else set_difference t1 t2
    end in
  loop2 l2.

(** unique(e), lines 1305-1317, and setdiff1d, lines 1326-1346: [vals] are the
    elements of the expressions in the order of cbegin() ... cend(). *)
Definition unique (eqb : V -> V -> bool) (vals : list V) : list V := std_unique eqb (flat_sort vals).
Definition setdiff1d (eqb : V -> V -> bool) (vals1 vals2 : list V) : list V :=
  set_difference (unique eqb vals1) (unique eqb vals2).
End Sort.

Section Argsort.
Context {V : Type} (SL DL : layout) (fresh : list V -> Z -> list V) (fresh_i : list Z -> Z -> list Z) (n0 : nat) (v0 : V).
Context (a : algos) (lt : V -> V -> bool).

(** comp( *(data_begin + i), *(data_begin + j)) *)
Definition cmp_at (data : list V) (i j : Z) : bool :=
  match rdz data i, rdz data j with Ok x, Ok y => lt x y | _, _ => false end.

(** argsort_iter, lines 294-329: [data] starts at data_begin. There is no break
    after the first case of the switch: the quick method goes on to the stable sort.
    An index beyond the end of the buffer is read by the comparisons. *)
Definition argsort_iter (stable : bool) (data : list V) (idx : list Z) : res (list Z) :=
  if (length idx <=? length data)%nat then
    let idx := iota (length idx) in
    let idx := if stable then idx else std_sort a Z (cmp_at data) idx in
    Ok (std_stable_sort a Z (cmp_at data) idx)
  else UB.

(** result_type::from_shape(shape), containers/xarray.hpp 460-464, xtensor.hpp
    likewise *)
Definition from_shape (shape : list Z) : res (cont Z) :=
  c_resize_layout SL DL fresh_i (c_default SL n0 0) shape SL.

(** flatten_argsort_impl, lines 409-425; [vals] are the elements in the order of
    cbegin() ... cend(). *)
Definition flatten_argsort (stable : bool) (vals : list V) : res (cont Z) :=
  let* r := c_resize SL DL fresh_i (c_default SL n0 0) [Z.of_nat (length vals)] false in
  let* d := on_range (argsort_iter stable vals) 0 (Z.of_nat (length (ct_data r))) (ct_data r) in
  Ok (with_data r d).

(** The common part of argsort, lines 450-485, and argpartition, lines 717-745, for
    two or more dimensions: [f data idx] fills idx from the data of a lane. *)
Definition arg_map_axis (f : list V -> list Z -> res (list Z)) (de : cont V) (axis : Z) : res (cont Z) :=
  let dim := length (ct_shape de) in
  let ax := norm_axis dim axis in
  let* lead := leading_axis de in
  if ax =? lead then
    let* res := from_shape (ct_shape de) in
    call_over_leading_axis2 f res de
  else
    let* '(perm, rev_perm) := get_permutations dim ax (ct_layout de) in
    let* ev := transposed SL DL fresh n0 v0 de perm in
    let* res := from_shape (ct_shape ev) in
    let* res := call_over_leading_axis2 f res ev in
    transposed SL DL fresh_i n0 0 res rev_perm.

Definition argsort (stable : bool) (de : cont V) (axis : Z) : res (cont Z) :=
  if (length (ct_shape de) =? 1)%nat then flatten_argsort stable (ct_data de)
  else arg_map_axis (argsort_iter stable) de axis.

(** argpartition along an axis, lines 702-746, the lambda of lines 717-732 *)
Definition argpartition_iter (kth : list Z) (data : list V) (idx : list Z) : res (list Z) :=
  if (length idx <=? length data)%nat then
    partition_iter a (cmp_at data) (rev (std_sort a Z Z.ltb kth)) (Z.of_nat (length idx)) (iota (length idx))
  else UB.

(** de[i] is operator()(i), core/xaccessible.hpp 203-206: the stride of the last
    axis (core/xstrides.hpp 258-268, C04). Reads outside the buffer happen if the
    last index is outside. *)
Definition read_flat (de : cont V) (i : Z) : res V :=
  match ct_strides de with [] => rdz (ct_data de) 0 | _ => rdz (ct_data de) (i * last (ct_strides de) 0) end.
Definition cmp_flat (de : cont V) (i j : Z) : bool :=
  match read_flat de i, read_flat de j with Ok x, Ok y => lt x y | _, _ => false end.

(** argpartition(e, kth, xnone()), lines 655-683 *)
Definition flat_argpartition (de : cont V) (kth : list Z) : res (list Z) :=
  let n := compute_size (ct_shape de) in
  if forallb (fun i => is_ok (read_flat de i)) (iota (Z.to_nat n)) then
    partition_iter a (cmp_flat de) (rev (std_sort a Z Z.ltb kth)) n (iota (Z.to_nat n))
  else UB.

Definition argpartition (de : cont V) (kth : list Z) (axis : Z) : res (cont Z) :=
  if (length (ct_shape de) =? 1)%nat then
    let* r := from_shape [compute_size (ct_shape de)] in
    let* d := flat_argpartition de kth in
    Ok (with_data r d)
  else arg_map_axis (argpartition_iter kth) de axis.

(** arg_func_lambda, lines 1204-1219: the position of the first extremum *)
Definition arg_func (cmp : V -> V -> bool) (l : list V) : res Z :=
  match l with
  | [] => UB
  | x :: t =>
      let '(idx, _, _) := fold_left (fun '(idx, val, i) y => if cmp y val then (i, y, i + 1) else (idx, val, i + 1)) t (0, x, 1) in
      Ok idx
  end.

(** std::distance(begin, std::min_element(begin, end)); max_element with < is the
    first element no other one is greater than *)
Definition min_position (l : list V) : Z :=
  match l with
  | [] => 0
  | x :: t => fst (fst (fold_left (fun '(idx, val, i) y => if lt y val then (i, y, i + 1) else (idx, val, i + 1)) t (0, x, 1)))
  end.
Definition max_position (l : list V) : Z :=
  match l with
  | [] => 0
  | x :: t => fst (fst (fold_left (fun '(idx, val, i) y => if lt val y then (i, y, i + 1) else (idx, val, i + 1)) t (0, x, 1)))
  end.

(** The k-th index of a shape in an iteration with layout L (C11). *)
Definition traversal (L : layout) (sh : list Z) : list (list Z) :=
  match L with row_major => indices sh | _ => map (@rev Z) (indices (rev sh)) end.

(** The lanes over the leading axis, each sent to *result_iter, which is advanced:
    lines 75-89 with 1204-1219. *)
Definition arg_lanes (L : layout) (cmp : V -> V -> bool) (input : cont V) (result : cont Z) : res (cont Z) :=
  let* n_iters := leading_axis_n_iters input in
  let* ss := get_secondary_stride input in
  if ss =? 0 then Ok result
  else
    let* d := for_up (fun i d =>
      let p := Z.to_nat (Z.of_nat i * ss) in
      if (0 <? ss) && (Z.of_nat i * ss + ss <=? Z.of_nat (length (ct_data input))) then
        let* idx := arg_func cmp (firstn (Z.to_nat ss) (skipn p (ct_data input))) in
        let* ix := rd (traversal L (ct_shape result)) i in
        wrz d (element_offset (ct_strides result) ix) idx
      else UB) 0 (Z.to_nat n_iters) (ct_data result) in
    Ok (with_data result d).

(** arg_func_impl, lines 1158-1233, for argmin ([mx] false) and argmax. [RL] is the
    layout of the result type, XTENSOR_DEFAULT_LAYOUT, [n1] its number of dimensions
    when it is an xtensor. In one dimension the result has none. *)
Definition arg_func_impl (L RL : layout) (n1 : nat) (mx : bool) (e : cont V) (axis : Z) : res (cont Z) :=
  let dim := length (ct_shape e) in
  let cmp := if mx then fun x y => lt y x else lt in
  if (dim =? 1)%nat then
    Ok (mk_cont [] [] [] RL [if mx then max_position (ct_data e) else min_position (ct_data e)])
  else if Z.of_nat dim <=? axis then UB
  else
    let alt_shape := firstn (Z.to_nat axis) (ct_shape e) ++ skipn (S (Z.to_nat axis)) (ct_shape e) in
    let* result := c_resize_layout RL RL fresh_i (c_default RL n1 0) alt_shape RL in
    let* lead := leading_axis e in
    if negb (axis =? lead) then
      let* '(perm, _) := get_permutations dim axis (ct_layout e) in
      let* input := transposed SL DL fresh n0 v0 e perm in
      arg_lanes L cmp input result
    else arg_lanes L cmp e result.

(** argmin(e, axis) and argmax(e, axis), lines 1258-1265 and 1289-1296 *)
Definition argmin_axis (L RL : layout) (n1 : nat) (e : cont V) (axis : Z) : res (cont Z) :=
  arg_func_impl L RL n1 false e (norm_axis (length (ct_shape e)) axis).
Definition argmax_axis (L RL : layout) (n1 : nat) (e : cont V) (axis : Z) : res (cont Z) :=
  arg_func_impl L RL n1 true e (norm_axis (length (ct_shape e)) axis).

(** argmin(e) and argmax(e), lines 1237-1246 and 1267-1276: [vals] in the order of
    begin<L>() ... end<L>() *)
Definition argmin_flat (vals : list V) : Z := min_position vals.
Definition argmax_flat (vals : list V) : Z := max_position vals.
End Argsort.
