(** Properties C11-C13: steppers and iterators. *)
From Coq Require Import List ZArith.
From Verif Require Import Prelude Strides_Model Strides_Spec Broadcast_Spec Stepper_Model Stepper_Spec
  Stepper4_Proofs.
Import ListNotations.
Open Scope Z_scope.

(** C11. Iterating over a container (any strides the library keeps, any shape,
    also with extent 0 or no axis): after k < size increments the iterator differs
    from end() and reads the element at the k-th index of the traversal order;
    after size increments it equals end(). *)
Theorem C11_container_iteration :
  forall (V : Type) (l : layout) (c : container) (buf : list V),
  l = row_major \/ l = column_major -> is_shape (k_shape c) -> strided_ok c ->
  let e := XStrided c buf in
  exists b en,
    x_it_begin (k_shape c) l e = Ok b /\ x_it_end (k_shape c) l e = Ok en /\
    (forall k, (Z.of_nat k < prod (k_shape c)) ->
       exists it, it_inc_k (x_ops (k_shape c) e) (k_shape c) l k b = Ok it /\ it_equal it en = false /\
         forall ix, in_bounds (k_shape c) ix -> order_pos l (k_shape c) ix = Z.of_nat k ->
           it_deref e it = rdz buf (k_begin c + dot ix (k_strides c))) /\
    (exists it, it_inc_k (x_ops (k_shape c) e) (k_shape c) l (Z.to_nat (prod (k_shape c))) b = Ok it /\
       it_equal it en = true).
Proof. exact (@container_iteration_lemma). Qed.
Print Assumptions C11_container_iteration.

(** A 2x3 column major container read in row major order, and a flipped row. *)
Example C11_case_container :
  let c := mk_container [2;3] [1;2] [1;4] 0 in
  let e := XStrided c [10;11;12;13;14;15] in
  strided_ok c /\
  (let* b := x_it_begin [2;3] row_major e in
   let* it := it_inc_k (x_ops [2;3] e) [2;3] row_major 4 b in it_deref e it) = Ok 13.
Proof.
  split; [|vm_compute; reflexivity].
  split; [reflexivity|]. split; [reflexivity|]. intros [|[|[|j]]] H; cbn in *; split; intros; try reflexivity; try discriminate; repeat apply le_S_n in H; inversion H.
Qed.

(** C34, for any expression: the iteration shape may be larger than those of the
    operands. Missing: 0-dimensional operands read by index, see the refutation. *)
Theorem C34_expression_iteration_partial :
  forall (V : Type) (l : layout) (sh : list Z) (e : sexp V),
  l = row_major \/ l = column_major -> is_shape sh -> operands_ok sh e ->
  exists b en,
    x_it_begin sh l e = Ok b /\ x_it_end sh l e = Ok en /\
    (forall k, (Z.of_nat k < prod sh) ->
       exists it, it_inc_k (x_ops sh e) sh l k b = Ok it /\ it_equal it en = false /\
         forall ix, in_bounds sh ix -> order_pos l sh ix = Z.of_nat k -> it_deref e it = x_value ix e) /\
    (exists it, it_inc_k (x_ops sh e) sh l (Z.to_nat (prod sh)) b = Ok it /\ it_equal it en = true).
Proof. exact (@iteration_lemma). Qed.
Print Assumptions C34_expression_iteration_partial.

Example C34_case :
  let row := XStrided (mk_container [3] [1] [2] 0) [1;2;3] in
  let col := XStrided (mk_container [2;1] [1;0] [1;0] 0) [10;20] in
  let gen := XIndexed [2;3] (fun ix => match ix with [i;j] => 100 * (i + j) | _ => 0 end) in
  let e := XFun (fun vs => fold_right Z.add 0 vs) [row; XScalar 5; col; gen] in
  map (fun k => let* b := x_it_begin [2;3] row_major e in
                let* it := it_inc_k (x_ops [2;3] e) [2;3] row_major k b in it_deref e it) (seq 0 6)
  = [Ok 16; Ok 117; Ok 218; Ok 126; Ok 227; Ok 328].
Proof. vm_compute. reflexivity. Qed.

(** A 0-dimensional expression using the indexed stepper: making end(), or
    incrementing past the only element, writes out of bounds. *)
Theorem C34_indexed_0d_refuted :
  exists (e : sexp Z),
    x_it_end [] row_major e = UB /\ x_it_end [] column_major e = UB /\
    (exists b, x_it_begin [] row_major e = Ok b /\ it_inc (x_ops [] e) [] row_major b = UB) /\
    (exists b, x_it_begin [] column_major e = Ok b /\ it_inc (x_ops [] e) [] column_major b = UB).
Proof. exact indexed_0d_refuted_lemma. Qed.
Print Assumptions C34_indexed_0d_refuted.

(** C12. Random access on containers: two arbitrary walks made of ++, --, += and
    -= with any signed amounts, each started at begin() or end() and never leaving
    [begin, end]; the first iterator reads the element at its position, and
    difference, equality and order of the two are those of the positions. *)
Theorem C12_container_random_access :
  forall (V : Type) (l : layout) (c : container) (buf : list V),
  l = row_major \/ l = column_major -> Forall (fun d => 0 < d) (k_shape c) -> strided_ok c ->
  let e := XStrided c buf in let sh := k_shape c in
  exists b en,
    x_it_begin sh l e = Ok b /\ x_it_end sh l e = Ok en /\
    forall (from_end1 from_end2 : bool) (ms1 ms2 : list move),
    let start1 := if from_end1 then prod sh else 0 in
    let start2 := if from_end2 then prod sh else 0 in
    stays (prod sh) start1 ms1 -> stays (prod sh) start2 ms2 ->
    exists it1 it2,
      do_moves (x_ops sh e) sh l ms1 (if from_end1 then en else b) = Ok it1 /\
      do_moves (x_ops sh e) sh l ms2 (if from_end2 then en else b) = Ok it2 /\
      (forall ix, in_bounds sh ix -> order_pos l sh ix = final start1 ms1 ->
         it_deref e it1 = rdz buf (k_begin c + dot ix (k_strides c))) /\
      it_diff it1 it2 = final start1 ms1 - final start2 ms2 /\
      it_equal it1 it2 = (final start1 ms1 =? final start2 ms2) /\
      it_less it1 it2 = (final start1 ms1 <? final start2 ms2).
Proof. exact (@container_random_access_lemma). Qed.
Print Assumptions C12_container_random_access.

Example C12_case :
  let c := mk_container [2;3] [3;1] [3;2] 0 in
  let e := XStrided c [0;1;2;3;4;5] in
  stays 6 6 [MSub 4; MInc; MAdd (-2); MAdd 3; MDec] /\
  (let* en := x_it_end [2;3] column_major e in
   let* it := do_moves (x_ops [2;3] e) [2;3] column_major [MSub 4; MInc; MAdd (-2); MAdd 3; MDec] en in
   it_deref e it) = Ok 4.
Proof. vm_compute. repeat split; try discriminate. Qed.

(** C35, for expressions. Missing: backward traversal when an operand is a
    0-dimensional container seen through a larger shape, or is read by index and
    the traversal is column major; both really fail, see below. *)
Theorem C35_expression_random_access_partial :
  forall (V : Type) (l : layout) (sh : list Z) (e : sexp V),
  l = row_major \/ l = column_major -> Forall (fun d => 0 < d) sh -> operands_ok sh e ->
  sh = [] \/ reversible l e ->
  exists b en,
    x_it_begin sh l e = Ok b /\ x_it_end sh l e = Ok en /\
    forall (from_end1 from_end2 : bool) (ms1 ms2 : list move),
    let start1 := if from_end1 then prod sh else 0 in
    let start2 := if from_end2 then prod sh else 0 in
    stays (prod sh) start1 ms1 -> stays (prod sh) start2 ms2 ->
    exists it1 it2,
      do_moves (x_ops sh e) sh l ms1 (if from_end1 then en else b) = Ok it1 /\
      do_moves (x_ops sh e) sh l ms2 (if from_end2 then en else b) = Ok it2 /\
      (forall ix, in_bounds sh ix -> order_pos l sh ix = final start1 ms1 -> it_deref e it1 = x_value ix e) /\
      it_diff it1 it2 = final start1 ms1 - final start2 ms2 /\
      it_equal it1 it2 = (final start1 ms1 =? final start2 ms2) /\
      it_less it1 it2 = (final start1 ms1 <? final start2 ms2).
Proof. exact (@random_access_lemma). Qed.
Print Assumptions C35_expression_random_access_partial.

(** Decrementing end() of a 0-dimensional container iterated with a larger shape
    and reading gives an access outside its storage. *)
Theorem C35_reverse_broadcast_scalar_refuted :
  exists (e : sexp Z) sh, Forall (fun d => 0 < d) sh /\ operands_ok sh e /\ storage_ok e /\
    exists en it, x_it_end sh row_major e = Ok en /\
      it_dec (x_ops sh e) sh row_major en = Ok it /\ it_deref e it = UB.
Proof. exact reverse_0d_refuted_lemma. Qed.
Print Assumptions C35_reverse_broadcast_scalar_refuted.

(** Decrementing end() of a column major traversal of an expression read by index
    does not reach the last element. *)
Theorem C35_reverse_indexed_column_refuted :
  exists (e : sexp Z) sh, Forall (fun d => 0 < d) sh /\ operands_ok sh e /\
    exists en it v, x_it_end sh column_major e = Ok en /\
      it_dec (x_ops sh e) sh column_major en = Ok it /\
      it_deref e it = Ok v /\
      forall ix, in_bounds sh ix -> order_pos column_major sh ix = prod sh - 1 -> x_value ix e <> Ok v.
Proof. exact indexed_col_reverse_refuted_lemma. Qed.
Print Assumptions C35_reverse_indexed_column_refuted.

(** C13. While the assignment loop walks the result shape, at the step that visits
    index [ix] the loop index is [ix] and the pointer of an operand is at the
    element with the extra leading axes dropped and 0 on its axes of extent 1. *)
Theorem C13_operand_pointer :
  forall (V : Type) (l : layout) (sh : list Z) (c : container) (buf : list V) (ix : list Z),
  l = row_major \/ l = column_major -> fits (k_shape c) sh -> strided_ok c -> in_bounds sh ix ->
  walk (x_ops sh (XStrided c buf)) sh l (Z.to_nat (order_pos l sh ix)) (repeat 0 (length sh)) (TPtr (k_begin c)) =
  Ok (ix, TPtr (k_begin c + dot (bc_index (k_shape c) ix) (k_strides c))).
Proof. exact (@broadcast_walk_lemma). Qed.
Print Assumptions C13_operand_pointer.

Example C13_case :
  let c := mk_container [3;1] [1;0] [2;0] 5 in
  walk (x_ops [2;3;2] (XStrided c [0])) [2;3;2] row_major 11 [0;0;0] (TPtr 5) = Ok ([1;2;1], TPtr 7)
  /\ order_pos row_major [2;3;2] [1;2;1] = 11 /\ bc_index [3;1] [1;2;1] = [2;0].
Proof. vm_compute. repeat split. Qed.

(** C13 for a whole expression tree: what the assignment loop reads at the step
    visiting [ix] is the value of the expression at [ix], and no read leaves the
    storage of an operand that holds all its elements. *)
Theorem C13_expression_value :
  forall (V : Type) (l : layout) (sh : list Z) (e : sexp V) (ix : list Z),
  l = row_major \/ l = column_major -> operands_ok sh e -> in_bounds sh ix ->
  exists st,
    walk (x_ops sh e) sh l (Z.to_nat (order_pos l sh ix)) (repeat 0 (length sh)) (x_begin e) = Ok (ix, st) /\
    x_deref e st = x_value ix e /\
    (storage_ok e -> exists v, x_deref e st = Ok v).
Proof. exact (@expression_walk_lemma). Qed.
Print Assumptions C13_expression_value.
