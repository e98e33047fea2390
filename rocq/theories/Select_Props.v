(** C52: argwhere, nonzero and flatnonzero. C53: index views, filters and filtrations.
    C54: equality of expressions, trim_zeros. *)
From Coq Require Import List ZArith Bool Sorted.
From Verif Require Import Prelude Strides_Model Strides_Spec Access_Model Container_Model Container_Spec Container_Proofs Reduce_Spec
  Select_Model Select_Spec Select_Proofs Select2_Proofs Select3_Proofs.
Import ListNotations.
Open Scope Z_scope.

(** argwhere<L>(arr) lists every index where the element is not zero, once, in the
    order L. *)
Theorem C52_argwhere : forall (L : layout) sh arr p, is_order L -> is_shape sh -> prod sh < 2 ^ 64 -> expr_of sh arr p ->
  exists l, argwhere L sh arr = Ok l /\
    (forall ix, In ix l <-> in_bounds sh ix /\ p ix = true) /\
    StronglySorted (fun a b => rank L sh a < rank L sh b) l.
Proof. intros L sh arr p H1 H2 H3 H4. exact (argwhere_lemma L sh arr p H1 H2 H3 H4). Qed.
Print Assumptions C52_argwhere.
Example C52_case_argwhere : expr_of [2; 3] (fun ix => Ok (odd_sum ix)) odd_sum /\
  argwhere row_major [2; 3] (fun ix => Ok (odd_sum ix)) = Ok [[0; 1]; [1; 0]; [1; 2]] /\
  argwhere column_major [2; 3] (fun ix => Ok (odd_sum ix)) = Ok [[1; 0]; [0; 1]; [1; 2]].
Proof. split; [intros ix _; reflexivity|]. split; vm_compute; reflexivity. Qed.

(** nonzero(arr), which is where(arr), has for each axis the coordinates along that axis
    of those indices, in the default traversal order. *)
Theorem C52_nonzero : forall (TL : layout) sh arr p, is_order TL -> is_shape sh -> prod sh < 2 ^ 64 -> expr_of sh arr p ->
  exists r l, nonzero TL sh arr = Ok r /\ lists_where TL sh p l /\ length r = length sh /\
    forall k, (k < length sh)%nat -> nth k r [] = map (fun ix => nth k ix 0) l.
Proof. exact nonzero_lemma. Qed.
Print Assumptions C52_nonzero.
Example C52_case_nonzero : nonzero row_major [2; 3] (fun ix => Ok (odd_sum ix)) = Ok [[0; 1; 1]; [1; 0; 2]].
Proof. vm_compute. reflexivity. Qed.

(** flatnonzero<L>(arr) has the positions of those indices in the order L. *)
Theorem C52_flatnonzero : forall (TL L : layout) sh arr p, is_order TL -> is_order L -> is_shape sh -> prod sh < 2 ^ 64 -> expr_of sh arr p ->
  exists l, lists_where L sh p l /\ flatnonzero TL L sh arr = Ok (map (rank L sh) l).
Proof. exact flatnonzero_lemma. Qed.
Print Assumptions C52_flatnonzero.
Example C52_case_flatnonzero : flatnonzero row_major column_major [2; 3] (fun ix => Ok (odd_sum ix)) = Ok [1; 2; 5].
Proof. vm_compute. reflexivity. Qed.

(** ravel_indices maps each index to its position in the given order; flatten_indices
    puts the coordinates one index after the other. *)
Theorem C52_ravel_indices : forall (L : layout) sh l, is_order L -> is_shape sh -> Forall (in_bounds sh) l ->
  ravel_indices l sh L = Ok (map (rank L sh) l).
Proof. exact ravel_indices_lemma. Qed.
Print Assumptions C52_ravel_indices.
Theorem C52_flatten_indices : forall (l : list (list Z)) d i j, Forall (fun ix => length ix = d) l -> (i < length l)%nat -> (j < d)%nat ->
  nth_error (flatten_indices l) (i * d + j) = Some (nth j (nth i l []) 0) /\ length (flatten_indices l) = (length l * d)%nat.
Proof. exact flatten_lemma. Qed.
Print Assumptions C52_flatten_indices.
Example C52_case_ravel_indices : ravel_indices [[0; 1]; [1; 0]; [1; 2]] [2; 3] column_major = Ok [2; 1; 5] /\
  flatten_indices [[0; 1]; [1; 0]; [1; 2]] = [0; 1; 1; 0; 1; 2].
Proof. split; vm_compute; reflexivity. Qed.

(** The i-th element of index_view(c, l) is the element of c at l[i]. *)
Theorem C53_read : forall V sh l (c : cont V) v, holds c sh v -> all_inside sh l ->
  forall i ix, nth_error l i = Some ix -> iv_get c l (Z.of_nat i) = Ok (v ix).
Proof. intros V sh l c v H1 H2 i ix. exact (read_lemma sh l c v H1 H2 i ix). Qed.
Print Assumptions C53_read.

(** Assigning a scalar gives it to the selected elements and to no other. *)
Theorem C53_fill : forall V sh l (c : cont V) v x, holds c sh v -> all_inside sh l ->
  exists c' w, iv_fill c l x = Ok c' /\ holds c' sh w /\
    (forall ix, In ix l -> w ix = x) /\ (forall ix, ~ In ix l -> w ix = v ix).
Proof.
  intros V sh l c v x H1 H2. destruct (fill_lemma sh l c v H1 H2 x) as (c' & E & H). exists c'. eexists. split; [exact E|]. split; [exact H|].
  split; intros ix Hx; cbn beta; destruct (in_dec _ ix l); try contradiction; reflexivity.
Qed.
Print Assumptions C53_fill.

(** A compound assignment with a scalar applies the operation once for each time the
    element is selected. *)
Theorem C53_scalar : forall V sh l (c : cont V) v f, holds c sh v -> all_inside sh l ->
  exists c', iv_scalar f c l = Ok c' /\ holds c' sh (fun ix => Nat.iter (occurrences l ix) f (v ix)).
Proof. intros V sh l c v f H1 H2. exact (scalar_lemma sh l c v H1 H2 f). Qed.
Print Assumptions C53_scalar.

(** A compound assignment with an expression: all the elements of the view and of the
    expression are read before the first write; the last one wins where an element is
    selected several times; the other elements do not change. *)
Theorem C53_compound : forall V sh l (c : cont V) v f e, holds c sh v -> all_inside sh l -> rhs_ok sh (length l) e ->
  exists c' w, iv_assign_op f c l e = Ok c' /\ holds c' sh w /\
    (forall ix i, last_at l ix i -> w ix = f (v (nth i l [])) (rhs_at v e i)) /\ (forall ix, ~ In ix l -> w ix = v ix).
Proof.
  intros V sh l c v f e H1 H2 H3. destruct (assign_op_lemma sh l c v H1 H2 f e H3) as (c' & E & w & H). exists c', w. auto.
Qed.
Print Assumptions C53_compound.

(** Assigning an expression: the same, as if the expression were evaluated first.
    Missing: index views whose first and last elements do not enclose the others in
    memory, see C53_aliasing_refuted. *)
Theorem C53_assign_partial : forall V sh l (c : cont V) v e, holds c sh v -> all_inside sh l -> rhs_ok sh (length l) e ->
  ends_extreme (element_offset (ct_strides c)) l -> rhs_extreme (element_offset (ct_strides c)) e ->
  exists c' w, iv_assign c l e = Ok c' /\ holds c' sh w /\
    (forall ix i, last_at l ix i -> w ix = rhs_at v e i) /\ (forall ix, ~ In ix l -> w ix = v ix).
Proof.
  intros V sh l c v e H1 H2 H3 H4 H5. destruct (assign_lemma sh l c v H1 H2 e H3 H4 H5) as (c' & E & w & H). exists c', w. auto.
Qed.
Print Assumptions C53_assign_partial.

Example C53_case : holds (vec [10; 11; 12; 13; 14; 15]) [6] at6 /\ all_inside [6] [[1]; [3]; [1]; [4]] /\
  iv_fill (vec [10; 11; 12; 13; 14; 15]) [[1]; [3]; [1]; [4]] 7 = Ok (vec [10; 7; 12; 7; 7; 15]) /\
  iv_scalar (Z.add 100) (vec [10; 11; 12; 13; 14; 15]) [[1]; [3]; [1]; [4]] = Ok (vec [10; 211; 12; 113; 114; 15]) /\
  iv_assign (vec [10; 11; 12; 13; 14; 15]) [[1]; [3]; [1]; [4]] (X_view [[0]; [1]; [3]; [4]]) = Ok (vec [10; 13; 12; 11; 14; 15]) /\
  iv_assign_op Z.add (vec [10; 11; 12; 13; 14; 15]) [[1]; [3]; [1]; [4]] (X_ext true (fun i => 100 * i)) = Ok (vec [10; 211; 12; 113; 314; 15]).
Proof. split; [exact vec6_holds|]. split; [inb|]. repeat (split; [vm_compute; reflexivity|]). vm_compute. reflexivity. Qed.

(** The right-hand side is not always evaluated first: a = 10, 11, 12, 13, 14, 15, then
    index_view(a, {0, 5, 1}) = index_view(a, {3, 4, 5}) leaves a(1) = 14, although a(5)
    was 15. *)
Theorem C53_aliasing_refuted : ~ forall V sh l (c : cont V) v e, holds c sh v -> all_inside sh l -> rhs_ok sh (length l) e ->
  exists c' w, iv_assign c l e = Ok c' /\ holds c' sh w /\ (forall ix i, last_at l ix i -> w ix = rhs_at v e i).
Proof.
  intros H. destruct (H Z [6] [[0]; [5]; [1]] (vec [10; 11; 12; 13; 14; 15]) at6 (X_view [[3]; [4]; [5]]) vec6_holds) as (c' & w & E & (_ & _ & Hw) & Ha).
  - inb.
  - split; [reflexivity|inb].
  - vm_compute in E. injection E as <-. specialize (Ha [1] 2%nat). rewrite <- (f_equal (fun r => match r with Ok z => z | _ => 0 end) (Hw [1] ltac:(inb))) in Ha.
    vm_compute in Ha. discriminate Ha. split; [reflexivity|]. intros [|[|[|j]]] Hj; try Lia.lia; destruct j; discriminate.
Qed.
Print Assumptions C53_aliasing_refuted.

(** With repeated indices, += with a scalar and += with an array of that scalar differ. *)
Theorem C53_scalar_like_array_refuted : ~ forall sh l (c : cont Z) v x, holds c sh v -> all_inside sh l ->
  iv_scalar (fun y => y + x) c l = iv_assign_op Z.add c l (X_ext true (fun _ => x)).
Proof.
  intros H. specialize (H [6] [[1]; [1]] (vec [10; 11; 12; 13; 14; 15]) at6 1 vec6_holds ltac:(inb)). vm_compute in H. discriminate H.
Qed.
Print Assumptions C53_scalar_like_array_refuted.

(** Additional leading arguments are ignored by the call operator but not by element(). *)
Theorem C53_extra_arguments_refuted : ~ forall V sh l (c : cont V) v i j, holds c sh v -> all_inside sh l ->
  0 <= i < Z.of_nat (length l) -> 0 <= j < Z.of_nat (length l) -> iv_element c l [j; i] = iv_call c l [j; i].
Proof.
  intros H. specialize (H Z [6] [[1]; [2]] (vec [10; 11; 12; 13; 14; 15]) at6 0 1 vec6_holds ltac:(inb) ltac:(split; [discriminate|reflexivity]) ltac:(split; [discriminate|reflexivity])).
  vm_compute in H. discriminate H.
Qed.
Print Assumptions C53_extra_arguments_refuted.

(** filter<L>(c, condition) = x gives x to the elements where the condition holds;
    filter<L>(c, condition) op= x applies the operation to them, once. *)
Theorem C53_filter_fill : forall V (L : layout) sh (c : cont V) v cond p x, is_order L -> holds c sh v -> prod sh < 2 ^ 64 -> expr_of sh cond p ->
  exists l c', filter_indices L sh cond = Ok l /\ iv_fill c l x = Ok c' /\ holds c' sh (fun ix => if p ix then x else v ix).
Proof. intros V L sh c v cond p x H1 H2 H3 H4. exact (filter_fill_lemma L sh c v cond p H1 H2 H3 H4 x). Qed.
Print Assumptions C53_filter_fill.
Theorem C53_filter_scalar : forall V (L : layout) sh (c : cont V) v cond p f, is_order L -> holds c sh v -> prod sh < 2 ^ 64 -> expr_of sh cond p ->
  exists l c', filter_indices L sh cond = Ok l /\ iv_scalar f c l = Ok c' /\ holds c' sh (fun ix => if p ix then f (v ix) else v ix).
Proof. intros V L sh c v cond p f H1 H2 H3 H4. exact (filter_scalar_lemma L sh c v cond p H1 H2 H3 H4 f). Qed.
Print Assumptions C53_filter_scalar.

(** filter<L>(c, condition) = e with L the layout of c: the i-th index where the condition
    holds gets the i-th element of e, evaluated on the contents before the assignment. *)
Theorem C53_filter_assign : forall V (L : layout) sh (c : cont V) v cond p e, is_order L -> holds c sh v -> prod sh < 2 ^ 64 -> expr_of sh cond p ->
  ct_layout c = L ->
  exists l, filter_indices L sh cond = Ok l /\ lists_where L sh p l /\
    (rhs_ok sh (length l) e -> rhs_extreme (element_offset (ct_strides c)) e ->
     exists c' w, iv_assign c l e = Ok c' /\ holds c' sh w /\
       (forall i ix, nth_error l i = Some ix -> w ix = rhs_at v e i) /\ (forall ix, p ix = false -> w ix = v ix)).
Proof. intros V L sh c v cond p e H1 H2 H3 H4 H5. exact (filter_assign_lemma L sh c v cond p H1 H2 H3 H4 e H5). Qed.
Print Assumptions C53_filter_assign.

(** With L another order than the storage order, it goes wrong: in a column major
    2 x 3 array holding 0, 1, 2 / 10, 11, 12, where (0,2), (1,0) and (1,2) are selected,
    filter(a, c) = index_view(a, {(0,0), (0,1), (1,0)}) leaves a(1,2) = 1, although a(1,0) was 10. *)
Theorem C53_filter_order_refuted : ~ forall V (L : layout) sh (c : cont V) v cond p l e, is_order L -> holds c sh v -> expr_of sh cond p ->
  filter_indices L sh cond = Ok l -> rhs_ok sh (length l) e ->
  exists c' w, iv_assign c l e = Ok c' /\ holds c' sh w /\ (forall i ix, nth_error l i = Some ix -> w ix = rhs_at v e i).
Proof.
  intros H. destruct (H Z row_major [2; 3] (cgrid [0; 10; 1; 11; 2; 12]) at23 (fun ix => Ok (pick ix)) pick [[0; 2]; [1; 0]; [1; 2]] (X_view [[0; 0]; [0; 1]; [1; 0]])) as (c' & w & E & (_ & _ & Hw) & Ha).
  - left. reflexivity.
  - exact cgrid_holds.
  - intros ix _. reflexivity.
  - vm_compute. reflexivity.
  - split; [reflexivity|inb].
  - vm_compute in E. injection E as <-. specialize (Ha 2%nat [1; 2] eq_refl). rewrite <- (f_equal (fun r => match r with Ok z => z | _ => 0 end) (Hw [1; 2] ltac:(inb))) in Ha.
    vm_compute in Ha. discriminate Ha.
Qed.
Print Assumptions C53_filter_order_refuted.

(** filtration(c, condition) op= x applies the operation where the condition holds, when
    the condition at an index depends on no other element of c. *)
Theorem C53_filtration : forall V (TL : layout) sh (c : cont V) v cond p f, is_order TL -> holds c sh v -> local_condition sh v cond p ->
  exists c', filtration TL c cond f = Ok c' /\ holds c' sh (fun ix => if p ix then f (v ix) else v ix).
Proof. intros V TL sh c v cond p f. exact (filtration_lemma TL sh c v cond p f). Qed.
Print Assumptions C53_filtration.
Example C53_case_filter : expr_of [6] (fun ix => Ok (Z.odd (at6 ix))) (fun ix => Z.odd (at6 ix)) /\
  filter_indices row_major [6] (fun ix => Ok (Z.odd (at6 ix))) = Ok [[1]; [3]; [5]] /\
  iv_assign (vec [10; 11; 12; 13; 14; 15]) [[1]; [3]; [5]] (X_view [[0]; [1]; [3]]) = Ok (vec [10; 10; 12; 11; 14; 13]) /\
  local_condition [6] at6 (fun c ix => let* y := c_read c ix in Ok (12 <? y)) (fun ix => 12 <? at6 ix) /\
  filtration row_major (vec [10; 11; 12; 13; 14; 15]) (fun c ix => let* y := c_read c ix in Ok (12 <? y)) (Z.add 100) = Ok (vec [10; 11; 12; 113; 114; 115]).
Proof.
  split; [intros ix _; reflexivity|]. split; [vm_compute; reflexivity|]. split; [vm_compute; reflexivity|]. split; [|vm_compute; reflexivity].
  intros c w ix (_ & _ & H) B E. unfold c_read. specialize (H ix B). unfold elt in H. rewrite H, E. reflexivity.
Qed.

(** When the condition reads other elements, it sees those already modified: with
    a = 10, 11, 12, 13, 14, 15, filtration(a, a <= a(0) + 1) += 100 changes every element,
    although the condition holds for the first two only. *)
Theorem C53_filtration_global_refuted : ~ forall V (TL : layout) sh (c : cont V) v cond f c', is_order TL -> holds c sh v ->
  (forall c' w ix, holds c' sh w -> in_bounds sh ix -> exists b, cond c' ix = Ok b) ->
  filtration TL c cond f = Ok c' -> forall ix, in_bounds sh ix -> cond c ix = Ok false -> elt c' ix = elt c ix.
Proof.
  intros H. specialize (H Z row_major [6] (vec [10; 11; 12; 13; 14; 15]) at6
    (fun c ix => let* x := c_read c ix in let* y := c_read c [0] in Ok (x <=? y + 1)) (Z.add 100) (vec [110; 111; 112; 113; 114; 115]) (or_introl eq_refl) vec6_holds).
  specialize (H ltac:(intros c' w ix (_ & _ & Hw) B; unfold c_read; pose proof (Hw ix B) as Hx; pose proof (Hw [0] ltac:(inb)) as Hy; unfold elt in Hx, Hy; rewrite Hx, Hy; eexists; reflexivity)).
  specialize (H ltac:(vm_compute; reflexivity) [2] ltac:(inb) ltac:(vm_compute; reflexivity)). vm_compute in H. discriminate H.
Qed.
Print Assumptions C53_filtration_global_refuted.

(** e1 == e2 is true exactly when both have the same shape and equal elements; != is its
    negation. *)
Theorem C54_equality : forall V (TL : layout) (eqb : V -> V -> bool) s1 e1 v1 s2 e2 v2, is_order TL -> is_shape s1 ->
  expr_of s1 e1 v1 -> expr_of s2 e2 v2 ->
  exists b, expr_eq TL eqb s1 e1 s2 e2 = Ok b /\ expr_ne TL eqb s1 e1 s2 e2 = Ok (negb b) /\
    (b = true <-> s1 = s2 /\ forall ix, in_bounds s1 ix -> eqb (v1 ix) (v2 ix) = true).
Proof. intros V TL eqb s1 e1 v1 s2 e2 v2. exact (equality_lemma TL eqb s1 e1 v1 s2 e2 v2). Qed.
Print Assumptions C54_equality.
Example C54_case_equality : expr_eq row_major Z.eqb [2; 3] (fun ix => Ok (at23 ix)) [2; 3] (elt (cgrid [0; 10; 1; 11; 2; 12])) = Ok true /\
  expr_eq row_major Z.eqb [2; 3] (fun ix => Ok (at23 ix)) [2; 3] (elt (cgrid [0; 10; 1; 11; 2; 13])) = Ok false /\
  expr_eq row_major Z.eqb [3; 2] (fun ix => Ok (at23 ix)) [2; 3] (elt (cgrid [0; 10; 1; 11; 2; 12])) = Ok false.
Proof. repeat split; vm_compute; reflexivity. Qed.

(** trim_zeros keeps the range [b, e): nothing but zeros is dropped, at the front only if
    asked, at the back only if asked, and what is kept starts and ends with a non-zero
    value at the sides asked for. *)
Theorem C54_trim_zeros : forall V (nz : V -> bool) front back v b e, trim_zeros nz front back v = (b, e) ->
  0 <= b <= e /\ e <= Z.of_nat (length v) /\
  (front = false -> b = 0) /\ (back = false -> e = Z.of_nat (length v)) /\
  (forall i x, nth_error v i = Some x -> (Z.of_nat i < b \/ e <= Z.of_nat i) -> nz x = false) /\
  (forall x, b < e -> nth_error v (Z.to_nat b) = Some x -> front = true -> nz x = true) /\
  (forall x, b < e -> nth_error v (Z.to_nat (e - 1)) = Some x -> back = true -> nz x = true).
Proof. intros V nz front back v b e. exact (trim_lemma nz front back v b e). Qed.
Print Assumptions C54_trim_zeros.
Example C54_case_trim : trim_zeros (fun x => negb (x =? 0)) true true [0; 0; 3; 0; 4; 0] = (2, 5) /\
  trim_zeros (fun x => negb (x =? 0)) true true [0; 0; 0] = (3, 3) /\ trim_zeros (fun x => negb (x =? 0)) false true [0; 0; 3; 0] = (0, 3).
Proof. repeat split; vm_compute; reflexivity. Qed.
