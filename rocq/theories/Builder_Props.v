(** Properties C27 (concatenate), C37 (stack, hstack, vstack), C38 (eye, diag, diagonal,
    tril, triu), C39 (arange, linspace) and C40 (meshgrid). *)
From Coq Require Import List ZArith Bool Lia.
From Verif Require Import Prelude Strides_Model Strides_Spec Access_Model SView_Model SView_Spec Manip_Model Manip_Spec
  Builder_Model Builder_Spec Builder_Proofs Builder2_Proofs.
Import ListNotations.
Open Scope Z_scope.

Definition seqop (sh : list Z) (base : Z) : operand Z := mk_operand sh (fun ix => base + row_pos sh ix).

(** C27: concatenate is the concatenation, for operands of any shape and any layout, with
    operator(), unchecked and element. What is missing for the full statement: operands of
    2^31 elements or more, see C27_large_refuted. *)
Theorem C27_concatenate_partial : forall (V : Type) (dflt : V) (t : list (operand V)) (axis : nat),
  t <> [] -> conform axis t -> (forall o, In o t -> small o) ->
  exists g, concatenate dflt t axis = Ok g /\ concatenation axis t g.
Proof. exact concatenate_lemma. Qed.
Print Assumptions C27_concatenate_partial.

Example C27_case_concatenate :
  let a := seqop [2; 3] 0 in let b := seqop [2; 1] 100 in
  conform 1 [a; b] /\ small a /\ small b /\
  (let* g := concatenate 0 [a; b] 1 in Ok (g_shape g)) = Ok [2; 4] /\
  (let* g := concatenate 0 [a; b] 1 in gen_call g [1; 2]) = Ok 5 /\
  (let* g := concatenate 0 [a; b] 1 in gen_element g [1; 3]) = Ok 101.
Proof.
  cbn zeta. split.
  { intros o1 o2 H1 H2. cbn in H1, H2.
    destruct H1 as [<-|[<-|[]]], H2 as [<-|[<-|[]]]; cbn; repeat split; try lia;
      intros [|[|k]] Hk; try reflexivity; try congruence; destruct k; reflexivity. }
  split; [split; [repeat constructor; lia|vm_compute; reflexivity]|].
  split; [split; [repeat constructor; lia|vm_compute; reflexivity]|].
  repeat split; vm_compute; reflexivity.
Qed.

(** C27: shapes that do not conform are rejected. *)
Theorem C27_concatenate_throws : forall (V : Type) (dflt : V) (t : list (operand V)) (axis : nat) o1 o2,
  In o1 t -> In o2 t ->
  (length (o_shape o1) <> length (o_shape o2) \/
   exists k, (k < length (o_shape o1))%nat /\ k <> axis /\ nth k (o_shape o1) 0 <> nth k (o_shape o2) 0) ->
  concatenate dflt t axis = Throw concatenate_error.
Proof. exact concatenate_throws_lemma. Qed.
Print Assumptions C27_concatenate_throws.

Example C27_case_throws :
  concatenate 0 [seqop [2; 3] 0; seqop [3; 3] 0] 1 = Throw concatenate_error /\
  concatenate 0 [seqop [2; 3] 0; seqop [2] 0] 0 = Throw concatenate_error.
Proof. split; vm_compute; reflexivity. Qed.

(** C27: splitting an expression and concatenating the pieces gives it back. *)
Theorem C27_split_concatenate_partial : forall (V : Type) (d : V) (val : cell -> V) (T : layout) (e : xexp) (n axis : nat)
    (junk : nat -> list Z) (vs : list sview),
  T = row_major \/ T = column_major -> wf_exp e -> (0 < n)%nat -> small (exp_operand val e) ->
  split T e n axis junk = Ok vs ->
  exists g, concatenate d (map (view_operand val d) vs) axis = Ok g /\ g_shape g = x_shape e /\
    forall ix, in_bounds (x_shape e) ix -> gives g ix (val (x_elem e ix)).
Proof. exact split_concatenate_lemma. Qed.
Print Assumptions C27_split_concatenate_partial.

Example C27_case_split_concatenate :
  let e := mk_xexp true [2; 6] [6; 1] 0 row_major in
  let val := fun c => match c with Slot p => p | Elem _ => 0 end in
  (let* vs := split row_major e 3 1 (fun _ => []) in
   let* g := concatenate (-1) (map (view_operand val (-1)) vs) 1 in
   let* x := gen_call g [1; 4] in Ok (length vs, g_shape g, x)) = Ok (3%nat, [2; 6], 10).
Proof. vm_compute. reflexivity. Qed.

(** C27: leading indices in excess are ignored by operator(), as they are by containers. *)
Theorem C27_extra_indices_partial : forall (V : Type) (dflt : V) (t : list (operand V)) (axis : nat) (g : gen V) (extra ix : list Z),
  conform axis t -> (forall o, In o t -> small o) ->
  concatenate dflt t axis = Ok g -> in_bounds (g_shape g) ix ->
  gen_call g (extra ++ ix) = gen_call g ix /\ gen_unchecked g (extra ++ ix) = gen_unchecked g ix.
Proof. exact concatenate_extra_lemma. Qed.
Print Assumptions C27_extra_indices_partial.

Example C27_case_extra :
  (let* g := concatenate 0 [seqop [2; 3] 0; seqop [2; 1] 100] 1 in gen_call g [7; 8; 1; 3]) = Ok 101.
Proof. vm_compute. reflexivity. Qed.

(** element with leading indices in excess reads past the end of the shape. *)
Theorem C27_extra_element_refuted :
  ~ (forall (t : list (operand Z)) (axis : nat) (g : gen Z) (extra ix : list Z),
      conform axis t -> (forall o, In o t -> small o) ->
      concatenate 0 t axis = Ok g -> in_bounds (g_shape g) ix ->
      gen_element g (extra ++ ix) = gen_element g ix).
Proof.
  intros H.
  assert (Hc : conform 0 [seqop [2] 0]).
  { intros o1 o2 [<-|[]] [<-|[]]. cbn. repeat split; auto. }
  assert (Hs : forall o, In o [seqop [2] 0] -> small o).
  { intros o [<-|[]]. split; [repeat constructor; lia|vm_compute; reflexivity]. }
  specialize (H _ 0%nat _ [0] [1] Hc Hs eq_refl ltac:(repeat constructor; lia)). vm_compute in H. discriminate H.
Qed.
Print Assumptions C27_extra_element_refuted.

(** The strides are accumulated in an int: with rows of 2^31 elements the second row is
    not found. *)
Theorem C27_large_refuted :
  ~ (forall (t : list (operand Z)) (axis : nat), t <> [] -> conform axis t ->
      (forall o, In o t -> is_shape (o_shape o)) ->
      exists g, concatenate 0 t axis = Ok g /\ concatenation axis t g).
Proof.
  intros H. specialize (H [seqop [2; 2147483648] 0] 0%nat).
  destruct H as (g & Eg & _ & Hg & _); [discriminate| | |].
  { intros o1 o2 [<-|[]] [<-|[]]. cbn. repeat split; auto; lia. }
  { intros o [<-|[]]. repeat constructor; lia. }
  unfold concatenate in Eg. 
  assert (Esh : cc_build [seqop [2; 2147483648] 0] 0 = Ok [2; 2147483648]) by (vm_compute; reflexivity).
  rewrite Esh in Eg. cbn [bind] in Eg. injection Eg as <-.
  destruct (Hg 0%nat (seqop [2; 2147483648] 0) [1; 0] eq_refl ltac:(repeat constructor; lia)) as (_ & _ & E & _).
  vm_compute in E. discriminate E.
Qed.
Print Assumptions C27_large_refuted.

(** An axis out of range is not rejected: the shapes are read past their end. *)
Theorem C27_axis_refuted :
  ~ (forall (t : list (operand Z)) (axis : nat), t <> [] -> concatenate 0 t axis <> UB).
Proof.
  intros H. apply (H [seqop [2] 0; seqop [2] 5] 1%nat); [discriminate|]. vm_compute. reflexivity.
Qed.
Print Assumptions C27_axis_refuted.

(** C37: stack. Missing: operands of 2^31 elements or more. *)
Theorem C37_stack_partial : forall (V : Type) (dflt : V) (t : list (operand V)) (o : operand V) (axis : nat),
  In o t -> (forall o', In o' t -> o_shape o' = o_shape o) -> small o -> (axis <= length (o_shape o))%nat ->
  exists g, stack dflt t axis = Ok g /\ stacking axis t g.
Proof. exact stack_lemma. Qed.
Print Assumptions C37_stack_partial.

Example C37_case_stack :
  let t := [seqop [3] 1; seqop [3] 5] in
  (let* g := stack 0 t 0 in let* x := gen_call g [1; 2] in Ok (g_shape g, x)) = Ok ([2; 3], 7) /\
  (let* g := stack 0 t 1 in let* x := gen_element g [1; 0] in Ok (g_shape g, x)) = Ok ([3; 2], 2).
Proof. split; vm_compute; reflexivity. Qed.

(** C37: hstack concatenates along the second axis, along the first for one-dimensional
    operands. *)
Theorem C37_hstack_partial : forall (V : Type) (dflt : V) (t : list (operand V)) (o : operand V),
  In o t -> let axis := if (1 <? length (o_shape o))%nat then 1%nat else 0%nat in
  conform axis t -> (forall o, In o t -> small o) ->
  exists g, hstack dflt t = Ok g /\ concatenation axis t g.
Proof. exact hstack_lemma. Qed.
Print Assumptions C37_hstack_partial.

Example C37_case_hstack :
  (let* g := hstack 0 [seqop [2] 1; seqop [3] 5] in let* x := gen_call g [4] in Ok (g_shape g, x)) = Ok ([5], 7) /\
  (let* g := hstack 0 [seqop [2; 1] 1; seqop [2; 2] 5] in let* x := gen_call g [1; 1] in Ok (g_shape g, x)) = Ok ([2; 3], 7).
Proof. split; vm_compute; reflexivity. Qed.

(** C37: vstack stacks one-dimensional operands as rows and concatenates the others along
    the first axis. *)
Theorem C37_vstack_rows_partial : forall (V : Type) (dflt : V) (t : list (operand V)) (o : operand V),
  In o t -> (forall o', In o' t -> o_shape o' = o_shape o) -> small o -> length (o_shape o) = 1%nat ->
  exists g, vstack dflt t = Ok g /\ stacking 0 t g.
Proof. exact vstack_one_lemma. Qed.
Print Assumptions C37_vstack_rows_partial.

Theorem C37_vstack_partial : forall (V : Type) (dflt : V) (t : list (operand V)),
  t <> [] -> conform 0 t -> (forall o, In o t -> small o /\ length (o_shape o) <> 1%nat) ->
  exists g, vstack dflt t = Ok g /\ concatenation 0 t g.
Proof. exact vstack_many_lemma. Qed.
Print Assumptions C37_vstack_partial.

Example C37_case_vstack :
  (let* g := vstack 0 [seqop [2] 1; seqop [2] 5] in let* x := gen_call g [1; 0] in Ok (g_shape g, x)) = Ok ([2; 2], 5) /\
  (let* g := vstack 0 [seqop [1; 2] 1; seqop [2; 2] 5] in let* x := gen_call g [2; 1] in Ok (g_shape g, x)) = Ok ([3; 2], 8).
Proof. split; vm_compute; reflexivity. Qed.

(** stack accepts operands of different shapes and then reads outside of them. *)
Theorem C37_mismatch_refuted :
  ~ (forall (t : list (operand Z)) (g : gen Z) (ix : list Z),
      stack 0 t 0 = Ok g -> in_bounds (g_shape g) ix -> gen_call g ix <> UB).
Proof.
  intros H. apply (H [seqop [3] 0; seqop [2] 0] _ [1; 2] eq_refl); [repeat constructor; lia|].
  vm_compute. reflexivity.
Qed.
Print Assumptions C37_mismatch_refuted.

(** Unlike concatenate, stack does not ignore leading indices in excess. *)
Theorem C37_extra_indices_refuted :
  ~ (forall (t : list (operand Z)) (g : gen Z) (extra ix : list Z),
      (forall o, In o t -> small o /\ o_shape o = [2]) -> stack 0 t 0 = Ok g -> in_bounds (g_shape g) ix ->
      gen_call g (extra ++ ix) = gen_call g ix).
Proof.
  intros H.
  assert (Hs : forall o, In o [seqop [2] 0; seqop [2] 10] -> small o /\ o_shape o = [2]).
  { intros o [<-|[<-|[]]]; (split; [split; [repeat constructor; lia|vm_compute; reflexivity]|reflexivity]). }
  specialize (H _ _ [0] [1; 0] Hs eq_refl ltac:(repeat constructor; lia)). vm_compute in H. discriminate H.
Qed.
Print Assumptions C37_extra_indices_refuted.

(** C38: eye has ones exactly on the k-th diagonal of the last two axes. *)
Theorem C38_eye : forall (lead : list Z) (n m k : Z) (lx : list Z) (i j : Z),
  holdable [n; m] -> is_int k -> in_bounds (lead ++ [n; m]) (lx ++ [i; j]) ->
  gives (eye (lead ++ [n; m]) k) (lx ++ [i; j]) (j - i =? k).
Proof. exact eye_lemma. Qed.
Print Assumptions C38_eye.

Example C38_case_eye :
  gen_call (eye [3; 3] (-1)) [2; 1] = Ok true /\ gen_element (eye [3; 3] (-1)) [1; 2] = Ok false /\
  gen_call (eye [3; 3] 1) [1; 2] = Ok true.
Proof. repeat split; vm_compute; reflexivity. Qed.

(** C38: diag puts a vector on the k-th diagonal. *)
Theorem C38_diag : forall (V : Type) (zero : V) (arr : operand V) (n k : Z),
  o_shape arr = [n] -> 0 <= n -> n + Z.abs k < 2 ^ 63 -> is_int k ->
  exists g, diag zero arr k = Ok g /\ g_shape g = [n + Z.abs k; n + Z.abs k] /\
    forall i j, in_bounds (g_shape g) [i; j] ->
      gives g [i; j] (if j - i =? k then o_at arr [Z.min i j] else zero).
Proof. exact diag_lemma. Qed.
Print Assumptions C38_diag.

Example C38_case_diag :
  (let* g := diag 0 (seqop [3] 5) (-1) in let* x := gen_call g [3; 2] in Ok (g_shape g, x)) = Ok ([4; 4], 7) /\
  (let* g := diag 0 (seqop [3] 5) 1 in gen_element g [2; 3]) = Ok 7 /\
  (let* g := diag 0 (seqop [3] 5) 1 in gen_element g [2; 2]) = Ok 0.
Proof. repeat split; vm_compute; reflexivity. Qed.

(** C38: diagonal takes the elements with index difference [offset] along two axes; the
    other axes come first and the diagonal last. Missing: an offset beyond the last
    diagonal, see C38_beyond_refuted. *)
Theorem C38_diagonal_partial : forall (V : Type) (arr : operand V) (offset : Z) (a1 a2 : nat) (n1 n2 size : Z),
  a1 <> a2 -> nth_error (o_shape arr) a1 = Some n1 -> nth_error (o_shape arr) a2 = Some n2 ->
  holdable (o_shape arr) -> n1 < 2 ^ 31 -> n2 < 2 ^ 31 -> is_int offset ->
  size = Z.min (n1 - Z.max 0 (- offset)) (n2 - Z.max 0 offset) -> 0 <= size ->
  let cut := drop_axes [Z.of_nat a1; Z.of_nat a2] 0 in
  exists g, diagonal arr offset a1 a2 = Ok g /\ g_shape g = cut (o_shape arr) ++ [size] /\
    (forall jx, in_bounds (o_shape arr) jx -> nth a2 jx 0 - nth a1 jx 0 = offset ->
      in_bounds (g_shape g) (cut jx ++ [Z.min (nth a1 jx 0) (nth a2 jx 0)]) /\
      gives g (cut jx ++ [Z.min (nth a1 jx 0) (nth a2 jx 0)]) (o_at arr jx)) /\
    (forall ix, in_bounds (g_shape g) ix ->
      exists jx, in_bounds (o_shape arr) jx /\ nth a2 jx 0 - nth a1 jx 0 = offset /\
        ix = cut jx ++ [Z.min (nth a1 jx 0) (nth a2 jx 0)]).
Proof. exact diagonal_lemma. Qed.
Print Assumptions C38_diagonal_partial.

Example C38_case_diagonal :
  (let* g := diagonal (seqop [3; 2; 4] 0) (-1) 2 0 in
   let* x := gen_call g [1; 1] in Ok (g_shape g, x)) = Ok ([2; 3], 14) /\
  row_pos [3; 2; 4] [1; 1; 2] = 14.
Proof. split; vm_compute; reflexivity. Qed.

(** NumPy gives an empty array for an offset beyond the last diagonal; the extent here is
    a negative number turned into a huge one. *)
Theorem C38_beyond_refuted :
  ~ (forall (arr : operand Z) (offset n m : Z) (g : gen Z),
      o_shape arr = [n; m] -> 0 <= n < 100 -> 0 <= m < 100 -> is_int offset ->
      diagonal arr offset 0 1 = Ok g -> forall k, In k (g_shape g) -> k <= 100).
Proof.
  intros H. specialize (H (seqop [2; 2] 0) 3 2 2 _ eq_refl ltac:(lia) ltac:(lia) ltac:(unfold is_int; lia) eq_refl
    (to_size_t (-1))). vm_compute in H. apply H; [|reflexivity]. left. reflexivity.
Qed.
Print Assumptions C38_beyond_refuted.

(** C38: tril keeps the elements on and below the k-th diagonal of the first two axes,
    triu those on and above. *)
Theorem C38_tril : forall (V : Type) (zero : V) (arr : operand V) (k n m : Z) (sh : list Z) (i j : Z) (ix : list Z),
  o_shape arr = n :: m :: sh -> in_bounds (o_shape arr) (i :: j :: ix) ->
  g_shape (tril zero arr k) = o_shape arr /\
  gives (tril zero arr k) (i :: j :: ix) (if j - i <=? k then o_at arr (i :: j :: ix) else zero).
Proof. exact tril_lemma. Qed.
Print Assumptions C38_tril.

Theorem C38_triu : forall (V : Type) (zero : V) (arr : operand V) (k n m : Z) (sh : list Z) (i j : Z) (ix : list Z),
  o_shape arr = n :: m :: sh -> in_bounds (o_shape arr) (i :: j :: ix) ->
  g_shape (triu zero arr k) = o_shape arr /\
  gives (triu zero arr k) (i :: j :: ix) (if k <=? j - i then o_at arr (i :: j :: ix) else zero).
Proof. exact triu_lemma. Qed.
Print Assumptions C38_triu.

(** A vector has no diagonals: tril and triu of one, and eye of a shape with one axis, read an index that is not there, whatever the element. *)
Theorem C38_one_axis_refuted : forall (V : Type) (zero : V) (arr : operand V) (k n i : Z), o_shape arr = [n] -> 0 <= i < n ->
  gen_call (tril zero arr k) [i] = UB /\ gen_call (triu zero arr k) [i] = UB /\ gen_call (eye [n] k) [i] = UB.
Proof. exact one_axis_lemma. Qed.
Print Assumptions C38_one_axis_refuted.

(** With three axes tril looks at the first two, eye at the last two: an element on the diagonal of the last two axes is zeroed, one above it kept. *)
Theorem C38_last_axes_refuted :
  gen_call (tril 0 (seqop [2; 2; 2] 1) 0) [0; 1; 1] = Ok 0 /\ gen_call (tril 0 (seqop [2; 2; 2] 1) 0) [0; 0; 1] = Ok 2 /\
  gen_call (eye [2; 2; 2] 0) [0; 1; 1] = Ok true /\ gen_call (eye [2; 2; 2] 0) [0; 0; 1] = Ok false.
Proof. repeat split; vm_compute; reflexivity. Qed.
Print Assumptions C38_last_axes_refuted.

Example C38_case_tri :
  gen_call (tril 0 (seqop [3; 3] 1) 0) [1; 0] = Ok 4 /\ gen_call (tril 0 (seqop [3; 3] 1) (-1)) [1; 1] = Ok 0 /\
  gen_element (triu 0 (seqop [3; 3] 1) 0) [1; 2] = Ok 6 /\ gen_element (triu 0 (seqop [3; 3] 1) 1) [1; 1] = Ok 0.
Proof. repeat split; vm_compute; reflexivity. Qed.

(** C39: an integral arange has one element for each of start, start + step, ... that is
    before stop. Missing: 0 < |stop - start| < |step|, see C39_short_refuted. *)
Theorem C39_arange_signed_partial : forall (start stop step : Z), step <> 0 ->
  (stop - start) * Z.sgn step <= 0 \/ Z.abs step <= Z.abs (stop - start) ->
  exists n, arange_signed start stop step = Ok (arange_gen start (fun t => start + step * t) stop n false) /\
    arange_count start stop step n.
Proof. exact arange_signed_lemma. Qed.
Print Assumptions C39_arange_signed_partial.

Theorem C39_arange_unsigned : forall (start stop step : Z), 0 < step ->
  exists n, arange_unsigned start stop step = Ok (arange_gen start (fun t => start + step * t) stop n false) /\
    arange_count start stop step n.
Proof. exact arange_unsigned_lemma. Qed.
Print Assumptions C39_arange_unsigned.

Example C39_case_count :
  (let* g := arange_signed 10 1 (-4) in Ok (g_shape g)) = Ok [3] /\
  (let* g := arange_unsigned 1 10 4 in Ok (g_shape g)) = Ok [3] /\ 
  (let* g := arange_signed 5 5 2 in Ok (g_shape g)) = Ok [0].
Proof. repeat split; vm_compute; reflexivity. Qed.

(** C39: element access and assignment to a container agree: element i is
    start + i * step. *)
Theorem C39_arange_assign : forall (start step stop n : Z), 0 <= n < 2 ^ 64 ->
  let g := arange_gen start (fun t => start + step * t) stop n false in
  Z.of_nat (length (arange_assign start step n)) = n /\
  forall i, 0 <= i < n -> exists v, gives g [i] v /\ nth_error (arange_assign start step n) (Z.to_nat i) = Some v /\
    v = start + i * step.
Proof. exact arange_assign_lemma. Qed.
Print Assumptions C39_arange_assign.

Example C39_case_assign : arange_assign 10 (-4) 3 = [10; 6; 2].
Proof. vm_compute. reflexivity. Qed.

(** C39: linspace, and arange with a floating point step, whatever the arithmetic: access
    and assignment agree on every element, and with the end point included the last
    element is exactly stop. *)
Theorem C39_linspace : forall (R : Type) (start : R) (at_ : Z -> R) (stop : R) (n : nat) (endpoint : bool),
  Z.of_nat n < 2 ^ 64 ->
  let g := arange_gen start at_ stop (Z.of_nat n) endpoint in
  exists buf, arange_fill_mul at_ stop endpoint n = Ok buf /\ length buf = n /\
    forall i, (i < n)%nat -> exists v, gives g [Z.of_nat i] v /\ nth_error buf i = Some v /\
      v = (if endpoint && (1 <? n)%nat && (i =? n - 1)%nat then stop else at_ (Z.of_nat i)).
Proof. exact linspace_lemma. Qed.
Print Assumptions C39_linspace.

Example C39_case_linspace :
  arange_fill_mul (fun t => 3 * t) 10 true 4 = Ok [0; 3; 6; 10] /\
  gen_call (arange_gen 0 (fun t => 3 * t) 10 4 true) [3] = Ok 10 /\
  arange_fill_mul (fun t => 3 * t) 10 true 1 = Ok [0].
Proof. repeat split; vm_compute; reflexivity. Qed.

(** arange(0, 1, 2) has no element, although 0 is before 1. *)
Theorem C39_short_refuted :
  ~ (forall (start stop step : Z), step <> 0 ->
      exists n, arange_signed start stop step = Ok (arange_gen start (fun t => start + step * t) stop n false) /\
        arange_count start stop step n).
Proof.
  intros H. destruct (H 0 1 2 ltac:(lia)) as (n & E & _ & Hc).
  assert (En : n = 0).
  { apply (f_equal (fun r => match r with Ok g => nth 0 (g_shape g) 0 | _ => 0 end)) in E. vm_compute in E. auto. }
  subst n. specialize (Hc 0 ltac:(lia)). destruct Hc as (_ & Hc). vm_compute in Hc. specialize (Hc eq_refl). discriminate Hc.
Qed.
Print Assumptions C39_short_refuted.

(** Called with an index in excess, arange uses the first index; containers use the last. *)
Theorem C39_extra_index_refuted :
  ~ (forall (start stop step : Z) (g : gen Z) (extra i : Z),
      arange_signed start stop step = Ok g -> in_bounds (g_shape g) [i] -> gen_call g [extra; i] = gen_call g [i]).
Proof.
  intros H. specialize (H 0 10 1 _ 0 3 eq_refl ltac:(repeat constructor; lia)). vm_compute in H. discriminate H.
Qed.
Print Assumptions C39_extra_index_refuted.

(** C40: the k-th expression of meshgrid has the k-th vector along axis k. *)
Theorem C40_meshgrid : forall (V : Type) (es : list (operand V)),
  (forall o, In o es -> length (o_shape o) = 1%nat) ->
  exists gs, meshgrid es = Ok gs /\ length gs = length es /\
    forall k o g, nth_error es k = Some o -> nth_error gs k = Some g ->
      g_shape g = map (fun o => nth 0 (o_shape o) 0) es /\
      forall ix, in_bounds (g_shape g) ix -> gives g ix (o_at o [nth k ix 0]).
Proof. exact meshgrid_lemma. Qed.
Print Assumptions C40_meshgrid.

Example C40_case_meshgrid :
  (let* gs := meshgrid [seqop [2] 10; seqop [3] 20] in
   let* g := rd gs 1 in let* x := gen_call g [1; 2] in Ok (g_shape g, x)) = Ok ([2; 3], 22).
Proof. vm_compute. reflexivity. Qed.
