(** C69: blockwise reductions. *)
From Coq Require Import List ZArith Lia Bool Permutation QArith.
From Verif Require Import Prelude Strides_Model Strides_Spec Container_Model Container_Spec Reduce_Model Reduce_Spec Chunk_Model Chunk_Spec
  Block_Model Block_Spec Block3_Proofs Block4_Proofs.
Import ListNotations.
Open Scope Z_scope.

(** The iterator over the multi-indices from b to e visits each of them once, in row-major
    order. *)
Theorem C69_multiindex (b e : list Z) : length e = length b -> Forall (fun d => 0 <= d < 2 ^ 64) (distances e b) ->
  exists l, mi_all b e = Ok l /\ NoDup l /\ (forall p, In p l <-> between b e p) /\
    forall p, between b e p -> nth_error l (Z.to_nat (row_pos (distances e b) (distances p b))) = Some p.
Proof. exact (multiindex_lemma b e). Qed.
Print Assumptions C69_multiindex.

Example C69_case_multiindex : distances [3; 4] [1; 2] = [2; 2] /\ mi_all [1; 2] [3; 4] = Ok [[1; 2]; [1; 3]; [2; 2]; [2; 3]].
Proof. split; reflexivity. Qed.

(** Whatever the functor, the elements that contribute to an element of the result are split into
    non-empty parts, one per block, each is reduced apart, and the results are merged; a block for
    every reduced element that there is. *)
Theorem C69_blocks {T B C R : Type} (TL : layout) (f : bfun T B C R) (ev : list Z -> T) (esh cs axes : list Z) (keep : bool) (c : cont R) :
  is_order TL -> chunkable esh cs -> valid_axes (length esh) axes -> addressable esh ->
  consistent c -> ct_shape c = red_shape keep axes esh ->
  exists b c', make_breducer esh cs axes keep = Ok b /\ b_shape b = red_shape keep axes esh /\
    assign_to TL f b ev c = Ok c' /\ consistent c' /\
    ct_shape c' = ct_shape c /\ ct_strides c' = ct_strides c /\ ct_layout c' = ct_layout c /\
    forall ix, in_bounds (red_shape keep axes esh) ix -> exists r parts, elt c ix = Ok r /\
      Permutation (concat parts) (block row_major keep axes esh ix) /\ Forall (fun p => p <> []) parts /\
      (filled_axes esh axes -> parts <> []) /\
      elt c' ix = Ok (bf_final f (Z.of_nat (length (block row_major keep axes esh ix)))
        (fst (merged f (map (fun p => bf_compute f (Z.of_nat (length p)) (map ev p)) parts) r))).
Proof. intros HTL H Hv Ha. exact (parts_lemma TL HTL f ev esh cs axes keep H Hv Ha c). Qed.
Print Assumptions C69_blocks.

Example C69_case_blocks : chunkable [3; 5] [2; 2] /\ addressable [3; 5] /\ valid_axes 2 [1] /\ consistent (three 7) /\
  ct_shape (three 7) = red_shape false [1] [3; 5].
Proof. split; [apply grid35_ok|]. split; [apply grid35_ok|]. split; [repeat constructor; cbn; lia|]. split; [apply three_consistent|reflexivity]. Qed.

(** If the reduction does not depend on the order and merging is reducing further, the blockwise
    reduction is the reduction of all the elements, whatever the shape of the blocks, whatever the
    container held. *)
Theorem C69_reduction {T R : Type} (TL : layout) (ok : T -> Prop) (f : rfun T R) (op : R -> R -> R) (fin : Z -> R -> R)
    (keep : bool) (axes esh cs : list Z) (ev : list Z -> T) (c : cont R) :
  is_order TL -> order_free f -> merges ok f op -> chunkable esh cs -> valid_axes (length esh) axes -> addressable esh -> filled_axes esh axes ->
  (forall jx, in_bounds esh jx -> ok (ev jx)) -> consistent c -> ct_shape c = red_shape keep axes esh ->
  gives TL (simple f op fin) keep axes esh cs ev c
    (fun l v => l <> [] /\ Forall ok l /\ v = fin (Z.of_nat (length l)) (fold_left (rf_reduce f) l (rf_init f))).
Proof. exact (simple_lemma TL ok f op fin keep axes esh cs ev c). Qed.
Print Assumptions C69_reduction.

Theorem C69_sum TL esh cs axes keep ev (c : cont Z) :
  is_order TL -> chunkable esh cs -> valid_axes (length esh) axes -> addressable esh -> filled_axes esh axes ->
  consistent c -> ct_shape c = red_shape keep axes esh ->
  gives TL sum_b keep axes esh cs ev c (fun l v => v = Zsum (fun x => x) l).
Proof. intros HTL H Hv Ha Hf. exact (sum_lemma TL esh cs axes keep HTL H Hv Ha Hf ev c). Qed.
Print Assumptions C69_sum.

Theorem C69_prod TL esh cs axes keep ev (c : cont Z) :
  is_order TL -> chunkable esh cs -> valid_axes (length esh) axes -> addressable esh -> filled_axes esh axes ->
  consistent c -> ct_shape c = red_shape keep axes esh ->
  gives TL prod_b keep axes esh cs ev c (fun l v => v = Zprod l).
Proof. intros HTL H Hv Ha Hf. exact (prod_lemma TL esh cs axes keep HTL H Hv Ha Hf ev c). Qed.
Print Assumptions C69_prod.

Theorem C69_amin TL esh cs axes keep top ev (c : cont Z) :
  is_order TL -> chunkable esh cs -> valid_axes (length esh) axes -> addressable esh -> filled_axes esh axes ->
  consistent c -> ct_shape c = red_shape keep axes esh -> (forall jx, in_bounds esh jx -> ev jx <= top) ->
  gives TL (amin_b top) keep axes esh cs ev c smallest.
Proof. intros HTL H Hv Ha Hf. exact (amin_lemma TL esh cs axes keep HTL H Hv Ha Hf top ev c). Qed.
Print Assumptions C69_amin.

Theorem C69_amax TL esh cs axes keep bottom ev (c : cont Z) :
  is_order TL -> chunkable esh cs -> valid_axes (length esh) axes -> addressable esh -> filled_axes esh axes ->
  consistent c -> ct_shape c = red_shape keep axes esh -> (forall jx, in_bounds esh jx -> bottom <= ev jx) ->
  gives TL (amax_b bottom) keep axes esh cs ev c largest.
Proof. intros HTL H Hv Ha Hf. exact (amax_lemma TL esh cs axes keep HTL H Hv Ha Hf bottom ev c). Qed.
Print Assumptions C69_amax.

(** The norms: the number of elements that are not 0, the sum of the absolute values, of the
    squares, its square root, the largest absolute value. *)
Theorem C69_norms TL esh cs axes keep ev (c : cont Z) (bottom : Z) (sqrt : Z -> Z) :
  is_order TL -> chunkable esh cs -> valid_axes (length esh) axes -> addressable esh -> filled_axes esh axes ->
  consistent c -> ct_shape c = red_shape keep axes esh ->
  gives TL count_b keep axes esh cs ev c (fun l v => v = Zsum (fun x => if x =? 0 then 0 else 1) l) /\
  gives TL norm_l1_b keep axes esh cs ev c (fun l v => v = Zsum Z.abs l) /\
  gives TL norm_sq_b keep axes esh cs ev c (fun l v => v = Zsum (fun x => x * x) l) /\
  gives TL (norm_l2_b sqrt) keep axes esh cs ev c (fun l v => v = sqrt (Zsum (fun x => x * x) l)) /\
  (bottom <= 0 -> gives TL (norm_linf_b bottom) keep axes esh cs ev c (fun l v => largest (map Z.abs l) v)).
Proof.
  intros HTL H Hv Ha Hf Hc Hs. repeat split.
  - exact (sum_like_lemma TL esh cs axes keep HTL H Hv Ha Hf _ Z.add ev c keep_value Hc Hs).
  - exact (sum_like_lemma TL esh cs axes keep HTL H Hv Ha Hf _ Z.add ev c keep_value Hc Hs).
  - exact (sum_like_lemma TL esh cs axes keep HTL H Hv Ha Hf _ Z.add ev c keep_value Hc Hs).
  - exact (sum_like_lemma TL esh cs axes keep HTL H Hv Ha Hf _ Z.add ev c (fun _ r => sqrt r) Hc Hs).
  - intros Hb. apply max_like_lemma; auto. intros. pose proof (Z.abs_nonneg (ev jx)). lia.
Qed.
Print Assumptions C69_norms.

(** norm_lp_to_p is the sum of the p-th powers of the elements; the sum of those of the absolute
    values only if no element is negative (see C69_lp_refuted). *)
Theorem C69_lp_partial TL esh cs axes keep ev (c : cont Z) (p : nat) :
  is_order TL -> chunkable esh cs -> valid_axes (length esh) axes -> addressable esh -> filled_axes esh axes ->
  consistent c -> ct_shape c = red_shape keep axes esh -> (forall jx, in_bounds esh jx -> 0 <= ev jx) ->
  gives TL (norm_lp_to_p_b p) keep axes esh cs ev c (fun l v => v = Zsum (fun x => Z.abs x ^ Z.of_nat p) l).
Proof. intros HTL H Hv Ha Hf. exact (lp_partial_lemma TL esh cs axes keep HTL H Hv Ha Hf ev c p). Qed.
Print Assumptions C69_lp_partial.

(** In exact arithmetic, mean is the mean, variance the variance: merging the variances of the
    blocks gives the variance of all the elements. *)
Theorem C69_mean TL esh cs axes keep ev (c : cont Q) :
  is_order TL -> chunkable esh cs -> valid_axes (length esh) axes -> addressable esh -> filled_axes esh axes ->
  consistent c -> ct_shape c = red_shape keep axes esh ->
  gives TL mean_b keep axes esh cs ev c (fun l v => v == mean l)%Q.
Proof. intros HTL H Hv Ha Hf. exact (mean_lemma TL esh cs axes keep HTL H Hv Ha Hf ev c). Qed.
Print Assumptions C69_mean.

Theorem C69_variance TL esh cs axes keep ev (c : cont Q) :
  is_order TL -> chunkable esh cs -> valid_axes (length esh) axes -> addressable esh -> filled_axes esh axes ->
  consistent c -> ct_shape c = red_shape keep axes esh ->
  gives TL variance_b keep axes esh cs ev c (fun l v => v == variance l)%Q.
Proof. intros HTL H Hv Ha Hf. exact (variance_lemma TL esh cs axes keep HTL H Hv Ha Hf ev c). Qed.
Print Assumptions C69_variance.

Theorem C69_stddev TL esh cs axes keep (sqrt : Q -> Q) ev (c : cont Q) :
  is_order TL -> chunkable esh cs -> valid_axes (length esh) axes -> addressable esh -> filled_axes esh axes ->
  consistent c -> ct_shape c = red_shape keep axes esh ->
  gives TL (stddev_b sqrt) keep axes esh cs ev c (fun l v => exists w, w == variance l /\ v = sqrt w)%Q.
Proof. intros HTL H Hv Ha Hf. exact (variance_like TL esh cs axes keep HTL H Hv Ha Hf (fun _ r => sqrt r) ev c). Qed.
Print Assumptions C69_stddev.

(** The sums, the smallest elements and the variances of the rows of a 3 x 5 expression in blocks of
    2 x 2. *)
Example C69_case_functors : filled_axes [3; 5] [1] /\
  (exists b c1 c2 c3, make_breducer [3; 5] [2; 2] [1] false = Ok b /\
    assign_to row_major sum_b b grid35 (three 7) = Ok c1 /\ ct_data c1 = [-90; -40; 10] /\
    assign_to row_major (amin_b 99) b grid35 (three 7) = Ok c2 /\ ct_data c2 = [-20; -10; 0] /\
    assign_to row_major variance_b b grid35q (three 7%Q) = Ok c3 /\ Forall (fun v => v == 2)%Q (ct_data c3)).
Proof.
  split; [repeat constructor; cbn; lia|]. do 4 eexists. split; [vm_compute; reflexivity|]. split; [vm_compute; reflexivity|]. split; [vm_compute; reflexivity|].
  split; [vm_compute; reflexivity|]. split; [vm_compute; reflexivity|]. split; [vm_compute; reflexivity|]. repeat constructor.
Qed.

(** C69_sum without the hypothesis on the axes is false: where there is nothing to reduce, the
    container keeps its old elements. The sums should be 0. *)
Theorem C69_empty_refuted : exists (esh cs axes : list Z) (ev : list Z -> Z) (b : breducer) (c c' : cont Z),
  chunkable esh cs /\ valid_axes (length esh) axes /\ addressable esh /\ consistent c /\ ct_shape c = red_shape false axes esh /\
  red_shape false axes esh = [2] /\ (forall ix, in_bounds [2] ix -> block row_major false axes esh ix = []) /\
  make_breducer esh cs axes false = Ok b /\ assign_to row_major sum_b b ev c = Ok c' /\ elt c' [0] = Ok 7 /\ elt c' [1] = Ok 8.
Proof. exact empty_axis_lemma. Qed.
Print Assumptions C69_empty_refuted.

(** Negative axes, which the other reducers count from the end, are not: without keep_dims the
    constructor writes past the end of its shape, for every expression. *)
Theorem C69_negative_axis_refuted (sh bs : list Z) (a : Z) : chunkable sh bs -> sh <> [] -> a < 0 -> make_breducer sh bs [a] false = UB.
Proof. exact (negative_axis_lemma sh bs a). Qed.
Print Assumptions C69_negative_axis_refuted.

Example C69_case_negative : chunkable [3; 5] [2; 2] /\ [3; 5] <> [] /\ -1 < 0.
Proof. split; [apply grid35_ok|]. split; [discriminate|lia]. Qed.

(** norm_lp_to_p of negative elements is not the sum of the powers of their absolute values: the
    norm of -1 and 1 is 0. *)
Theorem C69_lp_refuted : exists (esh cs axes : list Z) (ev : list Z -> Z) (b : breducer) (c c' : cont Z),
  chunkable esh cs /\ valid_axes (length esh) axes /\ addressable esh /\ filled_axes esh axes /\ consistent c /\ ct_shape c = red_shape false axes esh /\
  map ev (block row_major false axes esh []) = [-1; 1] /\
  make_breducer esh cs axes false = Ok b /\ assign_to row_major (norm_lp_to_p_b 1) b ev c = Ok c' /\ elt c' [] = Ok 0.
Proof. exact lp_lemma. Qed.
Print Assumptions C69_lp_refuted.
