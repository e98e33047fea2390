From Coq Require Import List ZArith Bool Lia Permutation Sorted QArith Qround Lqa SpecFloat.
From Verif Require Import Prelude PreludeFacts Strides_Model Strides_Spec Access_Model Container_Model Container_Spec Container_Proofs Semantic_Spec Accum_Spec Slice_Model Manip_Model Sort_Model Sort_Spec SetOp_Model SetOp_Spec SetOp_Proofs Sort5_Proofs Sort6_Proofs Hist_Model Hist_Spec Hist_Proofs Hist2_Proofs Hist3_Proofs Hist4_Proofs Hist5_Proofs.
Import ListNotations.
Open Scope Z_scope.

(** digitize: the bin of each element *)
Lemma suitable_bin {V} (lt : V -> V -> bool) edges x k : strict_weak_order lt (x :: edges) -> sorted lt edges -> last_suitable lt edges x k ->
  0 <= k <= Z.of_nat (length edges) /\ forall i e, nth_error edges i = Some e -> ((Z.of_nat i < k) <-> lt x e = false).
Proof.
  intros Sw Hs ((Hk & H1 & H2) & Hm). split; [exact Hk|]. intros i e Ee.
  assert (Hi : (i < length edges)%nat) by (apply nth_error_Some; congruence). split; intros H.
  - apply H1. assert (Ef : nth_error (firstn (Z.to_nat k) edges) i = Some e); [|exact (nth_error_In _ _ Ef)].
    rewrite <- Ee. assert (Hik : (i < Z.to_nat k)%nat) by lia. clear - Hik. revert edges i Hik. induction (Z.to_nat k) as [|m IH]; intros l i Hi; [lia|]. destruct l as [|y l]; [destruct i; reflexivity|]. destruct i as [|i]; [reflexivity|]. cbn. apply IH. lia.
  - destruct (Z.lt_ge_cases (Z.of_nat i) k) as [|Hge]; [assumption|]. exfalso.
    enough (Z.of_nat i + 1 <= k) by lia. apply Hm. split; [lia|]. split.
    + intros y Hy. destruct (In_nth_error _ _ Hy) as (j & Ej).
      assert (Hj : (j < Z.to_nat (Z.of_nat i + 1))%nat). { assert (j < length (firstn (Z.to_nat (Z.of_nat i + 1)) edges))%nat by (apply nth_error_Some; congruence). rewrite firstn_length in H0. lia. }
      assert (Ej' : nth_error edges j = Some y). { rewrite <- Ej. symmetry. clear - Hj. revert edges j Hj. induction (Z.to_nat (Z.of_nat i + 1)) as [|m IH]; intros l j Hj; [lia|]. destruct l as [|z l]; [destruct j; reflexivity|]. destruct j as [|j]; [reflexivity|]. cbn. apply IH. lia. }
      destruct (Nat.eq_dec j i) as [->|Hn]; [congruence|]. apply (nlt_trans lt (x :: edges) Sw y e x); [right; exact (nth_error_In _ _ Ej')|right; exact (nth_error_In _ _ Ee)|left; reflexivity| |exact H].
      apply (sorted_nth lt edges j i y e Hs ltac:(lia) Ej' Ee).
    + intros y Hy. apply H2. destruct (In_nth_error _ _ Hy) as (j & Ej). rewrite nth_error_skipn in Ej. apply (nth_error_In (skipn (Z.to_nat k) edges) (Z.to_nat (Z.of_nat i + 1) + j - Z.to_nat k)). rewrite nth_error_skipn. rewrite <- Ej. f_equal. lia.
Qed.

Lemma suitable_bin_right {V} (lt : V -> V -> bool) edges x k : strict_weak_order lt (x :: edges) -> sorted lt edges -> first_suitable lt edges x k ->
  0 <= k <= Z.of_nat (length edges) /\ forall i e, nth_error edges i = Some e -> ((Z.of_nat i < k) <-> lt e x = true).
Proof.
  intros Sw Hs ((Hk & H1 & H2) & Hm). split; [exact Hk|]. intros i e Ee.
  assert (Hi : (i < length edges)%nat) by (apply nth_error_Some; congruence). split; intros H.
  - destruct (lt e x) eqn:El; [reflexivity|]. exfalso. enough (k <= Z.of_nat i) by lia. apply Hm. split; [lia|]. split.
    + intros y Hy. apply H1. destruct (In_nth_error _ _ Hy) as (j & Ej).
      assert (Hj : (j < i)%nat). { assert (j < length (firstn (Z.to_nat (Z.of_nat i)) edges))%nat by (apply nth_error_Some; congruence). rewrite firstn_length in H0. lia. }
      rewrite nth_error_firstn in Ej by lia. apply (nth_error_In _ j). rewrite nth_error_firstn by lia. exact Ej.
    + intros y Hy. destruct (In_nth_error _ _ Hy) as (j & Ej). rewrite nth_error_skipn in Ej.
      destruct (Nat.eq_dec j 0) as [->|Hj]; [rewrite Nat.add_0_r, Nat2Z.id in Ej; congruence|].
      apply (nlt_trans lt (x :: edges) Sw x e y); [left; reflexivity|right; exact (nth_error_In _ _ Ee)|right; exact (nth_error_In _ _ Ej)|exact El|].
      apply (sorted_nth lt edges i (Z.to_nat (Z.of_nat i) + j)%nat e y Hs ltac:(lia) Ee Ej).
  - destruct (Z.lt_ge_cases (Z.of_nat i) k) as [|Hge]; [assumption|]. exfalso.
    assert (lt e x = false); [|congruence]. apply H2. apply (nth_error_In _ (i - Z.to_nat k)). rewrite nth_error_skipn. rewrite <- Ee. f_equal. lia.
Qed.

Lemma digitize_lemma {V} (fresh : list Z -> Z -> list Z) n1 (lt : V -> V -> bool) (data : cont V) (edges : list V) (ev : list Z -> V) right :
  resizes fresh -> consistent data -> documented data -> ct_layout data = row_major -> one_argument (ct_shape data) ->
  (forall jx, in_bounds (ct_shape data) jx -> elt data jx = Ok (ev jx)) ->
  sorted lt edges -> strict_weak_order lt (ct_data data ++ edges) ->
  exists out, digitize row_major fresh n1 lt data edges right = Ok out /\ consistent out /\ ct_shape out = ct_shape data /\
    forall ix, in_bounds (ct_shape data) ix -> exists k, elt out ix = Ok k /\ 0 <= k <= Z.of_nat (length edges) /\
      forall i e, nth_error edges i = Some e -> (Z.of_nat i < k <-> if right then lt e (ev ix) = true else lt (ev ix) e = false).
Proof.
  intros Hf Hc Hd Hl Ho He Hs Sw. unfold digitize.
  assert (Hin : forall jx, in_bounds (ct_shape data) jx -> In (ev jx) (ct_data data)).
  { intros jx Hj. specialize (He jx Hj). unfold elt, rdz in He. destruct (_ <? 0); [discriminate|]. unfold rd in He. destruct (nth_error _ _) eqn:E; [|discriminate]. injection He as <-. exact (nth_error_In _ _ E). }
  destruct (searchsorted_lemma fresh n1 lt edges data ev right Hf Hc Hd Hl Ho He Hs Sw) as (out & E & Co & So & Hout).
  exists out. split; [exact E|]. split; [exact Co|]. split; [exact So|]. intros ix Hix. destruct (Hout ix Hix) as (k & Ek & Hk). exists k. split; [exact Ek|].
  assert (Sw' : strict_weak_order lt (ev ix :: edges)). { apply (swo_incl _ _ _ Sw). intros y [ <- | Hy ]; apply in_or_app; [left; exact (Hin ix Hix)|right; exact Hy]. }
  destruct right; [exact (suitable_bin_right lt edges (ev ix) k Sw' Hs Hk)|exact (suitable_bin lt edges (ev ix) k Sw' Hs Hk)].
Qed.

(** The refutations *)
Definition below_five : spec_float := S754_finite false 5629499534213119 (-50).
Lemma overflow_lemma : SFltb below_five (f_of 5) = true /\
  histogram_between type_double 0 Z.add (fun c => c) (fun _ _ => 0) (fun n => n) Z.mul Z.div simple_algos [below_five] 5 [1] (f_of 0) (f_of 5) false = UB.
Proof. vm_compute. auto. Qed.

Lemma wrong_bin_lemma : exists edges count,
  linspace_edges type_int 0 49 7 = Ok edges /\ edges = [0; 7; 14; 21; 28; 35; 42; 49] /\
  histogram_between type_int 0 Z.add (fun c => c) Z.sub (fun n => n) Z.mul Z.div simple_algos [7] 7 [1] 0 49 false = Ok count /\
  ~ is_histogram 0 Z.add Z.ltb edges [7] [1] count.
Proof.
  eexists. eexists. split; [vm_compute; reflexivity|]. split; [reflexivity|]. split; [vm_compute; reflexivity|].
  intros (_ & H). destruct (H 0%nat 1 eq_refl) as (ws & P & E). cbn in P. apply Permutation_sym, Permutation_nil in P. subst ws. discriminate E.
Qed.

Lemma int_edges_lemma : exists edges count,
  linspace_edges type_int 0 10 4 = Ok edges /\ edges = [0; 2; 5; 7; 10] /\
  histogram_between type_int 0 Z.add (fun c => c) Z.sub (fun n => n) Z.mul Z.div simple_algos [2] 4 [1] 0 10 false = Ok count /\
  ~ is_histogram 0 Z.add Z.ltb edges [2] [1] count.
Proof.
  eexists. eexists. split; [vm_compute; reflexivity|]. split; [reflexivity|]. split; [vm_compute; reflexivity|].
  intros (_ & H). destruct (H 0%nat 1 eq_refl) as (ws & P & E). cbn in P. apply Permutation_sym, Permutation_nil in P. subst ws. discriminate E.
Qed.

Lemma density_weights_lemma : exists probs,
  histogram_edges (type_exact 0 9) 0%Q Qplus (fun w => w) Qminus inject_Z Qmult Qdiv simple_algos [1%Q; 2%Q] [0%Q; 2%Q; 4%Q] [3%Q; 1%Q] true = Ok probs /\
  (integral probs [0%Q; 2%Q; 4%Q] == 2)%Q.
Proof. eexists. split; [vm_compute; reflexivity|]. vm_compute. reflexivity. Qed.
Lemma density_outside_lemma : exists probs,
  histogram_edges (type_exact 0 9) 0 Z.add inject_Z Qminus inject_Z Qmult Qdiv simple_algos [1%Q; 2%Q; 7%Q; 8%Q] [0%Q; 2%Q; 4%Q] [1; 1; 1; 1] true = Ok probs /\
  (integral probs [0%Q; 2%Q; 4%Q] == 1 # 2)%Q.
Proof. eexists. split; [vm_compute; reflexivity|]. vm_compute. reflexivity. Qed.

Lemma uniform_read_lemma :
  uniform_edges type_int 0 Z.add simple_algos Z.quot (fun n => n) (fun x y => y <=? x) [0; 0; 0; 0; 0] [0; 1; 2; 3; 4; 5; 6] [1; 1; 1; 1; 1; 1; 1] 0 6 4 = UB.
Proof. vm_compute. reflexivity. Qed.
Lemma uniform_few_lemma : forall junk1 junk2 junk3 junk4 : Z, exists e,
  uniform_edges type_int 0 Z.add simple_algos Z.quot (fun n => n) (fun x y => y <=? x) [0; junk1; junk2; junk3; junk4; 0] [3; 8] [5; 5] 3 8 5 = Ok e /\ nth_error e 4 = Some junk4.
Proof. intros. eexists. split; [vm_compute; reflexivity|]. reflexivity. Qed.

Lemma bincount_empty_lemma : bincount 0 Z.add (- 2 ^ 31) (2 ^ 31 - 1) (2 ^ 60) [] [] 0 = Throw bad_alloc.
Proof. vm_compute. reflexivity. Qed.

Lemma bin_items_rounding_lemma : exists counts, bin_items binary64 simple_algos (2 ^ 53 + 1) [f_of 1; f_of 1] = Ok counts /\ zsum counts <> 2 ^ 53 + 1.
Proof. eexists. split; [vm_compute; reflexivity|]. vm_compute. discriminate. Qed.
