(** Proofs about quantile: consequences and cases. *)
From Coq Require Import List ZArith Bool Lia QArith Qcanon Qround Permutation Sorted.
From Verif Require Import Prelude PreludeFacts Strides_Model Strides_Spec Access_Model Container_Model Container_Spec Container_Proofs
  Semantic_Spec Reduce_Model Accum_Spec Sort_Model Sort_Spec Sort6_Proofs Strides_Proofs Accum3_Proofs Reduce15_Proofs Sort9_Proofs Stats_Model
  Quantile_Model Quantile_Spec Quantile3_Proofs Quantile4_Proofs Quantile5_Proofs.
Import ListNotations.
Open Scope Z_scope.

Section Consequences.
Variables (SL DL : layout) (fresh : list Qc -> Z -> list Qc) (n0 : nat) (v0 : Qc) (a : algos).
Hypothesis (Hfresh : resizes fresh) (HDL : is_order DL) (Ha : std_ok a).
Variables (c : cont Qc) (ev : list Z -> Qc) (axis : Z).
Hypothesis (Hc : consistent c) (Hdoc : documented c) (Hl : is_order (ct_layout c)) (Hlay : sort_type SL DL n0 c).
Hypothesis He : forall jx, in_bounds (ct_shape c) jx -> elt c jx = Ok (ev jx).
Hypothesis (Hdim : (1 <= length (ct_shape c))%nat) (Hsmall : Z.of_nat (length (ct_shape c)) < 2 ^ 63) (Haxis : valid_axis (length (ct_shape c)) axis).
Hypothesis Hext : Forall (fun d => d < 2 ^ 64) (ct_shape c).
Let sh := ct_shape c.
Let ax := the_axis (length sh) axis.
Let n := nth ax sh 0.
Hypothesis Hn : 1 <= n.
Variable probas : list Qc.
Hypothesis Hprobas : 2 * Z.of_nat (length probas) < 2 ^ 64.

Lemma lane_length ix : Z.of_nat (length (lane ev ax n ix)) = n.
Proof. unfold lane. rewrite map_length, seq_length. lia. Qed.
Lemma lane_some ix s : Permutation (lane ev ax n ix) s -> s <> [].
Proof. intros P ->. apply Permutation_length in P. pose proof (lane_length ix). cbn in P. lia. Qed.

Lemma range_lemma alpha beta : exists r, quantile row_major SL DL fresh n0 v0 a c probas axis alpha beta = Ok r /\
  forall i ix lo hi, (i < length probas)%nat -> in_bounds sh ix -> (forall v, In v (lane ev ax n ix) -> (lo <= v)%Qc /\ (v <= hi)%Qc) ->
    exists q, q_at r (Z.of_nat i :: without_axis ax ix) = Ok (Some q) /\ (lo <= q)%Qc /\ (q <= hi)%Qc.
Proof.
  destruct (quantile_lemma SL DL fresh n0 v0 a Hfresh HDL Ha c ev axis Hc Hdoc Hl Hlay He Hdim Hsmall Haxis Hext Hn probas alpha beta Hprobas) as (r & E & _ & H).
  exists r. split; [exact E|]. intros i ix lo hi Hi Hx Hv. destruct (nth_error probas i) as [p|] eqn:Ep; [|apply nth_error_None in Ep; lia].
  destruct (increasing_exists (lane ev ax n ix)) as (s & P & Hs). eexists. split; [exact (H i p ix s Ep Hx P Hs)|].
  apply interpolate_range; [exact (lane_some ix s P)|]. intros v Hin. apply Hv. apply (Permutation_in _ (Permutation_sym P) Hin).
Qed.

Lemma monotone_lemma alpha beta : (alpha <= 1)%Qc -> (beta <= 1)%Qc -> exists r, quantile row_major SL DL fresh n0 v0 a c probas axis alpha beta = Ok r /\
  forall i i' p p' ix, nth_error probas i = Some p -> nth_error probas i' = Some p' -> (p <= p')%Qc -> in_bounds sh ix ->
    exists q q', q_at r (Z.of_nat i :: without_axis ax ix) = Ok (Some q) /\ q_at r (Z.of_nat i' :: without_axis ax ix) = Ok (Some q') /\ (q <= q')%Qc.
Proof.
  intros H1 H2. destruct (quantile_lemma SL DL fresh n0 v0 a Hfresh HDL Ha c ev axis Hc Hdoc Hl Hlay He Hdim Hsmall Haxis Hext Hn probas alpha beta Hprobas) as (r & E & _ & H).
  exists r. split; [exact E|]. intros i i' p p' ix Hi Hi' Hp Hx. destruct (increasing_exists (lane ev ax n ix)) as (s & P & Hs).
  eexists. eexists. split; [exact (H i p ix s Hi Hx P Hs)|]. split; [exact (H i' p' ix s Hi' Hx P Hs)|]. apply quantile_mono; try assumption. exact (lane_some ix s P).
Qed.

Lemma methods_lemma m : exists r, quantile_by row_major SL DL fresh n0 v0 a c probas axis m = Ok r /\
  forall i k ix s, nth_error probas i = Some (plotting_position (method_number m) n k) -> 1 <= k <= n -> in_bounds sh ix ->
    Permutation (lane ev ax n ix) s -> increasing s -> q_at r (Z.of_nat i :: without_axis ax ix) = Ok (Some (nth (Z.to_nat (k - 1)) s 0%Qc)).
Proof.
  unfold quantile_by. destruct (method_parameters m) as [alpha beta] eqn:Em.
  destruct (quantile_lemma SL DL fresh n0 v0 a Hfresh HDL Ha c ev axis Hc Hdoc Hl Hlay He Hdim Hsmall Haxis Hext Hn probas alpha beta Hprobas) as (r & E & _ & H).
  exists r. split; [exact E|]. intros i k ix s Hi Hk Hx P Hs. etransitivity; [exact (H i _ ix s Hi Hx P Hs)|].
  pose proof (lane_length ix) as L. rewrite (Permutation_length P) in L. pose proof (method_quantile m s k) as M. rewrite Em, L in M. rewrite M by exact Hk. reflexivity.
Qed.
End Consequences.

(** ** Cases *)
Definition qi (n : Z) : Qc := Q2Qc (inject_Z n).
Definition fill_qc (_ : list Qc) (m : Z) : list Qc := repeat 0%Qc (Z.to_nat m).
Definition as_qc (c : cont Z) : cont Qc := mk_cont (ct_shape c) (ct_strides c) (ct_back c) (ct_layout c) (map qi (ct_data c)).
Definition marks : cont Qc := as_qc (ck [2; 3] row_major [3; 1; 2; 6; 5; 4]).
Definition marks_at (jx : list Z) : Qc := match elt marks jx with Ok x => x | _ => 0%Qc end.
Definition no_marks : cont Qc := as_qc (ck [2; 0] row_major []).
Lemma as_qc_consistent c : consistent c -> consistent (as_qc c).
Proof. intros (A & B & C & D & E). split; [exact A|]. split; [exact B|]. split; [exact C|]. split; [cbn; rewrite map_length; exact D|exact E]. Qed.
Lemma no_marks_ok : consistent no_marks.
Proof. apply as_qc_consistent, ck_consistent; [repeat constructor; lia|left; reflexivity|reflexivity]. Qed.
Lemma fill_qc_resizes : resizes fill_qc.
Proof. intros d n Hn. unfold fill_qc. rewrite repeat_length. lia. Qed.

Lemma marks_ok : consistent marks /\ documented marks /\ is_order (ct_layout marks) /\ sort_type row_major column_major 0 marks /\
  (forall jx, in_bounds (ct_shape marks) jx -> elt marks jx = Ok (marks_at jx)).
Proof.
  assert (Hc : consistent marks) by (unfold marks; apply as_qc_consistent, ck_consistent; [repeat constructor; lia|left; reflexivity|reflexivity]).
  split; [exact Hc|]. split; [refine (ck_documented [2; 3] row_major [3; 1; 2; 6; 5; 4] _); left; reflexivity|]. split; [left; reflexivity|]. split; [left; reflexivity|].
  intros jx B. destruct Hc as (_ & _ & _ & Hlen & l & _ & _ & E). unfold marks_at, elt. pose proof (E jx B) as X. pose proof (rank_bound l _ _ B) as R. rewrite X.
  destruct (nth_error (ct_data marks) (Z.to_nat (rank l (ct_shape marks) jx))) as [x|] eqn:Ex; [|apply nth_error_None in Ex; lia].
  rewrite (rdz_ok _ _ x); [reflexivity|lia|exact Ex].
Qed.

Lemma first_lane : Permutation (lane marks_at 1 3 [0; 0]) (map qi [1; 2; 3]) /\ increasing (map qi [1; 2; 3]).
Proof.
  split.
  - change (lane marks_at 1 3 [0; 0]) with [qi 3; qi 1; qi 2]. cbn [map]. apply (Permutation_trans (l' := [qi 1; qi 3; qi 2])); [apply perm_swap|]. apply perm_skip, perm_swap.
  - apply sorted_increasing. repeat constructor.
Qed.

Lemma column_lemma : exists r, quantile column_major row_major row_major fill_qc 0 0%Qc simple_algos marks [Q2Qc (1 # 2); 1%Qc] 1 1%Qc 1%Qc = Ok r /\
  q_at r [0; 0] <> Ok (Some (sample_quantile 1%Qc 1%Qc (map qi [1; 2; 3]) (Q2Qc (1 # 2)))).
Proof.
  destruct (quantile column_major row_major row_major fill_qc 0 0%Qc simple_algos marks [Q2Qc (1 # 2); 1%Qc] 1 1%Qc 1%Qc) as [r| |] eqn:E.
  2,3: exfalso; assert (is_ok (quantile column_major row_major row_major fill_qc 0 0%Qc simple_algos marks [Q2Qc (1 # 2); 1%Qc] 1 1%Qc 1%Qc) = true) by (vm_compute; reflexivity); rewrite E in *; discriminate.
  exists r. split; [reflexivity|]. intros H.
  assert (G : (let* r := quantile column_major row_major row_major fill_qc 0 0%Qc simple_algos marks [Q2Qc (1 # 2); 1%Qc] 1 1%Qc 1%Qc in
    let* x := q_at r [0; 0] in Ok (match x with Some v => this v | None => 0%Q end)) = Ok (this (sample_quantile 1%Qc 1%Qc (map qi [1; 2; 3]) (Q2Qc (1 # 2))))).
  { rewrite E. cbn [bind]. rewrite H. reflexivity. }
  vm_compute in G. discriminate G.
Qed.
