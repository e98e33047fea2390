(** Proofs about sorting: argpartition without axis, and the cases that fail. *)
From Coq Require Import List ZArith Bool Lia Permutation Sorted.
From Verif Require Import Prelude PreludeFacts Strides_Model Strides_Spec Strides_Proofs Container_Model Container_Spec Container_Proofs
  Access_Model Semantic_Spec Manip_Model Reduce13_Proofs Reduce15_Proofs Accum_Spec Accum3_Proofs
  Sort_Model Sort_Spec Sort2_Proofs Sort5_Proofs Sort6_Proofs SetOp_Model SetOp_Spec SetOp_Proofs.
Import ListNotations.
Open Scope Z_scope.

Lemma flat_argpartition_lemma {V} (a : algos) (lt : V -> V -> bool) (c : cont V) kth : std_ok a ->
  consistent c -> documented c -> ct_layout c = row_major -> one_argument (ct_shape c) ->
  strict_weak_order lt (ct_data c) -> Forall (fun k => 0 <= k < prod (ct_shape c)) kth ->
  exists idx ws, flat_argpartition a lt c kth = Ok idx /\ picks (ct_data c) idx ws /\ forall k, In k kth -> in_place lt (Z.to_nat k) ws.
Proof.
  intros Ha Hc Hd Hl Hone Hs Hk. pose proof Hc as (Hsh & _ & _ & Hlen & _). pose proof (last_stride c Hc Hd Hl Hone) as Hst.
  pose proof (prod_nonneg _ Hsh) as Hp. set (n := prod (ct_shape c)) in *.
  assert (Li : length (iota (Z.to_nat n)) = Z.to_nat n) by (unfold iota; rewrite map_length, seq_length; reflexivity).
  assert (Hread : forall i, In i (iota (Z.to_nat n)) -> read_flat c i = rdz (ct_data c) i).
  { intros i Hi. apply in_iota in Hi. unfold read_flat. specialize (Hst i ltac:(lia)). destruct (ct_strides c); [f_equal; lia|rewrite Hst; reflexivity]. }
  assert (Hall : forallb (fun i => is_ok (read_flat c i)) (iota (Z.to_nat n)) = true).
  { apply forallb_forall. intros i Hi. rewrite Hread by exact Hi. apply in_iota in Hi.
    destruct (nth_error (ct_data c) (Z.to_nat i)) eqn:E; [|apply nth_error_None in E; lia]. erewrite rdz_ok; [reflexivity|lia|exact E]. }
  unfold flat_argpartition. rewrite compute_size_prod. fold n. rewrite Hall.
  assert (Hcm : forall i j, In i (iota (Z.to_nat n)) -> In j (iota (Z.to_nat n)) -> cmp_flat lt c i j = cmp_at lt (ct_data c) i j).
  { intros i j Hi Hj. unfold cmp_flat, cmp_at. rewrite !Hread by assumption. reflexivity. }
  assert (Hf : firstn (Z.to_nat n) (ct_data c) = ct_data c) by (apply firstn_all2; lia).
  pose proof (cmp_swo lt (ct_data c) (Z.to_nat n) ltac:(lia) ltac:(rewrite Hf; exact Hs) (cmp_flat lt c) Hcm) as Hcmp.
  destruct (partition_range_ok a (cmp_flat lt c) Ha kth (iota (Z.to_nat n)) Hcmp) as (idx & Ei & P & H).
  { rewrite Li. rewrite Forall_forall in *. intros k Hin. specialize (Hk k Hin). lia. }
  unfold partition_range in Ei. rewrite Li, Z2Nat.id in Ei by lia.
  destruct (picks_of (ct_data c) (Z.to_nat n) ltac:(lia) idx P) as (ws & Pk). exists idx, ws. split; [exact Ei|]. pose proof Pk as Pk'. rewrite Hf in Pk'. split; [exact Pk'|].
  intros k Hk1. apply (picks_in_place lt (ct_data c) (Z.to_nat n) ltac:(lia) (cmp_flat lt c) Hcm idx ws _ Pk). apply H. exact Hk1.
Qed.

(** ** Cases *)
Ltac cases := repeat (split; [vm_compute; reflexivity|]); vm_compute; reflexivity.
Definition square : cont Z := ck [2; 2] column_major [4; 2; 3; 1].
Lemma sort_dynamic_lemma : exists (c r : cont Z), consistent c /\ documented c /\ ct_layout c = column_major /\ ct_shape c = [2; 2] /\
  elt c [0; 0] = Ok 4 /\ elt c [0; 1] = Ok 3 /\ elt c [1; 0] = Ok 2 /\ elt c [1; 1] = Ok 1 /\
  sort dynamic row_major fill_fresh 0 0 simple_algos Z.ltb c 1 = Ok r /\ ct_shape r = [2; 2] /\
  elt r [0; 0] = Ok 2 /\ elt r [0; 1] = Ok 1 /\ elt r [1; 0] = Ok 4 /\ elt r [1; 1] = Ok 3.
Proof.
  exists square. eexists. split; [apply ck_consistent; [repeat constructor; lia|right; reflexivity|reflexivity]|].
  split; [apply ck_documented; right; reflexivity|]. cases.
Qed.
Lemma argsort_dynamic_lemma : exists (c r : cont Z), consistent c /\ documented c /\ ct_layout c = column_major /\ ct_shape c = [2; 3] /\
  ct_data c = [4; 2; 3; 1; 7; 6] /\
  argsort dynamic row_major fill_fresh fill_fresh 0 0 simple_algos Z.ltb true c 0 = Ok r /\ ct_shape r = [2; 3] /\ elt r [0; 1] = Ok 2.
Proof.
  exists (ck [2; 3] column_major [4; 2; 3; 1; 7; 6]). eexists. split; [apply ck_consistent; [repeat constructor; lia|right; reflexivity|reflexivity]|].
  split; [apply ck_documented; right; reflexivity|]. cases.
Qed.
Lemma sort_scalar_lemma : exists c : cont Z, consistent c /\ ct_layout c = row_major /\ ct_shape c = [] /\
  sort row_major row_major fill_fresh 0 0 simple_algos Z.ltb c (-1) = UB.
Proof.
  exists (ck [] row_major [4]). split; [ckc|]. split; [reflexivity|]. split; [reflexivity|]. vm_compute. reflexivity.
Qed.
Definition cube : cont Z := ck [2; 3; 2] column_major [1;0; 0;1; 2;1; 4;3; 2;3; 5;6].
Lemma argmin_column_lemma : exists (c r : cont Z), consistent c /\ documented c /\ ct_layout c = column_major /\ ct_shape c = [2; 3; 2] /\
  elt c [0; 1; 0] = Ok 0 /\ elt c [1; 1; 0] = Ok 1 /\
  argmin_axis column_major row_major fill_fresh fill_fresh 0 0 Z.ltb row_major row_major 0 c 0 = Ok r /\ ct_shape r = [3; 2] /\ elt r [1; 0] = Ok 1.
Proof.
  exists cube. eexists. split; [apply ck_consistent; [repeat constructor; lia|right; reflexivity|reflexivity]|].
  split; [apply ck_documented; right; reflexivity|]. cases.
Qed.
Lemma argmin_empty_lemma : exists c : cont Z, consistent c /\ documented c /\ ct_layout c = row_major /\ ct_shape c = [2; 0] /\
  forall fresh_i, resizes fresh_i ->
  argmin_axis row_major row_major fill_fresh fresh_i 0 0 Z.ltb row_major row_major 0 c 1 = Ok (mk_cont [2] [1] [1] row_major (fresh_i [0] 2)).
Proof.
  exists (ck [2; 0] row_major []). split; [ckc|]. split; [apply ck_documented; left; reflexivity|]. do 2 (split; [reflexivity|]). intros fresh_i H. vm_compute. reflexivity.
Qed.
Lemma flat_argpartition_unit_lemma : exists c : cont Z, consistent c /\ documented c /\ ct_layout c = row_major /\ ct_shape c = [3; 1] /\ ct_data c = [3; 2; 1] /\
  flat_argpartition simple_algos Z.ltb c [0] = Ok [0; 1; 2].
Proof.
  exists (ck [3; 1] row_major [3; 2; 1]). split; [ckc|]. split; [apply ck_documented; left; reflexivity|]. cases.
Qed.
Lemma flat_argpartition_column_lemma : exists c : cont Z, consistent c /\ documented c /\ ct_layout c = column_major /\ ct_shape c = [2; 2] /\
  flat_argpartition simple_algos Z.ltb c [0] = UB.
Proof.
  exists square. split; [apply ck_consistent; [repeat constructor; lia|right; reflexivity|reflexivity]|]. split; [apply ck_documented; right; reflexivity|]. cases.
Qed.
Lemma median_empty_lemma (a : algos) (V : Type) (lt : V -> V -> bool) (mid : V -> V -> V) : std_ok a -> median a lt mid [] = UB.
Proof.
  intros (H & _). unfold median. cbn [length]. change (Z.of_nat 0) with 0. change (0 mod 2 =? 0) with true. cbv iota zeta. change (0 / 2) with 0.
  replace (to_size_t (0 - 1)) with (2 ^ 64 - 1) by (vm_compute; reflexivity). unfold partition_range. destruct (H Z Z.ltb [2 ^ 64 - 1; 0] (zlt_swo _)) as [P S].
  assert (std_sort a Z Z.ltb [2 ^ 64 - 1; 0] = [0; 2 ^ 64 - 1]) as ->.
  { apply Permutation_length_2_inv in P. destruct P as [E|E]; rewrite E in *; [|reflexivity]. exfalso. inversion S as [|? ? _ S2]; subst. inversion S2; subst. discriminate. }
  cbn [rev app partition_iter length]. change (Z.of_nat 0) with 0. change ((2 ^ 64 - 1 <? 0) || (0 <? 2 ^ 64 - 1)) with true. reflexivity.
Qed.
Lemma searchsorted_side_lemma : exists (v r : cont Z), consistent v /\ documented v /\ ct_layout v = row_major /\ ct_shape v = [1] /\ elt v [0] = Ok 2 /\
  searchsorted row_major fill_fresh 0 Z.ltb [1; 2; 2; 5] v false = Ok r /\ elt r [0] = Ok 3 /\ first_suitable Z.ltb [1; 2; 2; 5] 2 1.
Proof.
  exists (ck [1] row_major [2]). eexists. split; [ckc|]. split; [apply ck_documented; left; reflexivity|].
  split; [reflexivity|]. split; [reflexivity|]. split; [reflexivity|]. split; [vm_compute; reflexivity|]. split; [vm_compute; reflexivity|].
  destruct (lower_bound_ok Z.ltb [1; 2; 2; 5] 2) as (k & E & F); [apply zlt_swo|repeat constructor|]. vm_compute in E. injection E as <-. exact F.
Qed.
Lemma searchsorted_unit_lemma : exists (v r : cont Z), consistent v /\ documented v /\ ct_layout v = row_major /\ ct_shape v = [3; 1] /\ ct_data v = [2; 0; 6] /\
  searchsorted row_major fill_fresh 0 Z.ltb [1; 2; 2; 5] v true = Ok r /\ elt r [2; 0] = Ok 77.
Proof.
  exists (ck [3; 1] row_major [2; 0; 6]). eexists. split; [ckc|]. split; [apply ck_documented; left; reflexivity|]. cases.
Qed.
Lemma searchsorted_column_lemma : exists v : cont Z, consistent v /\ documented v /\ ct_layout v = column_major /\ ct_shape v = [2; 2] /\
  searchsorted row_major fill_fresh 0 Z.ltb [1; 2; 2; 5] v true = UB.
Proof.
  exists square. split; [apply ck_consistent; [repeat constructor; lia|right; reflexivity|reflexivity]|]. split; [apply ck_documented; right; reflexivity|]. cases.
Qed.
Lemma dynamic_throw_lemma {V} (SL DL : layout) fresh n0 (v0 : V) (a : algos) (lt : V -> V -> bool) (c : cont V) axis :
  ct_layout c = dynamic -> (2 <= length (ct_shape c))%nat -> sort SL DL fresh n0 v0 a lt c axis = Throw runtime_error.
Proof.
  intros Hl Hd. unfold sort, map_axis. rewrite (proj2 (Nat.eqb_neq _ _)) by lia. cbv zeta. unfold leading_axis. rewrite Hl. reflexivity.
Qed.

(** The elements of a container as a function. *)
Definition ev_of (c : cont Z) (jx : list Z) : Z := match elt c jx with Ok x => x | _ => 0 end.
Lemma ev_of_ok (c : cont Z) jx : consistent c -> in_bounds (ct_shape c) jx -> elt c jx = Ok (ev_of c jx).
Proof.
  intros (_ & _ & _ & Hlen & l & _ & _ & E) B. unfold ev_of, elt. pose proof (E jx B) as X. pose proof (rank_bound l _ _ B) as R. rewrite X.
  destruct (nth_error (ct_data c) (Z.to_nat (rank l (ct_shape c) jx))) as [x|] eqn:Ex; [|apply nth_error_None in Ex; lia].
  rewrite (rdz_ok _ _ x); [reflexivity|lia|exact Ex].
Qed.
Definition rows : cont Z := ck [2; 3] row_major [3; 1; 2; 6; 5; 4].
Lemma rows_ok : consistent rows /\ documented rows /\ is_order (ct_layout rows) /\ sort_type row_major column_major 0 rows /\
  (forall jx, in_bounds (ct_shape rows) jx -> elt rows jx = Ok (ev_of rows jx)) /\ strict_weak_order Z.ltb (ct_data rows).
Proof.
  assert (consistent rows) by (unfold rows; ckc). split; [assumption|]. split; [apply ck_documented; left; reflexivity|].
  split; [left; reflexivity|]. split; [left; reflexivity|]. split; [intros jx B; apply ev_of_ok; assumption|apply zlt_swo].
Qed.
