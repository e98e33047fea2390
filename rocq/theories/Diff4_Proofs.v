From Coq Require Import List ZArith Bool QArith Qcanon Lia.
From Verif Require Import Prelude PreludeFacts Strides_Model Strides_Spec Strides_Proofs Access_Model Broadcast_Model Broadcast_Spec Broadcast_Proofs Slice_Model Slice_Spec View_Spec SView_Model SView_Spec
  Reshape_Model Reshape_Proofs Container_Proofs Stepper_Model Stepper_Spec Stepper4_Proofs Container_Model Container_Spec Assign_Model Assign_Spec
  Semantic_Model Semantic_Spec Semantic_Proofs Semantic2_Proofs Semantic3_Proofs Reduce_Model Reduce_Spec Reduce_Proofs Stats_Model Stats_Spec Stats_Proofs Stats2_Proofs Stats3_Proofs
  Diff_Model Diff_Spec Diff_Proofs Diff2_Proofs Diff3_Proofs.
Import ListNotations.
Open Scope Z_scope.

(** ** The elements reduced along one axis *)

Lemma nest_axis p : forall sh jx k, length jx = length sh -> k <= p < k + Z.of_nat (length sh) ->
  nest [p] k sh jx = map (fun i => at_axis (Z.to_nat (p - k)) (fun _ => Z.of_nat i) jx) (seq 0 (Z.to_nat (nth (Z.to_nat (p - k)) sh 0))).
Proof.
  induction sh as [|d sh IH]; intros [|j jx] k L Hk; try discriminate; cbn [length] in *; [lia|]. cbn [nest].
  destruct (in_dec _ _ _) as [Hi|Hi].
  - destruct Hi as [Ep|[]]. subst k. rewrite Z.sub_diag. change (Z.to_nat 0) with O. rewrite nest_none; [|intros a [ <- |[]]; lia|lia]. cbn [map].
    rewrite flat_map_single. reflexivity.
  - assert (Hne : p <> k) by (intros ->; apply Hi; left; reflexivity). rewrite (IH jx (k + 1)) by lia.
    replace (Z.to_nat (p - k)) with (S (Z.to_nat (p - (k + 1)))) by lia. cbn [nth at_axis]. rewrite map_map. reflexivity.
Qed.

Lemma fillw_axis p : forall base ix k, length base = S (length ix) -> k <= p < k + Z.of_nat (length base) -> forall j,
  at_axis (Z.to_nat (p - k)) (fun _ => j) (fillw [p] k base ix) = insert_axis (Z.to_nat (p - k)) j ix.
Proof.
  induction base as [|b base IH]; intros ix k L Hk j; cbn [length] in *; [lia|]. cbn [fillw].
  destruct (in_dec _ _ _) as [Hi|Hi].
  - destruct Hi as [Ep|[]]. subst k. rewrite Z.sub_diag. change (Z.to_nat 0) with O. cbn. unfold insert_axis. cbn. f_equal.
    clear IH Hk b. assert (H : p < p + 1) by lia. revert ix L H. generalize (p + 1). induction base as [|b base IH]; intros q [|x ix] L H; cbn in *; try lia; [reflexivity|].
    destruct (Z.eq_dec p q); [lia|]. f_equal. apply IH; lia.
  - assert (Hne : p <> k) by (intros ->; apply Hi; left; reflexivity).
    destruct ix as [|x ix]; cbn [length] in L; [exfalso; lia|].
    replace (Z.to_nat (p - k)) with (S (Z.to_nat (p - (k + 1)))) by lia. cbn [at_axis]. unfold insert_axis. cbn [firstn skipn app]. f_equal. apply IH; lia.
Qed.

Lemma without_axis p : forall sh k, k <= p -> without [p] k sh = drop_axis (Z.to_nat (p - k)) sh.
Proof.
  induction sh as [|d sh IH]; intros k Hk; cbn [without]; [unfold drop_axis; rewrite firstn_nil, skipn_nil; reflexivity|].
  destruct (in_dec _ _ _) as [Hi|Hi].
  - destruct Hi as [Ep|[]]. subst k. rewrite Z.sub_diag. change (Z.to_nat 0) with O. unfold drop_axis. cbn.
    assert (H : p < p + 1) by lia. revert H. generalize (p + 1). clear. induction sh as [|d sh IH]; intros q H; cbn; [reflexivity|].
    destruct (Z.eq_dec p q); [lia|]. f_equal. apply IH. lia.
  - assert (Hne : p <> k) by (intros ->; apply Hi; left; reflexivity). rewrite IH by lia.
    replace (Z.to_nat (p - k)) with (S (Z.to_nat (p - (k + 1)))) by lia. reflexivity.
Qed.

Lemma drop_length p (sh : list Z) : (p < length sh)%nat -> length sh = S (length (drop_axis p sh)).
Proof. intros H. unfold drop_axis. rewrite app_length, firstn_length, skipn_length. lia. Qed.

Lemma block_axis p sh ix : (p < length sh)%nat -> in_bounds (drop_axis p sh) ix ->
  block row_major false [Z.of_nat p] sh ix = map (fun i => insert_axis p (Z.of_nat i) ix) (seq 0 (Z.to_nat (nth p sh 0))).
Proof.
  intros Hp Hb. unfold block, indices_of. cbn [red_index].
  assert (Ew : without [Z.of_nat p] 0 sh = drop_axis p sh) by (rewrite without_axis by lia; rewrite Z.sub_0_r, Nat2Z.id; reflexivity).
  change (filter (fun jx => eqb_idx (without [Z.of_nat p] 0 jx) ix) (row_indices sh) = map (fun i => insert_axis p (Z.of_nat i) ix) (seq 0 (Z.to_nat (nth p sh 0)))).
  rewrite <- Ew in Hb. rewrite (block_without [Z.of_nat p] sh 0 ix (repeat 0 (length sh)) Hb) by apply repeat_length.
  assert (Li : length sh = S (length ix)) by (rewrite (drop_length p sh Hp), (in_bounds_length _ _ Hb), Ew; reflexivity).
  rewrite nest_axis.
  - rewrite Z.sub_0_r, Nat2Z.id. apply map_ext. intros i. pose proof (fillw_axis (Z.of_nat p) (repeat 0 (length sh)) ix 0) as H.
    rewrite Z.sub_0_r, Nat2Z.id in H. apply H; rewrite repeat_length; lia.
  - rewrite fillw_length; [apply repeat_length|]. rewrite (in_bounds_length _ _ Hb), without_length, repeat_length. reflexivity.
  - lia.
Qed.

Lemma drop_at_axis p f : forall sh, drop_axis p (at_axis p f sh) = drop_axis p sh.
Proof. induction p; intros [|x sh]; cbn; auto. unfold drop_axis in *. cbn. f_equal. apply IHp. Qed.

Lemma insert_in p j : forall sh ix, (p < length sh)%nat -> in_bounds (drop_axis p sh) ix -> 0 <= j < nth p sh 0 -> in_bounds sh (insert_axis p j ix).
Proof.
  unfold drop_axis, insert_axis. induction p; intros [|x sh] ix Hp Hb Hj; cbn in *; try lia.
  - constructor; assumption.
  - inversion Hb; subst. cbn. constructor; [assumption|]. apply IHp; auto. lia.
Qed.
Lemma insert_further p j i : forall sh ix, (p < length sh)%nat -> in_bounds (drop_axis p sh) ix -> further p i (insert_axis p j ix) = insert_axis p (j + i) ix.
Proof.
  unfold drop_axis, insert_axis, further. induction p; intros [|x sh] ix Hp Hb; cbn in *; try lia; [reflexivity|].
  inversion Hb; subst. cbn. f_equal. eapply IHp; [|eassumption]. lia.
Qed.
Lemma insert_nth p j : forall sh ix, (p < length sh)%nat -> in_bounds (drop_axis p sh) ix -> nth p (insert_axis p j ix) 0 = j.
Proof.
  unfold drop_axis, insert_axis. induction p; intros [|x sh] ix Hp Hb; cbn in *; try lia.
  inversion Hb; subst. cbn. eapply IHp; [|eassumption]. lia.
Qed.

(** ** The sum *)

Section Trapz.
Context (SL : layout) (D : option nat) (T : layout) (HT : is_order T).

Lemma trapz_sum_ok (y : cont num) sh yv p dx dxs w :
  well_formed SL D y -> contains y sh (fun ix => Some (yv ix)) -> (p < length sh)%nat -> Forall (fun n => n < 2 ^ 63) sh -> Z.of_nat (length sh) < 2 ^ 64 ->
  let sh' := at_axis p (fun n => Z.max 0 (n - 1)) sh in
  finite sh' dx w -> (exists t, expr_shape (EFun [EFun [dxs; EFun [ELeaf sh'; ELeaf sh']]; EScalar]) = Ok (sh', t)) ->
  exists q, trapz_sum T y dx dxs (Z.of_nat p) = Ok q /\ q_shape q = drop_axis p sh /\
    forall ix, in_bounds (drop_axis p sh) ix ->
      q_at q ix = Ok (Some (trapezoids (nth p sh 0) (fun i => w (insert_axis p i ix)) (fun i => yv (insert_axis p i ix)))).
Proof.
  intros Hw (<- & Hf) Hp Hbig Hd sh' Hdx (t & Et). pose proof Hw as (Hs & _ & Hlen & _).
  set (n := nth p (ct_shape y) 0).
  assert (Hn : 0 <= n < 2 ^ 63).
  { unfold is_shape in Hs. rewrite Forall_forall in Hs, Hbig. unfold n. split; [apply Hs|apply Hbig]; apply nth_In; exact Hp. }
  unfold trapz_sum. rewrite (rdz_ok _ _ n) by (try lia; rewrite Nat2Z.id; apply nth_error_nth'; exact Hp). cbn [bind].
  rewrite !slice_axis_ok by exact Hp. cbn [bind]. unfold but_last, but_first. rewrite but_last_stop by exact Hn.
  destruct (axis_view SL D T HT y p (Some 1) None Hw Hp) as (w1 & E1 & S1 & O1 & T1 & P1).
  destruct (axis_view SL D T HT y p None (Some (n - 1)) Hw Hp) as (w2 & E2 & S2 & O2 & T2 & P2).
  unfold one_range in E1, E2. rewrite E1, E2. cbn [bind].
  assert (Q1 : w_shape w1 = sh').
  { rewrite S1. apply at_axis_ext; [exact Hp|]. fold n. unfold py_stop, py_start, py_bound. cbn. lia. }
  assert (Q2 : w_shape w2 = sh').
  { rewrite S2. apply at_axis_ext; [exact Hp|]. fold n. unfold py_stop, py_start, py_bound. cbn -[Z.ltb]. change (0 <? 1) with true. cbv iota.
    destruct (n - 1 <? 0) eqn:El; [apply Z.ltb_lt in El|apply Z.ltb_ge in El]; lia. }
  rewrite Q1, Q2, Et. cbn [bind].
  assert (Hpos : forall jx, in_bounds (ct_shape y) jx -> rdz (ct_data y) (dot jx (ct_strides y)) = Ok (Some (yv jx))).
  { intros jx Hj. pose proof (Hf jx Hj) as E. unfold elt in E. rewrite (dot_element SL D) in E by assumption. exact E. }
  assert (R1 : forall ix, in_bounds sh' ix -> rdz (ct_data y) (w_offset w1 + dot ix (w_strides w1)) = Ok (Some (yv (further p 1 ix)))).
  { intros ix Hb. pose proof (in_at_axis _ _ _ _ Hp Hb) as Hi. cbn beta in Hi. fold n in Hi. rewrite <- Q1 in Hb. specialize (P1 ix Hb). fold n in P1.
    replace (py_start n 1 (Some 1)) with 1 in P1 by (unfold py_start, py_bound; cbn; lia). destruct P1 as (J & E). unfold position in E. cbn in E. rewrite E. apply Hpos. exact J. }
  assert (R2 : forall ix, in_bounds sh' ix -> rdz (ct_data y) (w_offset w2 + dot ix (w_strides w2)) = Ok (Some (yv ix))).
  { intros ix Hb. rewrite <- Q2 in Hb. specialize (P2 ix Hb). unfold further in P2. rewrite at_axis_id in P2 by (intros x; cbn; lia). destruct P2 as (J & E). unfold position in E. cbn in E. rewrite E. apply Hpos. exact J. }
  set (e := XFun f_times [XFun f_times [dx; XFun f_plus [view_term y w1; view_term y w2]]; XScalar half]).
  assert (Hs' : is_shape sh') by (apply at_axis_all; [exact Hp|exact Hs|lia]).
  assert (He : finite sh' e (fun jx => w jx * (yv (further p 1 jx) + yv jx) * Q2Qc (1 # 2))%Qc).
  { destruct Hdx as (Ho & Hx). split.
    - unfold operands_ok in *. cbn [all_leaves fold_right e view_term k_shape]. rewrite Q1, Q2. pose proof (fits_self sh'). unfold leaf_of in O1, O2. rewrite Q1 in O1. rewrite Q2 in O2.
      assert (Hnil : fits [] sh') by (split; [cbn; lia|intros k; left; destruct k; reflexivity]). repeat first [exact I|exact Ho|exact Hnil|assumption|exact O1|exact O2|split].
    - intros jx Hj. unfold e. cbn [x_value map seqM bind view_term k_shape k_begin k_strides]. rewrite (Hx jx Hj), Q1, Q2, !bc_index_self by exact Hj.
      rewrite (R1 jx Hj), (R2 jx Hj). reflexivity. }
  assert (Hv : valid_axes (length sh') [Z.of_nat p]).
  { split; [repeat constructor; intros []|]. repeat constructor; try lia. unfold sh'. rewrite at_axis_length. lia. }
  assert (Hnames : names (length sh') [Z.of_nat p] [Z.of_nat p]).
  { apply names_self. apply Hv. }
  assert (Hd' : Z.of_nat (length sh') < 2 ^ 64) by (unfold sh'; rewrite at_axis_length; exact Hd).
  destruct (sum_axes_lemma sh' e _ [Z.of_nat p] [Z.of_nat p] false Hd' Hs' He Hnames Hv) as (q & Eq & Sq & Hq & _).
  exists q. split; [exact Eq|].
  assert (Er : red_shape false [Z.of_nat p] sh' = drop_axis p (ct_shape y)).
  { cbn [red_shape]. rewrite without_axis by lia. rewrite Z.sub_0_r, Nat2Z.id. apply drop_at_axis. }
  split; [rewrite Sq; exact Er|]. intros ix Hb. rewrite Hq by (rewrite Er; exact Hb). do 2 f_equal.
  assert (Hp' : (p < length sh')%nat) by (unfold sh'; rewrite at_axis_length; exact Hp).
  rewrite block_axis; [|exact Hp'|unfold sh'; rewrite drop_at_axis; exact Hb].
  unfold sh'. rewrite at_axis_nth by exact Hp. fold n. unfold trapezoids. rewrite map_map.
  replace (Z.to_nat (Z.max 0 (n - 1))) with (Z.to_nat (n - 1)) by lia. f_equal. apply map_ext. intros i.
  rewrite (insert_further p _ 1 (ct_shape y)) by assumption. change (Q2Qc (1 # 2)) with (/ Q2Qc 2)%Qc. unfold Qcdiv. ring.
Qed.
End Trapz.
