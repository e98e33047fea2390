(** Proofs about containers with a shape in their type: strides and construction. *)
From Coq Require Import List ZArith Bool Lia.
From Verif Require Import Prelude PreludeFacts Strides_Model Strides_Spec Strides_Proofs Broadcast_Model Broadcast_Spec
  Container_Model Container_Spec Container_Proofs Stepper_Model Stepper_Spec Assign_Model Semantic_Model Semantic_Spec Semantic_Proofs Fixed_Model Fixed_Spec.
Import ListNotations.
Open Scope Z_scope.

Lemma stride_row_ok X : forall i, (i <= length X)%nat -> calculate_stride_row_major i X = prod (skipn (length X - i) X).
Proof.
  induction i as [|i IH]; intros Hi.
  - rewrite Nat.sub_0_r, skipn_all. reflexivity.
  - cbn [calculate_stride_row_major]. rewrite IH by lia. unfold fixed_at.
    destruct (Z.ltb_spec (Z.of_nat (length X) - Z.of_nat (S i)) 0); [lia|].
    replace (Z.to_nat (Z.of_nat (length X) - Z.of_nat (S i))) with (length X - S i)%nat by lia.
    assert (E : (length X - S i < length X)%nat) by lia.
    rewrite (skipn_cons_nth X (length X - S i) (nth (length X - S i) X 0)) by (apply nth_error_nth'; exact E).
    rewrite prod_cons. replace (S (length X - S i)) with (length X - i)%nat by lia. reflexivity.
Qed.
Lemma stride_col_ok : forall X i, (i < length X)%nat -> calculate_stride_column_major i X = prod (firstn i X).
Proof.
  induction X as [|Y X IH]; intros i Hi; cbn in Hi; [lia|].
  destruct i as [|i]; cbn [calculate_stride_column_major firstn]; [reflexivity|]. rewrite prod_cons, IH by lia. reflexivity.
Qed.

Lemma fixed_strides_ok L X : is_order L -> fixed_strides L X = spec_strides L X.
Proof.
  intros [ -> | -> ]; unfold fixed_strides; cbn [spec_strides]; [unfold row_strides|unfold col_strides]; apply map_ext_in; intros i Hi;
    apply in_seq in Hi; [unfold row_stride|unfold col_stride]; destruct (nth i X 0 =? 1); try reflexivity; cbn [calculate_stride].
  - rewrite stride_row_ok by lia. do 2 f_equal. lia.
  - apply stride_col_ok. lia.
Qed.
Lemma fixed_back_ok X st : length st = length X -> fixed_backstrides X st = spec_backstrides st X.
Proof. intros H. unfold fixed_backstrides, spec_backstrides. rewrite H. reflexivity. Qed.
Lemma fixed_size_ok X : fixed_compute_size X = prod X.
Proof.
  induction X as [|Y [|Z X] IH]; [reflexivity|cbn [fixed_compute_size]; rewrite prod_cons, prod_nil; lia|]. rewrite prod_cons. rewrite <- IH. reflexivity.
Qed.

(** The strides of an xtensor or xarray. *)
Lemma fixed_compute L X : is_order L ->
  compute_strides L X L (repeat 0 (length X)) (Some (repeat 0 (length X))) =
  Ok (fixed_strides L X, Some (fixed_backstrides X (fixed_strides L X)), fixed_compute_size X).
Proof.
  intros HL. rewrite compute_strides_ok by (cbn; rewrite repeat_length; reflexivity). cbn zeta. cbn [some_bs].
  rewrite fixed_back_ok by (rewrite fixed_strides_ok by assumption; apply spec_strides_length).
  rewrite fixed_strides_ok by assumption. rewrite fixed_size_ok. destruct HL as [ -> | -> ]; reflexivity.
Qed.
Lemma fixed_resize {V} L DL rs (c : cont V) X d : is_order L -> ct_layout c = L ->
  rs (ct_data c) (prod X) = d ->
  c_resize L DL rs c X true = Ok (fixed L X d).
Proof.
  intros HL Hl Hd. unfold c_resize. rewrite orb_true_r.
  assert (layout_eqb L dynamic = false) as -> by (destruct HL as [ -> | -> ]; reflexivity).
  cbn [andb]. rewrite Hl. rewrite fixed_compute by assumption. cbn [bind]. rewrite fixed_size_ok, Hd. reflexivity.
Qed.

Lemma fixed_wf {V} L X (d : list V) : is_order L -> is_shape X -> fixed_storage X d -> well_formed L (Some (length X)) (fixed L X d).
Proof.
  intros HL HX Hd. unfold fixed_storage in Hd. rewrite fixed_size_ok in Hd.
  assert (HLa : L <> any) by (destruct HL as [ -> | -> ]; discriminate).
  apply resize_any_wf; auto. rewrite fixed_compute by assumption. rewrite fixed_size_ok. reflexivity.
Qed.
Lemma fixed_consistent {V} L X (d : list V) : is_order L -> is_shape X -> fixed_storage X d -> consistent (fixed L X d).
Proof.
  intros HL HX Hd. destruct (fixed_wf L X d HL HX Hd) as (H1 & (H2 & H3 & _) & H4 & _ & _ & _ & _ & l & Hl & Hl2 & Hr).
  split; [exact H1|]. split; [exact H2|]. split; [exact H3|]. split; [exact H4|]. exists l. split; [exact Hl|]. split; [exact Hl2|].
  intros ix Hb. rewrite element_offset_same; [apply Hr; exact Hb|]. rewrite (in_bounds_length _ _ Hb). symmetry. exact H2.
Qed.

(** Construction from values. *)
Lemma from_value_ok {V} L X (d : list V) v : is_order L -> is_shape X -> fixed_storage X d ->
  (prod X = 1 -> exists a, fixed_from_value L X d v = Ok a /\ ct_shape a = X /\ consistent a /\ forall ix, in_bounds X ix -> elt a ix = Ok v) /\
  (prod X <> 1 -> fixed_from_value L X d v = Throw runtime_error).
Proof.
  intros HL HX Hd. pose proof Hd as Hd'. unfold fixed_storage in Hd'. rewrite fixed_size_ok in Hd'. unfold fixed_from_value. rewrite Hd'. split.
  - intros E. rewrite E. cbn [Z.eqb negb]. destruct d as [|x [|y d]]; cbn [length] in Hd'; try lia.
    cbn. exists (fixed L X [v]). split; [reflexivity|]. split; [reflexivity|].
    assert (Hc : consistent (fixed L X [v])) by (apply fixed_consistent; auto). split; [exact Hc|].
    intros ix Hb. pose proof (consistent_accesses _ Hc ix Hb) as Ha. unfold elt. cbn [fixed ct_data length] in *.
    assert (element_offset (ct_strides (fixed L X [v])) ix = 0) as -> by lia. reflexivity.
  - intros E. destruct (Z.eqb_spec (prod X) 1); [lia|reflexivity].
Qed.
Lemma filled_ok {V} L X (d : list V) shape v l : is_order L -> is_shape X -> fixed_storage X d ->
  exists a, fixed_filled L X d shape v l = Ok a /\ ct_shape a = X /\ consistent a /\ forall ix, in_bounds X ix -> elt a ix = Ok v.
Proof.
  intros HL HX Hd. eexists. split; [reflexivity|]. split; [reflexivity|].
  assert (Hc : consistent (fixed L X (map (fun _ => v) d))) by (apply fixed_consistent; auto; unfold fixed_storage; rewrite map_length; exact Hd).
  split; [exact Hc|]. intros ix Hb. pose proof (consistent_accesses _ Hc ix Hb) as Ha. unfold elt.
  cbn [fixed ct_data] in *. rewrite map_length in Ha.
  apply rdz_ok; [lia|]. set (k := Z.to_nat _).
  assert (Hk : (k < length d)%nat) by (unfold k; lia).
  rewrite nth_error_map. destruct (nth_error d k) eqn:E; [reflexivity|]. apply nth_error_None in E. lia.
Qed.

(** Reshape. *)
Lemma std_equal_ok : forall a b, (length a <= length b)%nat -> exists q, std_equal a b = Ok q /\ (q = true <-> a = firstn (length a) b).
Proof.
  induction a as [|x a IH]; intros [|y b] H; cbn in *; try lia.
  - exists true. tauto.
  - exists true. tauto.
  - destruct (Z.eqb_spec x y) as [ -> |N].
    + destruct (IH b ltac:(lia)) as (q & E & Hq). exists q. split; [exact E|]. rewrite Hq. split; [intros Heq; f_equal; exact Heq|intros Heq; injection Heq; auto].
    + exists false. split; [reflexivity|]. split; [discriminate|]. intros Heq; injection Heq as Hx _. contradiction.
Qed.
Lemma reshape_ok {V} (a : cont V) shape l : (length shape <= length (ct_shape a))%nat ->
  (shape = ct_shape a /\ l = ct_layout a -> fixed_reshape a shape l = Ok a) /\
  (~ (shape = ct_shape a /\ l = ct_layout a) -> fixed_reshape a shape l = Throw runtime_error).
Proof.
  intros H. unfold fixed_reshape. destruct (std_equal_ok shape (ct_shape a) H) as (q & -> & Hq). cbn [bind].
  assert (Hl : layout_eqb l (ct_layout a) = true <-> l = ct_layout a) by (destruct l, (ct_layout a); cbn; split; congruence).
  split.
  - intros [ -> -> ]. assert (q = true) as -> by (apply Hq; rewrite firstn_all; reflexivity).
    rewrite Nat.eqb_refl. rewrite (proj2 Hl eq_refl). reflexivity.
  - intros N. destruct (q && (length shape =? length (ct_shape a))%nat && layout_eqb l (ct_layout a)) eqn:E; [|reflexivity].
    exfalso. apply N. rewrite !andb_true_iff in E. destruct E as [[E1 E2] E3]. apply Nat.eqb_eq in E2. split; [|apply Hl; exact E3].
    apply Hq in E1. rewrite E1. rewrite E2. apply firstn_all.
Qed.
Lemma reshape_longer_lemma : exists (a : cont Z) shape, consistent a /\ fixed row_major [2; 3] [1; 2; 3; 4; 5; 6] = a /\
  prod shape = prod (ct_shape a) /\ fixed_reshape a shape row_major = UB.
Proof.
  exists (fixed row_major [2; 3] [1; 2; 3; 4; 5; 6]), [2; 3; 1]. split; [|repeat split; reflexivity].
  apply fixed_consistent; [left; reflexivity|repeat constructor; lia|reflexivity].
Qed.
