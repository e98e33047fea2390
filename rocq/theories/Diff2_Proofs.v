From Coq Require Import List ZArith Bool Lia.
From Verif Require Import Prelude PreludeFacts Strides_Model Strides_Spec Strides_Proofs Access_Model Broadcast_Model Broadcast_Spec Slice_Model Slice_Spec View_Spec SView_Model SView_Spec
  SView_Proofs SView2_Proofs SView3_Proofs SView4_Proofs Reshape_Model Reshape_Proofs Manip_Model Stepper_Model Stepper_Spec Container_Model Container_Spec Assign_Model Assign_Spec
  Semantic_Model Semantic_Spec Semantic_Proofs Semantic2_Proofs Semantic3_Proofs Stats_Model Diff_Model Diff_Spec Diff_Proofs.
Import ListNotations.
Open Scope Z_scope.

Lemma at_axis_nth p f : forall l, (p < length l)%nat -> nth p (at_axis p f l) 0 = f (nth p l 0).
Proof. induction p; intros [|x l] H; cbn in *; try lia; auto. apply IHp. lia. Qed.

Lemma at_axis_id p f : forall l, (forall x, f x = x) -> at_axis p f l = l.
Proof. induction p; intros [|x l] H; cbn; auto; f_equal; auto. Qed.

Lemma at_axis_ext p f g : forall l, (p < length l)%nat -> f (nth p l 0) = g (nth p l 0) -> at_axis p f l = at_axis p g l.
Proof. induction p; intros [|x l] H E; cbn in *; try lia; f_equal; auto. apply IHp; [lia|auto]. Qed.

Lemma at_axis_twice p f g : forall l, at_axis p f (at_axis p g l) = at_axis p (fun x => f (g x)) l.
Proof. induction p; intros [|x l]; cbn; auto. f_equal. auto. Qed.

Lemma at_axis_all (P : Z -> Prop) p f : forall l, (p < length l)%nat -> Forall P l -> P (f (nth p l 0)) -> Forall P (at_axis p f l).
Proof. induction p; intros [|x l] H HF E; cbn in *; try lia; inversion HF; subst; constructor; auto. apply IHp; auto. lia. Qed.

Lemma in_at_axis p f : forall sh ix, (p < length sh)%nat -> in_bounds (at_axis p f sh) ix -> 0 <= nth p ix 0 < f (nth p sh 0).
Proof.
  induction p; intros [|n sh] ix H Hb; cbn in *; try lia; inversion Hb; subst; cbn; [lia|]. apply IHp; [lia|assumption].
Qed.

Lemma further_in p j : forall sh f ix, (p < length sh)%nat -> in_bounds (at_axis p f sh) ix -> 0 <= j + nth p ix 0 < nth p sh 0 -> in_bounds sh (further p j ix).
Proof.
  unfold further. induction p; intros [|n sh] f ix H Hb E; cbn in *; try lia; inversion Hb; subst; cbn in *.
  - constructor; [lia|assumption].
  - constructor; [assumption|]. eapply IHp; [lia|eassumption|assumption].
Qed.

(** ** The two views *)

Section Step.
Context {V : Type}.
Context (g : Z -> setup) (SL : layout) (D : option nat) (DL T : layout) (rs : list V -> Z -> list V) (v : V).
Context (Hg : setups_ok g) (HDL : is_order DL) (HT : is_order T) (Hrs : resizes rs).

Definition leaf_of (w : sview) : container := mk_container (w_shape w) (w_strides w) (w_back w) (w_offset w).

Lemma wf_direct (ad : cont V) : well_formed SL D ad -> wf_exp (of_cont ad).
Proof. intros (Hs & (Hl & _) & _). split; [exact Hs|]. intros _. exact Hl. Qed.

Lemma axis_view (ad : cont V) p a b : well_formed SL D ad -> (p < length (ct_shape ad))%nat ->
  exists w, strided_view T (of_cont ad) (map Pick (one_range p a b (length (ct_shape ad)))) [] = Ok w /\
    w_shape w = at_axis p (fun n => Z.max 0 (py_stop n 1 b - py_start n 1 a)) (ct_shape ad) /\
    strided_ok (leaf_of w) /\ truthful (mk_meta KStridedView dynamic None (w_layout w)) (leaf_of w) /\
    forall ix, in_bounds (w_shape w) ix ->
      in_bounds (ct_shape ad) (further p (py_start (nth p (ct_shape ad) 0) 1 a) ix) /\
      position (leaf_of w) ix = dot (further p (py_start (nth p (ct_shape ad) 0) 1 a) ix) (ct_strides ad).
Proof.
  intros Hw Hp. pose proof (wf_direct ad Hw) as He.
  set (us := one_range p a b (length (ct_shape ad))). set (ss := map Pick us).
  assert (Hel : (ellipses ss <= 1)%nat) by (unfold ss; rewrite ellipses_picks; lia).
  assert (Hx : expand (length (x_shape (of_cont ad))) ss = us) by apply expand_picks.
  assert (Hv : valid false (expand (length (x_shape (of_cont ad))) ss) (x_shape (of_cont ad))).
  { rewrite Hx. apply one_range_valid. exact Hp. }
  destruct (strided_view_lemma T (of_cont ad) ss [] HT He Hel Hv) as (w & Ew & Hsh & _ & _ & Hrd & Hlay).
  destruct (strided_view_parts T (of_cont ad) ss [] w HT He Hel Hv Ew) as (Hbase & Hst).
  rewrite Hx in *. cbn [x_shape of_cont] in *.
  exists w. split; [exact Ew|]. split; [apply one_range_shape; [exact Hp|exact Hsh]|]. split; [exact Hst|].
  pose proof Hst as (Hl & _). cbn [k_strides k_shape] in Hl.
  assert (Hdot : forall ix, in_bounds (w_shape w) ix -> element_offset (w_strides w) ix = dot ix (w_strides w)).
  { intros ix Hb. apply element_offset_same. rewrite Hl. apply in_bounds_length. exact Hb. }
  split.
  - split; [intros ix _; exact I|]. split; [|exact I]. intros ix Hb. cbn [m_layout k_shape k_strides leaf_of] in *.
    destruct (w_layout w) eqn:El; [exact I| | | ]; destruct (Hlay ltac:(discriminate)) as (_ & Ho & Hr).
    + exfalso. destruct Ho; discriminate.
    + rewrite <- Hdot by exact Hb. apply Hr. exact Hb.
    + rewrite <- Hdot by exact Hb. apply Hr. exact Hb.
  - intros ix Hb. destruct (Hrd ix Hb) as (jx & Hs & Hj & (_ & Hr & _)).
    rewrite (one_range_source p a b (ct_shape ad) ix jx _ Hp Hs eq_refl) in *. split; [exact Hj|].
    unfold w_element, storage_at in Hr. rewrite Hbase in Hr. cbn [x_direct of_cont] in Hr. injection Hr as Hr.
    unfold position. cbn [k_begin k_strides leaf_of]. rewrite <- (Hdot ix Hb), Hr. cbn [x_offset of_cont x_strides].
    rewrite Z.add_0_l. eapply dot_element; eassumption.
Qed.

(** ** One difference *)

Lemma but_last_stop n : 0 <= n < 2 ^ 63 -> to_signed 64 (to_size_t (n - 1)) = n - 1.
Proof.
  intros H. unfold to_signed, to_size_t. change (2 ^ (64 - 1)) with (2 ^ 63).
  destruct (Z.eq_dec n 0) as [->|E]; [reflexivity|].
  rewrite (Z.mod_small (n - 1)) by lia. rewrite Z.mod_small by lia. lia.
Qed.

Lemma diff_operand_ok (sub : V -> V -> V) (ad : cont V) p f : well_formed SL D ad -> (p < length (ct_shape ad))%nat -> Forall (fun n => n < 2 ^ 63) (ct_shape ad) ->
  contains ad (ct_shape ad) f ->
  let sh' := at_axis p (fun n => Z.max 0 (n - 1)) (ct_shape ad) in
  exists e, diff_operand T v sub (Z.of_nat p) ad = Ok e /\ valid_operands g (ct_data ad) e /\ operand_shapes e = [sh'; sh'] /\
    forall ix, in_bounds sh' ix -> x_value ix (inst (ct_data ad) e) = Ok (sub (f (further p 1 ix)) (f ix)).
Proof.
  intros Hw Hp Hbig (_ & Hf) sh'. pose proof Hw as (Hs & _ & Hlen & _).
  set (n := nth p (ct_shape ad) 0).
  assert (Hn : 0 <= n < 2 ^ 63).
  { unfold is_shape in Hs. rewrite Forall_forall in Hs, Hbig. unfold n. split; [apply Hs|apply Hbig]; apply nth_In; exact Hp. }
  unfold diff_operand. rewrite (rdz_ok _ _ n) by (try lia; rewrite Nat2Z.id; apply nth_error_nth'; exact Hp). cbn [bind].
  rewrite !slice_axis_ok by exact Hp. cbn [bind]. unfold but_last, but_first. rewrite but_last_stop by exact Hn.
  destruct (axis_view ad p (Some 1) None Hw Hp) as (w1 & E1 & S1 & O1 & T1 & P1).
  destruct (axis_view ad p None (Some (n - 1)) Hw Hp) as (w2 & E2 & S2 & O2 & T2 & P2).
  unfold one_range in E1, E2. rewrite E1, E2. cbn [bind].
  assert (Q1 : w_shape w1 = sh').
  { rewrite S1. apply at_axis_ext; [exact Hp|]. fold n. unfold py_stop, py_start, py_bound. cbn. lia. }
  assert (Q2 : w_shape w2 = sh').
  { rewrite S2. apply at_axis_ext; [exact Hp|]. fold n. unfold py_stop, py_start, py_bound. cbn -[Z.ltb]. change (0 <? 1) with true. cbv iota.
    destruct (n - 1 <? 0) eqn:El; [apply Z.ltb_lt in El|apply Z.ltb_ge in El]; lia. }
  assert (R1 : forall ix, in_bounds sh' ix -> in_bounds (ct_shape ad) (further p 1 ix) /\ position (leaf_of w1) ix = dot (further p 1 ix) (ct_strides ad)).
  { intros ix Hb. pose proof (in_at_axis _ _ _ _ Hp Hb) as Hi. cbn beta in Hi. fold n in Hi. rewrite <- Q1 in Hb. specialize (P1 ix Hb). fold n in P1.
    replace (py_start n 1 (Some 1)) with 1 in P1 by (unfold py_start, py_bound; cbn; lia). exact P1. }
  assert (R2 : forall ix, in_bounds sh' ix -> in_bounds (ct_shape ad) ix /\ position (leaf_of w2) ix = dot ix (ct_strides ad)).
  { intros ix Hb. rewrite <- Q2 in Hb. specialize (P2 ix Hb). unfold further in P2. rewrite at_axis_id in P2; [exact P2|]. intros x. cbn. lia. }
  assert (Hreal : real_shape sh').
  { unfold sh'. apply at_axis_all; [exact Hp| |fold n; lia]. apply Forall_forall. intros x Hx. unfold is_shape in Hs. rewrite Forall_forall in Hs, Hbig.
    specialize (Hs x Hx). specialize (Hbig x Hx). lia. }
  assert (Hpos : forall jx, in_bounds (ct_shape ad) jx -> 0 <= dot jx (ct_strides ad) < Z.of_nat (length (ct_data ad)) /\ rdz (ct_data ad) (dot jx (ct_strides ad)) = Ok (f jx)).
  { intros jx Hj. pose proof (wf_writable SL D ad Hw) as (_ & _ & Hin & _). specialize (Hin jx Hj). unfold position in Hin. cbn in Hin. split; [exact Hin|].
    rewrite <- (Hf jx Hj). unfold elt. rewrite (dot_element SL D) by assumption. reflexivity. }
  eexists. split; [reflexivity|]. split; [|split].
  - split; [|split; [|split; [|split]]].
    + cbn. rewrite Q1, Q2. split; [split; [exact Hreal|]|split; [split; [exact Hreal|]|exact I]].
      * rewrite <- Q1. exact O1.
      * rewrite <- Q2. exact O2.
    + cbn. split; [|split; [|exact I]]; intros ix Hb; [rewrite Q1 in Hb|rewrite Q2 in Hb].
      * destruct (R1 ix Hb) as (J & E). unfold position in E. cbn in E. rewrite E. apply Hpos. exact J.
      * destruct (R2 ix Hb) as (J & E). unfold position in E. cbn in E. rewrite E. apply Hpos. exact J.
    + cbn. split; [exact T1|]. split; [exact T2|exact I].
    + intros k. cbn. unfold simd_offset_ok. cbn. split; [intros _ _ H; exfalso; apply H; reflexivity|]. split; [intros _ _ H; exfalso; apply H; reflexivity|exact I].
    + cbn. tauto.
  - unfold operand_shapes. cbn. rewrite Q1, Q2. reflexivity.
  - intros ix Hb. cbn [inst view_leaf x_value map k_shape k_begin k_strides]. rewrite Q1, Q2, !bc_index_self by exact Hb. cbn [seqM].
    destruct (R1 ix Hb) as (J1 & F1). destruct (R2 ix Hb) as (J2 & F2). unfold position in F1, F2. cbn in F1, F2.
    rewrite F1, F2, (proj2 (Hpos _ J1)), (proj2 (Hpos _ J2)). reflexivity.
Qed.
End Step.
