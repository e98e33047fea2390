(** Proofs about the assignment operators of views. *)
From Coq Require Import List ZArith Bool Lia.
From Verif Require Import Prelude PreludeFacts Strides_Model Strides_Spec Strides_Proofs Broadcast_Model Broadcast_Spec
  Broadcast_Proofs Broadcast2_Proofs Layout_Model Slice_Model Access_Model
  Stepper_Model Stepper_Spec Stepper_Proofs Stepper3_Proofs Stepper4_Proofs Container_Model Container_Spec Container_Proofs
  Assign_Model Assign_Spec Assign_Proofs Assign2_Proofs Assign6_Proofs Assign7_Proofs Semantic_Model Semantic_Spec Semantic_Proofs
  Semantic2_Proofs Semantic3_Proofs Semantic4_Proofs.
Import ListNotations.
Open Scope Z_scope.

Section Views.
Context {V : Type} (g : Z -> setup) (TL : layout) (TD : option nat) (DL DT : layout) (rs : list V -> Z -> list V) (v : V) (sv : bool).
Hypothesis Hg : setups_ok g.
Hypothesis HDL : is_order DL.
Hypothesis HDT : is_order DT.
Hypothesis Hrs : resizes rs.
Hypothesis HTL : TL <> any.

Lemma v_run_ok (c : container) e phs (mem mem' : list V) : (forall r, outcome e phs mem r <-> r = Ok mem') ->
  forall r, v_run c e (Ok phs) mem r <-> r = Done mem'.
Proof.
  intros H r. cbn. split.
  - intros (d & Hd & ->). apply H in Hd. subst d. reflexivity.
  - intros ->. exists (Ok mem'). split; [apply H; reflexivity|reflexivity].
Qed.

Definition g_dt (s : setup) : setup := mk_setup (g_types s) (g_width s) (g_align s) (g_parallel s) (g_sizes s) DT.
Definition m_dt : meta := mk_meta KContainer dynamic None dynamic.

Lemma copy_is_stepper (c : container) (e : aexp V) s : copy_plan DT c e = stepper_plan (g_dt s) m_dt c e.
Proof. unfold copy_plan, stepper_plan, g_dt. cbn [g_default]. destruct HDT as [-> | ->]; reflexivity. Qed.

Lemma temporary_ok m (c : container) (t : cont V) mem : well_formed TL TD t -> ct_shape t = k_shape c -> writable c mem -> truthful m c ->
  (forall n, simd_offset_ok (g n) m c) ->
  exists mem', (forall r, v_assign_temporary g TL TD DT sv m c t mem r <-> r = Done mem') /\ pointwise c (temporary_leaf TL TD t) mem mem mem'.
Proof.
  intros Hw Es Hwr Htr Hof. pose proof (wf_writable TL TD _ Hw) as (Hs & Hst & Hpos & _).
  set (e := temporary_leaf TL TD t).
  assert (Hop : operands_ok (k_shape c) (inst mem e)) by (cbn; split; [rewrite Es; apply fits_self|exact Hst]).
  assert (Hs' : 0 <= prod (k_shape c)) by (rewrite <- Es; apply prod_nn; exact Hs).
  assert (HA : forall gs m', setup_ok gs (prod (k_shape c)) -> truthful m' c -> simd_offset_ok gs m' c -> assignable gs m' c e false mem).
  { intros gs m' H1 H2 H3. split; [exact H1|]. split; [exact Hwr|]. split; [exact H2|]. split; [exact H3|]. split; [exact Hop|].
    split; [exact Hpos|]. split; [apply wf_truthful; exact Hw|]. split; [intros _ H; discriminate H|discriminate]. }
  assert (Hel : elementwise c e) by (intros ix m1 m2 _ _ _; reflexivity).
  set (gs := g (compute_size (k_shape c))).
  assert (Hgs : setup_ok gs (prod (k_shape c))) by (unfold gs; rewrite compute_size_prod; apply Hg; exact Hs').
  destruct (strategies_lemma V gs m c e false mem (HA gs m Hgs Htr (Hof _)) Hel) as (mem' & Hpw & _ & _ & Hstr & (phs & Ep & Hph)).
  assert (Htd : truthful m_dt c).
  { split; [|split]; [intros ix _; exact I|intros ix _; exact I|exact I]. }
  assert (Hod : simd_offset_ok (g_dt gs) m_dt c) by (intros _ H; discriminate H).
  assert (Hgd : setup_ok (g_dt gs) (prod (k_shape c))).
  { destruct Hgs as (G1 & G2 & _). split; [exact G1|]. split; [exact G2|exact HDT]. }
  destruct (strategies_lemma V (g_dt gs) m_dt c e false mem (HA _ _ Hgd Htd Hod) Hel) as (mem2 & Hpw2 & _ & _ & _ & (phs2 & Ep2 & Hph2)).
  assert (mem2 = mem') as -> by (eapply (pointwise_unique c e e mem mem); [exact Hwr|reflexivity|exact Hpw2|exact Hpw]).
  exists mem'. split; [|exact Hpw]. intros r. unfold v_assign_temporary. fold e. fold gs.
  destruct (sv && g_types gs && leaf_simd m && a_simd e && a_strided e) eqn:EC.
  - apply andb_true_iff in EC. destruct EC as [_ EC]. destruct (Hstr EC) as (ls & El & Hls). rewrite El. cbn [bind].
    destruct (ls_can ls).
    + destruct (Hls eq_refl) as (phs3 & Ep3 & Hph3). rewrite Ep3. apply v_run_ok. exact Hph3.
    + rewrite Ep. apply v_run_ok. exact Hph.
  - rewrite Es, Z.eqb_refl, (copy_is_stepper c e gs), Ep2. apply v_run_ok. exact Hph2.
Qed.

(** The values of the temporary are those of the expression. *)
Lemma temporary_value (c : container) (t : cont V) e mem mem' : well_formed TL TD t -> ct_shape t = k_shape c ->
  (forall ix, in_bounds (k_shape c) ix -> exists x, x_value ix (inst mem e) = Ok x /\ elt t ix = Ok x) ->
  pointwise c (temporary_leaf TL TD t) mem mem mem' -> pointwise c e mem mem mem'.
Proof.
  intros Hw Es H (P1 & P2 & P3). split; [exact P1|]. split; [|exact P3]. intros ix Hb.
  destruct (H ix Hb) as (x & X1 & X2). destruct (P2 ix Hb) as (y & Y1 & Y2). exists x. split; [exact X1|].
  replace x with y; [exact Y2|].
  assert (Ok y = Ok x); [|congruence]. rewrite <- Y1, <- X2. unfold elt. cbn [temporary_leaf inst x_value].
  rewrite <- Es in Hb. erewrite dot_element by eassumption. cbn [c_strided k_shape k_begin k_strides].
  rewrite bc_index_self by assumption. f_equal.
Qed.

(** Operands whose address range misses that of the destination share no element
    with it. *)
Lemma dot_between : forall st sh ix, length st = length sh -> in_bounds sh ix -> Forall (fun s => 0 <= s) st ->
  0 <= dot ix st <= dot (map (fun d => d - 1) sh) st.
Proof.
  induction st as [|s st IH]; intros [|d sh] ix Hl Hb Hs; cbn in Hl; try lia; inversion Hb as [|? i ? ix' H1 H2]; subst; cbn; [lia|].
  inversion Hs; subst. destruct (IH sh ix' ltac:(lia) H2 ltac:(assumption)). cbn. nia.
Qed.
Lemma dot_between_neg : forall st sh ix, length st = length sh -> in_bounds sh ix -> Forall (fun s => s <= 0) st ->
  dot (map (fun d => d - 1) sh) st <= dot ix st <= 0.
Proof.
  induction st as [|s st IH]; intros [|d sh] ix Hl Hb Hs; cbn in Hl; try lia; inversion Hb as [|? i ? ix' H1 H2]; subst; cbn; [lia|].
  inversion Hs; subst. destruct (IH sh ix' ltac:(lia) H2 ltac:(assumption)). cbn. nia.
Qed.
Lemma position_between (c : container) ix : strided_ok c -> one_direction c -> in_bounds (k_shape c) ix ->
  Z.min (addr_first c) (addr_last c) <= position c ix <= Z.max (addr_first c) (addr_last c).
Proof.
  intros Hst Hd Hb. rewrite addr_last_position by assumption. unfold addr_first, position. destruct Hst as (L & _).
  destruct Hd as [Hd|Hd].
  - pose proof (dot_between _ _ _ L Hb Hd). lia.
  - pose proof (dot_between_neg _ _ _ L Hb Hd). lia.
Qed.

Lemma apart_independent (c : container) (e : aexp V) (mem : list V) : writable c mem -> one_direction c -> own_leaves one_direction e ->
  all_leaves (fun s leaf => real_shape s /\
    match leaf with XStrided c _ => strided_ok c | XIndexed _ _ => s <> [] | _ => True end) (inst mem e) ->
  (forall s, In s (operand_shapes e) -> fits s (k_shape c)) -> pure_generators e ->
  own_leaves (apart (Z.min (addr_first c) (addr_last c), Z.max (addr_first c) (addr_last c))) e -> independent c e.
Proof.
  intros (_ & Hst & _) Hd. unfold operand_shapes.
  induction e as [x|m k [b|]|s f|f args IH] using aexp_ind'; cbn [own_leaves inst all_leaves pure_generators independent a_expr leaves]; auto.
  - intros Hk [_ Hsk] Hf _ Hap ix Hb. right. intros jx Hj.
    assert (Hbk : in_bounds (k_shape k) (bc_index (k_shape k) ix)).
    { destruct (Hf (k_shape k)) as [F1 F2]; [left; reflexivity|]. eapply bc_index_in_bounds; eassumption. }
    pose proof (position_between k _ Hsk Hk Hbk). pose proof (position_between c _ Hst Hd Hj).
    destruct Hap as [Hz|Hap]; [|cbn in Hap; lia]. pose proof (row_pos_bound _ _ Hbk). lia.
  - intros H1 H2 H3 H4 H5. apply fr_and in H1. apply fr_and in H2. apply fr_and in H4. apply fr_and in H5. apply fr_and.
    rewrite Forall_map in H2. rewrite Forall_forall in *. intros x Hx. apply IH; auto.
    intros s Hs. apply H3. apply in_flat_map. exists (a_expr x). split; [apply in_map; exact Hx|exact Hs].
Qed.

Lemma fits_broadcast (ss : list (list Z)) sh c : broadcast_of ss sh -> (forall s, In s ss -> fits s c) -> fits sh c.
Proof.
  intros (H1 & H2 & H3) Hf. split.
  - destruct H2 as [->|(s & Hs & <-)]; [cbn; lia|]. apply Hf. exact Hs.
  - intros k. destruct (H3 k) as [_ [E|(s & Hs & E)]]; [left; exact E|]. rewrite <- E. apply Hf. exact Hs.
Qed.
Lemma fits_broadcastable s sh : fits s sh -> broadcastable s sh = Ok true.
Proof. intros H. destruct (broadcastable_lemma s sh) as (b & -> & Hb). f_equal. apply Hb. exact H. Qed.
Lemma fits_compatible (ss : list (list Z)) c : (forall s, In s ss -> fits s c) -> compatible ss.
Proof.
  intros H s t k Hs Ht. destruct (proj2 (H s Hs) k) as [E|E]; [auto|]. destruct (proj2 (H t Ht) k) as [E'|E']; [auto|]. right. right. congruence.
Qed.

(** check_overlap of a view: true, or the operands are independent of it. *)
Lemma view_overlap (c : container) (e : aexp V) (mem : list V) : writable c mem -> one_direction c -> own_leaves one_direction e ->
  valid_operands g mem e -> fits_view e c ->
  exists b, check_overlap c e = Ok b /\ (b = false -> prod (k_shape c) <> 0 -> independent c e).
Proof.
  intros Hw Hd Ho Hv Hf. pose proof Hw as (Hs & _). unfold check_overlap.
  destruct (Z.eq_dec (prod (k_shape c)) 0) as [H0|H0].
  - unfold dst_range. rewrite compute_size_prod, H0. exists false. split; [reflexivity|lia].
  - rewrite dst_range_some by assumption.
    destruct (expr_overlaps_ok (Z.min (addr_first c) (addr_last c), Z.max (addr_first c) (addr_last c)) e (k_shape c)) as (b & Eb & Hb); auto.
    + cbn. lia.
    + eapply valid_real. exact Hv.
    + exists b. split; [exact Eb|]. intros Hbf _. destruct Hv as (V1 & V2 & V3 & V4 & V5).
      eapply apart_independent; eauto. apply Hb. exact Hbf.
Qed.

Lemma view_elementwise (c : container) (e : aexp V) (mem : list V) : writable c mem -> (prod (k_shape c) <> 0 -> independent c e) -> elementwise c e.
Proof.
  intros Hw H. destruct (Z.eq_dec (prod (k_shape c)) 0) as [H0|H0].
  - intros ix m1 m2 Hb. exfalso. eapply empty_no_index; eassumption.
  - eapply independent_elementwise; eauto.
Qed.

Lemma view_assign_ok m (c : container) (e : aexp V) (mem : list V) :
  writable c mem -> truthful m c -> (forall n, simd_offset_ok (g n) m c) -> one_direction c ->
  match TD with Some n => length (k_shape c) = n | None => True end -> real_shape (k_shape c) ->
  valid_operands g mem e -> own_leaves one_direction e -> fits_view e c ->
  exists mem', (forall r, v_operator_assign g TL TD DL DT rs v sv m c e mem r <-> r = Done mem') /\ pointwise c e mem mem mem'.
Proof.
  intros Hw Htr Hof Hd HTD Hrc Hv Ho Hf. pose proof (valid_real _ _ _ Hv) as Hreal. pose proof Hw as (Hs & _).
  pose proof (fits_compatible _ _ Hf) as Hcomp.
  destruct (proj1 (rhs_shape_ok e Hreal) Hcomp) as (sh & t & E & Hb & Ht).
  pose proof (fits_broadcast _ _ _ Hb Hf) as Hfs.
  destruct (view_overlap c e mem Hw Hd Ho Hv Hf) as (b & Eb & Hind).
  assert (Hgs : setup_ok (g (compute_size (k_shape c))) (prod (k_shape c))) by (rewrite compute_size_prod; apply Hg; apply prod_nn; exact Hs).
  pose proof Hv as (V1 & V2 & V3 & V4 & V5).
  assert (Hop : operands_ok (k_shape c) (inst mem e)) by (apply operands_fit; assumption).
  assert (HA : forall tt, (tt = true -> Forall (fun s => s = k_shape c) (operand_shapes e)) -> assignable (g (compute_size (k_shape c))) m c e tt mem).
  { intros tt Htt. split; [exact Hgs|]. split; [exact Hw|]. split; [exact Htr|]. split; [apply Hof|]. split; [exact Hop|].
    split; [exact V2|]. split; [exact V3|]. split; [apply V4|]. intros H. apply (leaves_shapes e (fun s => s = k_shape c)). auto. }
  assert (Hrsh : real_shape sh) by (eapply broadcast_is_shape; eassumption).
  unfold v_operator_assign. rewrite E. destruct (zlist_eqb sh (k_shape c)) eqn:Esh.
  - apply zlist_eqb_eq in Esh. subst sh. rewrite Eb. destruct b.
    + destruct (c_construct_ok g TL TD DL rs v Hg HDL Hrs mem e HTL Hv) as (tmp & Hiff & Hwt & (Hbt & Hval)); auto.
      { unfold rank_matches. destruct TD; [|exact I]. intros sh' Hsh'. rewrite <- HTD. f_equal. eapply broadcast_of_unique; eauto. tauto. }
      assert (Est : ct_shape tmp = k_shape c) by (eapply broadcast_of_unique; eauto; tauto).
      destruct (temporary_ok m c tmp mem Hwt Est Hw Htr Hof) as (mem' & Hiff2 & Hpw).
      exists mem'. split.
      * intros r. split.
        -- intros (x & Hx & Hr). apply Hiff in Hx. subst x. apply Hiff2. exact Hr.
        -- intros Hr. exists (Done tmp). split; [apply Hiff; reflexivity|]. apply Hiff2. exact Hr.
      * eapply temporary_value; try eassumption. rewrite <- Est. exact Hval.
    + destruct (assign_data_ok (g (compute_size (k_shape c))) m c e t mem) as (mem' & Hiff & Hpw); auto.
      { eapply view_elementwise; eauto. }
      exists mem'. split; [|exact Hpw]. intros r. unfold v_assign_xexpression. rewrite E, fits_broadcastable by assumption.
      unfold v_assign_data. split.
      * intros (d & Hdd & ->). apply Hiff in Hdd. subst d. reflexivity.
      * intros ->. exists (Ok mem'). split; [apply Hiff; reflexivity|reflexivity].
  - assert (Hne : sh <> k_shape c) by (intros ->; rewrite (proj2 (zlist_eqb_eq _ _) eq_refl) in Esh; discriminate).
    assert (Hzn : zlist_eqb (k_shape c) sh = false).
    { destruct (zlist_eqb (k_shape c) sh) eqn:Ez; [apply zlist_eqb_eq in Ez; congruence|reflexivity]. }
    destruct (xbroadcast_lemma sh (k_shape c) Hrsh Hrc) as (_ & _ & HX). rewrite HX by (apply fits_broadcastable; exact Hfs).
    assert (Hplan : forall gs m' c', broadcast_plan gs m' c' e sh (k_shape c) = stepper_plan gs m' c' e /\
              forall e' : aexp V, broadcast_plan gs m' c' e' sh (k_shape c) = stepper_plan gs m' c' e').
    { intros. unfold broadcast_plan. rewrite Hzn, andb_false_r. split; reflexivity. }
    assert (Hdirect : (prod (k_shape c) <> 0 -> independent c e) -> exists mem',
       (forall r, match broadcastable (k_shape c) (k_shape c) with
                | Ok true => v_run c e (broadcast_plan (g (compute_size (k_shape c))) m c e sh (k_shape c)) mem r
                | Ok false => r = Threw broadcast_error mem
                | Throw x => r = Threw x mem
                | UB => r = Undefined
                end <-> r = Done mem') /\ pointwise c e mem mem mem').
    { intros Hi. rewrite fits_broadcastable by apply fits_self. rewrite (proj1 (Hplan _ _ _)).
      destruct (strategies_lemma V (g (compute_size (k_shape c))) m c e false mem) as (mem' & Hpw & _ & _ & _ & (phs & Ep & Hph)).
      - apply HA. discriminate.
      - eapply view_elementwise; eauto.
      - exists mem'. split; [|exact Hpw]. rewrite Ep. apply v_run_ok. exact Hph. }
    destruct (compute_size (k_shape c) =? 0) eqn:E0.
    + apply Hdirect. rewrite compute_size_prod in E0. apply Z.eqb_eq in E0. lia.
    + rewrite Eb. destruct b; [|apply Hdirect; auto].
      destruct (resize_wf TL TD DL rs Hrs HDL (c_fresh TL TD v) (k_shape c)) as (a1 & E1 & Hw1 & Es1); auto.
      { apply fresh_wf. exact HTL. }
      pose proof (wf_writable TL TD _ Hw1) as Hw1'.
      destruct (strategies_lemma V (g (compute_size (k_shape c))) (c_meta TL TD a1) (c_strided a1) (frozen mem e) false (ct_data a1))
        as (mem1 & Hpw1 & _ & _ & _ & (phs1 & Ep1 & Hph1)).
      { split; [cbn; rewrite Es1; exact Hgs|]. split; [exact Hw1'|]. split; [apply wf_truthful; exact Hw1|]. split; [intros _ H; discriminate H|].
        cbn [c_strided k_shape]. rewrite Es1, frozen_inst. split; [exact Hop|]. split; [exact V2|].
        split; [apply frozen_leaves; exact V3|]. split; [apply frozen_leaves; apply V4|discriminate]. }
      { apply closed_elementwise; [apply frozen_closed|apply frozen_pure]. }
      set (tmp := with_data a1 mem1).
      assert (Hwt : well_formed TL TD tmp) by (apply wf_with_data; [exact Hw1|apply Hpw1]).
      destruct (temporary_ok m c tmp mem Hwt Es1 Hw Htr Hof) as (mem' & Hiff2 & Hpw).
      assert (Hcon : forall x, c_construct_broadcast g TL TD DL rs v (frozen mem e) sh (k_shape c) x <-> x = Done tmp).
      { intros x. unfold c_construct_broadcast. rewrite E1. rewrite (proj2 (Hplan _ _ _)), Ep1. split.
        - intros (d & Hd1 & ->). apply (v_run_ok (c_strided a1) _ _ _ _ Hph1) in Hd1. subst d. reflexivity.
        - intros ->. exists (Done mem1). split; [apply (v_run_ok (c_strided a1) _ _ _ _ Hph1); reflexivity|reflexivity]. }
      exists mem'. split.
      * intros r. split.
        -- intros (x & Hx & Hr). apply Hcon in Hx. subst x. apply Hiff2. exact Hr.
        -- intros Hr. exists (Done tmp). split; [apply Hcon; reflexivity|]. apply Hiff2. exact Hr.
      * eapply temporary_value; try eassumption. intros ix Hix. destruct Hpw1 as (_ & Hv1 & _).
        cbn [c_strided k_shape] in Hv1. rewrite Es1 in Hv1. destruct (Hv1 ix Hix) as (x & X1 & X2). rewrite frozen_inst in X1.
        exists x. split; [exact X1|]. unfold elt. erewrite dot_element; [exact X2|exact Hwt|]. cbn. rewrite Es1. exact Hix.
Qed.

(** Shapes that do not fit. *)
Lemma all_leaves_true (e : sexp V) : all_leaves (fun _ _ => True) e.
Proof. induction e as [y|k b|s f|f args IH] using sexp_ind'; cbn; auto. apply fr_and. assumption. Qed.
Lemma compatible_dec (ss : list (list Z)) : compatible ss \/ ~ compatible ss.
Proof.
  destruct (Forall_Exists_dec (fun s => Forall (fun t => Forall (fun k => axis s k = 1 \/ axis t k = 1 \/ axis s k = axis t k)
    (seq 0 (length s))) ss)) with (l := ss) as [H|H].
  - intros s. apply Forall_dec. intros t. apply Forall_dec. intros k.
    destruct (Z.eq_dec (axis s k) 1); [left; auto|]. destruct (Z.eq_dec (axis t k) 1); [left; auto|].
    destruct (Z.eq_dec (axis s k) (axis t k)); [left; auto|right; tauto].
  - left. intros s t k Hs Ht. rewrite Forall_forall in H. specialize (H s Hs). rewrite Forall_forall in H. specialize (H t Ht).
    rewrite Forall_forall in H. destruct (Nat.lt_ge_cases k (length s)) as [Hk|Hk].
    + apply H. apply in_seq. lia.
    + left. unfold axis. apply nth_overflow. rewrite rev_length. lia.
  - right. intros Hc. apply Exists_exists in H. destruct H as (s & Hs & H). apply H. apply Forall_forall. intros t Ht.
    apply Forall_forall. intros k _. apply Hc; assumption.
Qed.
Lemma noalias_view_throws m (c : container) (e : aexp V) (mem : list V) : valid_operands g mem e -> ~ fits_view e c ->
  forall r, v_assign_xexpression g m c e mem r <-> r = Threw broadcast_error mem.
Proof.
  intros Hv H r. pose proof (valid_real _ _ _ Hv) as Hreal. unfold v_assign_xexpression.
  assert (Hdec : compatible (operand_shapes e) \/ rhs_shape e = Throw broadcast_error).
  { destruct (rhs_shape_ok e Hreal) as [_ H2]. destruct (compatible_dec (operand_shapes e)) as [Hc|Hc]; auto. }
  destruct Hdec as [Hc|Hc]; [|rewrite Hc; tauto].
  destruct (proj1 (rhs_shape_ok e Hreal) Hc) as (sh & t & E & Hb & _). rewrite E.
  destruct (broadcastable_lemma sh (k_shape c)) as (b & -> & Hbb). destruct b; [|tauto].
  exfalso. apply H. intros s Hin. assert (F : fits s sh) by (eapply broadcast_fits; eassumption).
  destruct (proj1 Hbb eq_refl) as [L A]. destruct F as [L' A']. split; [lia|].
  intros k. destruct (A' k) as [Ak|Ak]; [left; exact Ak|]. rewrite Ak. apply A.
Qed.

Lemma view_throws m (c : container) (e : aexp V) (mem : list V) : real_shape (k_shape c) -> valid_operands g mem e ->
  (~ compatible (k_shape c :: operand_shapes e) \/ (~ fits_view e c /\ own_leaves (fun _ => False) e)) ->
  forall r, v_operator_assign g TL TD DL DT rs v sv m c e mem r <-> r = Threw broadcast_error mem.
Proof.
  intros Hrc Hv H r. pose proof (valid_real _ _ _ Hv) as Hreal. pose proof (real_is_shape _ Hrc) as Hs. unfold v_operator_assign.
  assert (Hdec : compatible (operand_shapes e) \/ rhs_shape e = Throw broadcast_error).
  { destruct (rhs_shape_ok e Hreal) as [_ H2]. destruct (compatible_dec (operand_shapes e)) as [Hc|Hc]; auto. }
  destruct Hdec as [Hc|Hc]; [|rewrite Hc; tauto].
  destruct (proj1 (rhs_shape_ok e Hreal) Hc) as (sh & t & E & Hb & _). rewrite E.
  assert (Hrsh : real_shape sh) by (eapply broadcast_is_shape; eassumption).
  destruct (zlist_eqb sh (k_shape c)) eqn:Esh.
  - apply zlist_eqb_eq in Esh. subst sh. exfalso. destruct H as [H|[H _]]; apply H.
    + apply fits_compatible with (c := k_shape c). intros s [<-|Hin]; [apply fits_self|]. eapply broadcast_fits; eassumption.
    + intros s Hin. eapply broadcast_fits; eassumption.
  - destruct (xbroadcast_lemma sh (k_shape c) Hrsh Hrc) as (X1 & X2 & _).
    destruct (xbroadcast_shape sh (k_shape c)) as [out|x|] eqn:EX.
    + assert (Hx : (length sh <= length (k_shape c))%nat /\ compatible [sh; k_shape c]).
      { destruct (Nat.le_gt_cases (length sh) (length (k_shape c))) as [L|L].
        - destruct (compatible_dec [sh; k_shape c]) as [C|C]; [auto|]. exfalso. assert (Ok out = Throw broadcast_error) by (apply X2; tauto). discriminate.
        - exfalso. assert (Ok out = Throw broadcast_error) by (apply X2; lia). discriminate. }
      destruct (X1 Hx) as (out' & Eo & Hbo). injection Eo as <-.
      assert (F1 : fits sh out) by (apply (broadcast_fits [sh; k_shape c]); [exact Hbo|left; reflexivity]).
      assert (F2 : fits (k_shape c) out) by (apply (broadcast_fits [sh; k_shape c]); [exact Hbo|right; left; reflexivity]).
      assert (F3 : forall s, In s (operand_shapes e) -> fits s out).
      { intros s Hin. assert (F : fits s sh) by (eapply broadcast_fits; eassumption). destruct F as [L A], F1 as [L' A'].
        split; [lia|]. intros k. destruct (A k) as [Ak|Ak]; [left; exact Ak|]. rewrite Ak. apply A'. }
      destruct H as [H|[H Hown]].
      * exfalso. apply H. apply fits_compatible with (c := out). intros s [<-|Hin]; auto.
      * assert (Hck : (if compute_size out =? 0 then Ok false else check_overlap c e) = Ok false).
        { rewrite compute_size_prod. destruct (prod out =? 0) eqn:E0; [reflexivity|]. apply Z.eqb_neq in E0. unfold check_overlap.
          destruct (Z.eq_dec (prod (k_shape c)) 0) as [Z0|Z0].
          - exfalso. apply E0. eapply fits_zero; [exact Hs|exact F2|exact Z0].
          - rewrite dst_range_some by assumption.
            destruct (expr_overlaps_ok (Z.min (addr_first c) (addr_last c), Z.max (addr_first c) (addr_last c)) e out) as (b & Eb & Hbb); auto.
            + cbn. lia.
            + apply real_is_shape. apply (broadcast_is_shape [sh; k_shape c]); [exact Hbo|constructor; [assumption|constructor; [assumption|constructor]]].
            + rewrite Eb. f_equal. apply Hbb. eapply own_leaves_imp with (P := fun _ => False) (Q := fun _ _ => True) (mem := []); [exact Hown| |tauto].
              apply all_leaves_true. }
        rewrite Hck. destruct (broadcastable_lemma out (k_shape c)) as (b & -> & Hbb). destruct b; [|tauto].
        exfalso. apply H. intros s Hin. destruct (proj1 Hbb eq_refl) as [L A]. destruct (F3 s Hin) as [L' A']. split; [lia|].
        intros k. destruct (A' k) as [Ak|Ak]; [left; exact Ak|]. rewrite Ak. apply A.
    + destruct (compatible_dec [sh; k_shape c]) as [C|C]; [destruct (Nat.le_gt_cases (length sh) (length (k_shape c))) as [L|L]|].
      * destruct (X1 (conj L C)) as (o & Eo & _). discriminate.
      * assert (Throw x = Throw broadcast_error) as Ex by (rewrite <- X2; [reflexivity|lia]). injection Ex as ->. tauto.
      * assert (Throw x = Throw broadcast_error) as Ex by (rewrite <- X2; [reflexivity|tauto]). injection Ex as ->. tauto.
    + exfalso. destruct (compatible_dec [sh; k_shape c]) as [C|C]; [destruct (Nat.le_gt_cases (length sh) (length (k_shape c))) as [L|L]|].
      * destruct (X1 (conj L C)) as (o & Eo & _). discriminate.
      * assert (@UB (list Z) = Throw broadcast_error) as Ex by (rewrite <- X2; [reflexivity|lia]). discriminate.
      * assert (@UB (list Z) = Throw broadcast_error) as Ex by (rewrite <- X2; [reflexivity|tauto]). discriminate.
Qed.
End Views.
