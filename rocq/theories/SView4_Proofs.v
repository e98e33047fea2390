(** Proofs about strided views: the property lemmas. *)
From Coq Require Import List ZArith Bool Lia.
From Verif Require Import Prelude PreludeFacts Strides_Model Strides_Spec Strides_Proofs Slice_Model Slice_Spec Slice_Proofs
  Container_Model Container_Spec Container_Proofs
  View_Spec SView_Model SView_Spec SView_Proofs SView2_Proofs SView3_Proofs.
Import ListNotations.
Open Scope Z_scope.

Lemma strided_view_lemma : forall (T : layout) (e : xexp) (ss : list item) (junk : list Z),
  T = row_major \/ T = column_major -> wf_exp e -> (ellipses ss <= 1)%nat ->
  valid false (expand (length (x_shape e)) ss) (x_shape e) ->
  exists v, strided_view T e ss junk = Ok v /\
    view_shape (expand (length (x_shape e)) ss) (x_shape e) (w_shape v) /\
    wf_exp (as_exp v) /\ x_shape (as_exp v) = w_shape v /\
    (forall ix, in_bounds (w_shape v) ix ->
      exists jx, source_index (expand (length (x_shape e)) ss) (x_shape e) ix jx /\
        in_bounds (x_shape e) jx /\ reads v ix (x_elem e jx)) /\
    (w_layout v <> dynamic -> w_layout v = x_layout e /\ is_order (w_layout v) /\
      forall ix, in_bounds (w_shape v) ix -> element_offset (w_strides v) ix = rank (w_layout v) (w_shape v) ix).
Proof.
  intros T e ss junk HT He Hel Hv. unfold strided_view.
  assert (Hg : get_strides T e = Ok (src_strides T e)) by (apply get_strides_ok; auto).
  rewrite Hg. cbn [bind].
  pose proof (src_strides_length T e He) as Hsl.
  destruct (fill_args_ok (x_shape e) (src_strides T e) (get_offset e) (x_layout e) ss junk Hsl Hel Hv)
    as (d & v & w & sh' & st' & m & Hf & Hm & F).
  rewrite Hf. cbn [bind]. destruct He as (Hs & Hd).
  destruct (filled_index _ _ _ _ _ _ _ _ F Hsl Hs Hv) as (I1 & I2 & I3).
  assert (HL : length (w ++ st') = length (v ++ sh')).
  { destruct (filled_lens _ _ _ _ _ _ _ _ F). rewrite !app_length, (filled_rest _ _ _ _ _ _ _ _ F Hsl). lia. }
  set (lay := if m then x_layout e else dynamic).
  pose proof (make_view_ok T e _ _ (get_offset e + d) lay HL) as Hmk.
  rewrite Hmk. eexists. split; [reflexivity|]. cbn [w_shape w_layout w_strides].
  destruct (make_view_wf _ _ _ _ _ _ _ I2 HL Hmk) as (W1 & W2 & W3). cbn [w_shape] in *.
  repeat split; try exact I1; try apply W1; auto.
  - intros ix Hi. destruct (I3 ix Hi) as (jx & J1 & J2 & J3). exists jx. split; [exact J1|]. split; [exact J2|].
    apply (view_reads T e _ _ _ _ _ ix jx (conj Hs Hd) HT HL Hmk); auto. lia.
  - unfold lay in *. destruct m; congruence.
  - unfold lay in *. destruct m; [|congruence]. destruct (strides_match_sound_lemma _ _ _ _ HL Hm). auto.
  - unfold lay in *. destruct m; [|congruence]. destruct (strides_match_sound_lemma _ _ _ _ HL Hm) as (Q1 & Q2).
    intros ix Hi. specialize (Q2 ix Hi).
    rewrite element_offset_same in Q2 |- * by (rewrite ?adapted_length, ?HL; apply in_bounds_length; auto).
    rewrite dot_adapted by auto. rewrite Q2. unfold rank. reflexivity.
Qed.

Lemma strided_view_throws_lemma : forall (T : layout) (e : xexp) (ss : list item) (junk : list Z),
  T = row_major \/ T = column_major -> wf_exp e ->
  (2 <= ellipses ss)%nat \/ (length (x_shape e) < consumed ss)%nat ->
  strided_view T e ss junk = Throw runtime_error.
Proof.
  intros T e ss junk HT He H. unfold strided_view.
  rewrite get_strides_ok by auto. cbn [bind]. unfold fill_args.
  destruct (le_lt_dec 2 (ellipses ss)) as [L|L].
  - rewrite count_two by lia. reflexivity.
  - rewrite count_loop by lia. cbn [bind].
    destruct (Z.of_nat (length (x_shape e)) - Z.of_nat (consumed ss) <? 0) eqn:E; [reflexivity|].
    apply Z.ltb_ge in E. lia.
Qed.

(** Elements of a view are distinct elements of the expression. *)
Lemma source_inj us sh ix jx : source_index us sh ix jx -> forall ix',
  valid false us sh -> source_index us sh ix' jx -> ix = ix'.
Proof.
  induction 1; intros ix' Hv Hi; inversion Hi; subst; inversion Hv; subst; auto; try discriminate.
  - f_equal. auto.
  - f_equal. auto.
  - f_equal; [nia|]. auto.
Qed.

Lemma source_fun us sh ix jx : source_index us sh ix jx -> forall jx', source_index us sh ix jx' -> jx = jx'.
Proof.
  induction 1; intros jx' Hi; inversion Hi; subst; auto; try (f_equal; auto; fail).
  - assert (k0 = k) by lia. subst. f_equal; [congruence|auto].
  - assert (k0 = k) by lia. subst. f_equal; [congruence|auto].
Qed.

Lemma consistent_wf {V} (c : cont V) : consistent c -> wf_exp (of_cont c).
Proof. intros (A & B & _). split; cbn; auto. Qed.

Lemma write_lemma : forall (V : Type) (T : layout) (c : cont V) (ss : list item) (junk : list Z) (v : sview) (ix : list Z) (x : V),
  T = row_major \/ T = column_major -> consistent c -> (ellipses ss <= 1)%nat ->
  valid false (expand (length (ct_shape c)) ss) (ct_shape c) ->
  strided_view T (of_cont c) ss junk = Ok v -> in_bounds (w_shape v) ix ->
  exists jx c', source_index (expand (length (ct_shape c)) ss) (ct_shape c) ix jx /\ in_bounds (ct_shape c) jx /\
    w_assign v ix x c = Ok c' /\
    ct_shape c' = ct_shape c /\ ct_strides c' = ct_strides c /\ ct_layout c' = ct_layout c /\
    elt c' jx = Ok x /\
    forall jx', in_bounds (ct_shape c) jx' -> jx' <> jx -> elt c' jx' = elt c jx'.
Proof.
  intros V T c ss junk v ix x HT Hc He Hv Hs Hi.
  destruct (strided_view_lemma T (of_cont c) ss junk HT (consistent_wf c Hc) He Hv) as (v' & E & _ & _ & _ & R & _).
  rewrite Hs in E. injection E as <-.
  destruct (R ix Hi) as (jx & J1 & J2 & (J3 & _)). cbn [of_cont x_shape] in *.
  unfold x_elem, of_cont in J3. cbn in J3. rewrite Z.add_0_l in J3.
  unfold w_assign. rewrite J3. cbn [bind].
  pose proof (consistent_accesses c Hc jx J2) as Hb.
  rewrite wrz_ok by lia. cbn [bind]. eexists jx, _. split; [exact J1|]. split; [exact J2|]. split; [reflexivity|].
  cbn [ct_shape ct_strides ct_layout]. repeat split.
  - unfold elt. cbn [ct_data ct_strides]. apply rdz_ok; [lia|]. rewrite nth_error_upd_same by lia. reflexivity.
  - intros jx' Hj' Hne. unfold elt. cbn [ct_data ct_strides].
    pose proof (consistent_accesses c Hc jx' Hj') as Hb'.
    destruct Hc as (_ & _ & _ & _ & l & Hl & _ & Hr).
    destruct (nth_error_lt_ex (ct_data c) (Z.to_nat (element_offset (ct_strides c) jx')) ltac:(lia)) as (y & Hy).
    rewrite (rdz_ok (ct_data c) _ y (proj1 Hb') Hy). apply rdz_ok; [lia|].
    rewrite nth_error_upd_other; auto. intros Heq.
    assert (element_offset (ct_strides c) jx' = element_offset (ct_strides c) jx) as Ho by lia.
    rewrite !Hr in Ho by auto. apply Hne. eapply rank_inj; eauto.
Qed.

Lemma compose_lemma : forall (T : layout) (e : xexp) (ss1 ss2 : list item) (junk1 junk2 : list Z) (v1 : sview),
  T = row_major \/ T = column_major -> wf_exp e -> x_direct e = true ->
  (ellipses ss1 <= 1)%nat -> (ellipses ss2 <= 1)%nat ->
  valid false (expand (length (x_shape e)) ss1) (x_shape e) ->
  strided_view T e ss1 junk1 = Ok v1 ->
  valid false (expand (length (w_shape v1)) ss2) (w_shape v1) ->
  exists v2, strided_view T (as_exp v1) ss2 junk2 = Ok v2 /\
    view_shape (expand (length (w_shape v1)) ss2) (w_shape v1) (w_shape v2) /\
    forall ix, in_bounds (w_shape v2) ix ->
      exists jx kx, source_index (expand (length (w_shape v1)) ss2) (w_shape v1) ix jx /\
        source_index (expand (length (x_shape e)) ss1) (x_shape e) jx kx /\ in_bounds (x_shape e) kx /\
        reads v2 ix (x_elem e kx).
Proof.
  intros T e ss1 ss2 junk1 junk2 v1 HT He Hd E1 E2 V1 S1 V2.
  destruct (strided_view_lemma T e ss1 junk1 HT He E1 V1) as (v1' & A1 & A2 & A3 & A4 & A5 & _).
  rewrite S1 in A1. injection A1 as <-.
  rewrite <- A4 in V2.
  destruct (strided_view_lemma T (as_exp v1) ss2 junk2 HT A3 E2 V2) as (v2 & B1 & B2 & B3 & B4 & B5 & _).
  rewrite A4 in B2, B5. exists v2. split; [exact B1|]. split; [exact B2|].
  intros ix Hi. destruct (B5 ix Hi) as (jx & J1 & J2 & J3). destruct (A5 jx J2) as (kx & K1 & K2 & K3).
  exists jx, kx. repeat split; auto; try apply J1; try apply K2.
  all: assert (Hb : x_direct (w_base v1) = true) by
    (unfold strided_view in S1; rewrite get_strides_ok in S1 by auto; cbn [bind] in S1; apply bind_ok in S1;
     destruct S1 as ([[[sh st] off] l] & _ & S1); unfold make_view in S1; apply bind_ok in S1;
     destruct S1 as ([st2 [bs|]] & _ & S1); [injection S1 as <-; exact Hd|discriminate]).
  all: assert (Hx : x_elem (as_exp v1) jx = x_elem e kx) by
    (apply as_exp_elem; auto; destruct A3 as (A31 & A32);
     assert (Q : x_strides (as_exp v1) = w_strides v1) by (unfold as_exp; rewrite Hb; reflexivity);
     assert (Q2 : x_direct (as_exp v1) = true) by (unfold as_exp; rewrite Hb; reflexivity);
     rewrite <- Q, A32, A4 by auto; apply in_bounds_length; auto).
  all: rewrite <- Hx; apply J3.
Qed.

Lemma negative_int_lemma :
  let e := mk_xexp true [3] [1] 0 row_major in
  exists v, wf_exp e /\ strided_view row_major e [Pick (UInt (-1))] [] = Ok v /\ w_shape v = [] /\
    source_index [UInt (-1)] [3] [] [2] /\ x_elem e [2] = Slot 2 /\ w_call v [] = Ok (Slot (-1)).
Proof.
  cbn zeta. eexists. split; [split; [repeat constructor; lia|reflexivity]|].
  split; [vm_compute; reflexivity|]. split; [reflexivity|]. split; [|split; vm_compute; reflexivity].
  change [2] with [from_end 3 (-1)]. constructor. constructor.
Qed.

Lemma newaxis_layout_lemma :
  let e := mk_xexp true [3] [1] 0 row_major in
  exists j1 j2 v1 v2, wf_exp e /\ valid false [UNewaxis; UAll] [3] /\
    strided_view row_major e [Pick UNewaxis; Pick UAll] j1 = Ok v1 /\
    strided_view row_major e [Pick UNewaxis; Pick UAll] j2 = Ok v2 /\ w_layout v1 <> w_layout v2.
Proof.
  cbn zeta. exists [0], [7]. eexists. eexists. split; [split; [repeat constructor; lia|reflexivity]|].
  split; [repeat constructor|]. split; [vm_compute; reflexivity|]. split; [vm_compute; reflexivity|].
  cbn. discriminate.
Qed.
