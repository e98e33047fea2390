(** Proofs about quantile: the elements of the result. *)
From Coq Require Import List ZArith Bool Lia QArith Qcanon Qround Permutation Sorted.
From Verif Require Import Prelude PreludeFacts Strides_Model Strides_Spec Strides_Proofs Access_Model Broadcast_Model Broadcast_Spec Container_Model Container_Spec Container_Proofs
  SView_Model SView_Spec SView4_Proofs Stepper_Model Stepper_Spec Stepper_Proofs Stepper4_Proofs Semantic_Spec Semantic3_Proofs Reshape_Model Reduce_Model Reduce_Spec Reduce4_Proofs Reduce5_Proofs Reduce9_Proofs Reduce13_Proofs
  Diff_Spec Diff4_Proofs Accum_Spec Sort_Model Sort_Spec Sort3_Proofs Sort6_Proofs Sort8_Proofs Manip_Model Manip_Spec Manip2_Proofs Stats_Model Stats_Spec Stats_Proofs
  Quantile_Model Quantile_Spec Quantile_Proofs Quantile2_Proofs.
Import ListNotations.
Open Scope Z_scope.

(** ** The order of the numbers *)
Lemma qc_lt_spec x y : qc_lt x y = true <-> (x < y)%Qc.
Proof. unfold qc_lt. rewrite Qclt_alt. destruct (x ?= y)%Qc; split; congruence. Qed.
Lemma qc_lt_not x y : qc_lt x y = false <-> (y <= x)%Qc.
Proof.
  rewrite <- not_true_iff_false, qc_lt_spec. split; [apply Qcnot_lt_le|]. intros H G. apply (Qcle_not_lt _ _ H G).
Qed.
Lemma qc_swo l : strict_weak_order qc_lt l.
Proof.
  split; [|split].
  - intros x _. apply qc_lt_not. apply Qcle_refl.
  - intros x y z _ _ _. rewrite !qc_lt_spec. apply Qclt_trans.
  - intros x y z _ _ _. rewrite !qc_lt_not. intros A B C D. split; eapply Qcle_trans; eassumption.
Qed.
Lemma qc_equiv x y : equiv qc_lt x y = true -> x = y.
Proof. unfold equiv. rewrite andb_true_iff, !negb_true_iff, !qc_lt_not. intros [A B]. apply Qcle_antisym; assumption. Qed.
Lemma increasing_sorted s : increasing s -> sorted qc_lt s.
Proof.
  unfold increasing, sorted. induction s as [|x s IH]; intros H; constructor.
  - apply IH. intros i j Hij. apply (H (S i) (S j)). cbn. lia.
  - rewrite Forall_forall. intros y Hy. apply qc_lt_not. apply (In_nth _ _ 0%Qc) in Hy as (k & Hk & <-). apply (H 0%nat (S k)). cbn. lia.
Qed.

(** ** The sum of the two parts *)
Section Parts.
Variables (pre post : list Z) (n : Z) (ks : list Z) (gs : list Qc) (part : cont Qc) (ev : list Z -> Qc) (q : nat).
Hypothesis (Hpre : is_shape pre) (Hpost : is_shape post) (Hn : 0 <= n) (Hb1 : Forall (fun d => d < 2 ^ 64) pre) (Hb2 : Forall (fun d => d < 2 ^ 64) post).
Hypothesis Hpart : array part (pre ++ n :: post) ev.
Hypothesis Hks : Forall (fun k => 0 <= k < n) ks.
Hypothesis Hlk : 2 * Z.of_nat q < 2 ^ 64.
Hypothesis Hq : length ks = (2 * q)%nat.
Hypothesis Hg : length gs = length ks.
Hypothesis Hdim : Z.of_nat (length (pre ++ n :: post)) < 2 ^ 63.
Let ax := length pre.
Let m := Z.of_nat (length ks).
Let kshape := pre ++ m :: post.
Let Q := Z.of_nat q.

Definition combined (x y : list Z) (i : nat) : Qc :=
  (nth i gs 0 * ev (x ++ nth i ks 0%Z :: y)%list + nth (q + i)%nat gs 0 * ev (x ++ nth (q + i)%nat ks 0%Z :: y)%list)%Qc.

Definition rest : res rexp :=
  let* '(kshape, e_kth) := fancy_indexing row_major part ks (Z.of_nat ax) in
  let* gshape := wrz (repeat 1 (length (pre ++ n :: post))) (Z.of_nat ax) (Z.of_nat (length gs)) in
  let* gv := reshape_view row_major (Some 64) (mk_xexp false [Z.of_nat (length gs)] [] 0 row_major) gshape in
  let* g := view_operand gv (at_one (rdz (map Some gs))) in
  let e_kth_g := XFun f_times [e_kth; g] in
  let* s1 := wrz (unsqueeze_shape kshape (Z.to_nat (Z.of_nat ax))) (Z.of_nat ax) 2 in
  let* m := rdz s1 (Z.of_nat ax + 1) in
  let* s2 := wrz s1 (Z.of_nat ax + 1) (m / 2) in
  let* pv := reshape_view row_major None (mk_xexp false kshape [] 0 row_major) s2 in
  let* po := view_operand pv (fun ix => x_value ix e_kth_g) in
  let* q := sum_axes s2 po [Z.of_nat ax] false in
  let* r := evaluated row_major q in
  let* v := moveaxis row_major (of_cont r) (Z.of_nat ax) 0 in
  Ok (mk_rexp (w_shape v) (fun ix => let* k := w_call v ix in match k with Slot p => rdz (ct_data r) p | Elem _ => UB end)).

Lemma rest_lemma : exists r, rest = Ok r /\ q_shape r = Q :: pre ++ post /\
  forall x y i, in_bounds pre x -> in_bounds post y -> (i < q)%nat -> q_at r (Z.of_nat i :: x ++ y) = Ok (Some (combined x y i)).
Proof.
  assert (Hk : is_shape kshape) by (apply shape_mid; [assumption|unfold m; lia|assumption]).
  assert (Hm : Z.of_nat (length ks) < 2 ^ 64) by lia.
  destruct (fancy_lemma pre post n ks part ev Hpre Hpost Hb1 Hb2 Hpart Hks Hm) as (ck & bk & Ek & Eks & Hok & Hvk). fold ax m kshape in Ek, Eks, Hvk.
  destruct (coefficients_lemma pre post ks Hm gs Hg) as (gv & cg & bg & Eg & Eg2 & Hfg & Hokg & Hvg). fold ax m kshape in Hfg, Hvg.
  unfold rest. rewrite Ek. cbn [bind].
  replace (repeat 1 (length (pre ++ n :: post))) with (repeat 1 (length pre) ++ 1 :: repeat 1 (length post)).
  2:{ rewrite app_length. cbn [length]. replace (length pre + S (length post))%nat with (length pre + (1 + length post))%nat by lia. rewrite !repeat_app. reflexivity. }
  replace (wrz (repeat 1 (length pre) ++ 1 :: repeat 1 (length post)) (Z.of_nat ax) (Z.of_nat (length gs))) with (@Ok (list Z) (repeat 1 (length pre) ++ m :: repeat 1 (length post))).
  2:{ rewrite Hg. fold m. symmetry. replace ax with (length (repeat 1 (length pre))) by (unfold ax; apply repeat_length). apply wrz_mid. }
  cbn [bind]. fold m in Eg. rewrite Eg. cbn [bind]. rewrite Eg2. cbn [bind].
  assert (Eu : unsqueeze_shape kshape (Z.to_nat (Z.of_nat ax)) = pre ++ 1 :: m :: post).
  { rewrite Nat2Z.id. unfold unsqueeze_shape, kshape, ax. rewrite firstn_app, skipn_app, Nat.sub_diag, firstn_all, skipn_all. cbn. rewrite app_nil_r. reflexivity. }
  rewrite Eu. unfold ax at 1. rewrite wrz_mid. cbn [bind].
  replace (Z.of_nat ax + 1) with (Z.of_nat (length (pre ++ [2]))) by (rewrite app_length; cbn; unfold ax; lia).
  replace (pre ++ 2 :: m :: post) with ((pre ++ [2]) ++ m :: post) by (rewrite <- app_assoc; reflexivity).
  rewrite rdz_mid. cbn [bind]. rewrite wrz_mid. cbn [bind].
  assert (Em : m = 2 * Q) by (unfold m, Q; lia). replace (m / 2) with Q by (rewrite Em, Z.mul_comm, Z.div_mul; lia).
  replace ((pre ++ [2]) ++ Q :: post) with (pre ++ 2 :: Q :: post) by (rewrite <- app_assoc; reflexivity). set (s2 := pre ++ 2 :: Q :: post).
  set (F := fun (x y : list Z) (i : Z) => (ev (x ++ nth (Z.to_nat i) ks 0%Z :: y)%list * nth (Z.to_nat i) gs 0)%Qc).
  set (w := fun jx => Some (F (firstn ax jx) (skipn (S ax) jx) (nth ax jx 0)) : num).
  assert (Hs2 : is_shape s2) by (apply shape_mid; [assumption|lia|constructor; [unfold Q; lia|assumption]]).
  destruct (operand_lemma row_major None kshape s2 (fun ix => x_value ix (XFun f_times [XStrided ck bk; XStrided cg bg])) w) as (pv & cp & bp & Ep & Ep2 & Ecp & Hokp & Hvp).
  { left; reflexivity. }
  { exact Hk. }
  { exact Hs2. }
  { apply Forall_app. split; [assumption|]. constructor; [lia|]. constructor; [unfold Q; lia|assumption]. }
  { unfold s2, kshape. rewrite !prod_app, !prod_cons, Em. ring. }
  { intros jx Hj. cbn [x_value map seqM]. specialize (Hvk jx Hj). specialize (Hvg jx Hj). cbn [x_value] in Hvk, Hvg. rewrite Hvk. cbn [bind]. rewrite Hvg. cbn [bind].
    destruct (split_bounds _ _ _ _ Hj) as (x & i & y & -> & Lx & Ly & Hx & Hi & Hy). unfold w, F, pick, ax. rewrite <- Lx, nth_mid, upd_mid.
    rewrite firstn_app, Nat.sub_diag, firstn_all. cbn [firstn]. rewrite app_nil_r. rewrite skipn_app, skipn_all2 by lia. replace (S (length x) - length x)%nat with 1%nat by lia. reflexivity. }
  rewrite Ep. cbn [bind]. rewrite Ep2. cbn [bind].
  set (pe := fun jx => F (firstn ax jx) (skipn (S (S ax)) jx) (nth ax jx 0 * Q + nth (S ax) jx 0)).
  assert (Epe : forall x h i y, length x = ax -> pe (x ++ h :: i :: y) = F x y (h * Q + i)).
  { intros x h i y L. unfold pe. rewrite <- L. rewrite firstn_app, Nat.sub_diag, firstn_all. cbn [firstn]. rewrite app_nil_r. rewrite skipn_app, skipn_all2 by lia.
    replace (S (S (length x)) - length x)%nat with 2%nat by lia. cbn [skipn app]. rewrite nth_mid. rewrite app_nth2 by lia. replace (S (length x) - length x)%nat with 1%nat by lia. reflexivity. }
  assert (Hfin : finite s2 (XStrided cp bp) pe).
  { split.
    - unfold operands_ok. cbn [all_leaves]. rewrite Ecp. split; [apply fits_self|exact Hokp].
    - intros jx Hj. cbn [x_value]. rewrite Ecp, bc_index_self by exact Hj.
      destruct (split_bounds _ _ _ _ Hj) as (x & h & iy & -> & Lx & _ & Hx & Hh & Hiy). inversion Hiy as [|? i ? y Hi Hy]; subst.
      rewrite (Hvp _ (x ++ (h * Q + i) :: y)).
      + unfold w. rewrite Epe by exact Lx. unfold ax. rewrite <- Lx, nth_mid. rewrite firstn_app, Nat.sub_diag, firstn_all. cbn [firstn]. rewrite app_nil_r.
        rewrite skipn_app, skipn_all2 by lia. replace (S (length x) - length x)%nat with 1%nat by lia. reflexivity.
      + exact Hj.
      + apply join_bounds; [exact Hx|nia|exact Hy].
      + cbn [rank]. unfold s2, kshape. rewrite Em. apply merge_rank. exact Lx. }
  assert (Ls2 : length s2 = S (length (pre ++ n :: post))) by (unfold s2; rewrite !app_length; cbn [length]; lia).
  assert (Hax : (ax < length s2)%nat) by (rewrite Ls2, app_length; unfold ax; lia).
  assert (Hva : Forall (fun a => 0 <= a < Z.of_nat (length s2)) [Z.of_nat ax]) by (constructor; [lia|constructor]).
  destruct (sum_axes_lemma s2 (XStrided cp bp) pe [Z.of_nat ax] [Z.of_nat ax] false) as (sq & Es & Eqs & Hsq & _).
  { rewrite Ls2. lia. }
  { exact Hs2. }
  { exact Hfin. }
  { apply names_self. exact Hva. }
  { split; [repeat constructor|exact Hva]. }
  rewrite Es. cbn [bind]. cbn [red_shape] in Eqs, Hsq. rewrite Diff4_Proofs.without_axis in Eqs, Hsq by lia. rewrite Z.sub_0_r, Nat2Z.id in Eqs, Hsq.
  assert (Ed : drop_axis ax s2 = pre ++ Q :: post).
  { unfold drop_axis, s2, ax. rewrite firstn_app, Nat.sub_diag, firstn_all, skipn_app, skipn_all2 by lia. replace (S (length pre) - length pre)%nat with 1%nat by lia. cbn. rewrite app_nil_r. reflexivity. }
  set (W := fun ix => Some (combined (firstn ax ix) (skipn (S ax) ix) (Z.to_nat (nth ax ix 0))) : num).
  destruct (evaluated_lemma row_major sq W) as (r & Er & Hr & Esr & _ & Her).
  { left; reflexivity. }
  { rewrite Eqs, Ed. apply shape_mid; [assumption|unfold Q; lia|assumption]. }
  { rewrite Eqs, Ed. destruct pre; discriminate. }
  { intros ix Hi. rewrite Eqs in Hi. rewrite (Hsq ix Hi). rewrite block_axis by (assumption || exact Hi). replace (nth ax s2 0) with 2 by (unfold s2, ax; rewrite nth_mid; reflexivity).
    change (Z.to_nat 2) with 2%nat. cbn [seq map total fold_right]. rewrite Ed in Hi. destruct (split_bounds _ _ _ _ Hi) as (x & i & y & -> & Lx & Ly & Hx & Hi' & Hy).
    assert (Ei : forall h, insert_axis ax h (x ++ i :: y) = x ++ h :: i :: y).
    { intros h. unfold insert_axis, ax. rewrite <- Lx, firstn_app, Nat.sub_diag, firstn_all, skipn_app, skipn_all, Nat.sub_diag. cbn. rewrite app_nil_r. reflexivity. }
    rewrite !Ei, !Epe by exact Lx. unfold W, combined, F, ax. rewrite <- Lx, nth_mid, firstn_app, Nat.sub_diag, firstn_all. cbn [firstn]. rewrite app_nil_r.
    rewrite skipn_app, skipn_all2 by lia. replace (S (length x) - length x)%nat with 1%nat by lia. cbn [skipn app].
    replace (Z.to_nat (Z.of_nat 0 * Q + i)) with (Z.to_nat i) by (f_equal; lia). replace (Z.to_nat (Z.of_nat 1 * Q + i)) with (q + Z.to_nat i)%nat by (unfold Q; lia).
    do 2 f_equal. ring. }
  rewrite Er. cbn [bind]. rewrite Eqs, Ed in Esr, Her.
  assert (Lr : length (ct_shape r) = length (pre ++ n :: post)) by (rewrite Esr, !app_length; reflexivity).
  assert (Lax : (ax < length (ct_shape r))%nat) by (rewrite Lr, app_length; cbn; unfold ax; lia).
  destruct (moveaxis_lemma row_major (of_cont r) (Z.of_nat ax) 0) as [HM _].
  { left; reflexivity. }
  { apply consistent_wf. exact Hr. }
  { reflexivity. }
  cbn [of_cont x_shape] in HM. destruct (HM ax 0%nat) as (v & Ev & (Ew & Hre & _) & _).
  { unfold axis_of. split; [lia|]. rewrite Z.mod_small; lia. }
  { unfold axis_of. split; [lia|]. rewrite Z.mod_small; lia. }
  rewrite Ev. cbn [bind]. eexists. split; [reflexivity|]. cbn [q_shape q_at].
  assert (Emv : forall x i y, length x = ax -> move_at ax 0 (x ++ i :: y) = i :: x ++ y).
  { intros x i y L. unfold move_at. rewrite firstn_O, skipn_O, <- L, nth_mid, firstn_app, Nat.sub_diag, firstn_all, skipn_app, skipn_all2 by lia. replace (S (length x) - length x)%nat with 1%nat by lia. cbn. rewrite app_nil_r. reflexivity. }
  split; [rewrite Ew, Esr; apply Emv; reflexivity|].
  intros x y i Hx Hy Hi. assert (Lx : length x = ax) by apply (in_bounds_length _ _ Hx).
  assert (Hj : in_bounds (pre ++ Q :: post) (x ++ Z.of_nat i :: y)) by (apply join_bounds; [exact Hx|unfold Q; lia|exact Hy]).
  destruct (Hre (x ++ Z.of_nat i :: y)) as [_ (Hc & _)]; [cbn [of_cont x_shape]; rewrite Esr; exact Hj|].
  rewrite Emv in Hc by exact Lx. rewrite Hc. cbn [bind]. unfold x_elem, of_cont. cbn [x_direct x_offset x_strides]. rewrite Z.add_0_l.
  transitivity (elt r (x ++ Z.of_nat i :: y)); [reflexivity|]. rewrite (Her _ Hj). unfold W. rewrite <- Lx. rewrite nth_mid, firstn_app, Nat.sub_diag, firstn_all. cbn [firstn]. rewrite app_nil_r.
  rewrite skipn_app, skipn_all2 by lia. replace (S (length x) - length x)%nat with 1%nat by lia. cbn [skipn app]. rewrite Nat2Z.id. reflexivity.
Qed.
End Parts.
