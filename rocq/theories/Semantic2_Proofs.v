(** Proofs about the assignment operators of containers. *)
From Coq Require Import List ZArith Bool Lia.
From Verif Require Import Prelude PreludeFacts Strides_Model Strides_Spec Strides_Proofs Broadcast_Model Broadcast_Spec
  Broadcast_Proofs Broadcast2_Proofs Layout_Model Slice_Model Access_Model
  Stepper_Model Stepper_Spec Stepper_Proofs Stepper3_Proofs Stepper4_Proofs Container_Model Container_Spec Container_Proofs
  Assign_Model Assign_Spec Assign_Proofs Assign2_Proofs Assign6_Proofs Assign7_Proofs Semantic_Model Semantic_Spec Semantic_Proofs.
Import ListNotations.
Open Scope Z_scope.

(** ** Assigning nothing *)
Lemma run_idle {V} (e : aexp V) : forall sched mem (ths : list (thread V)), Forall (fun t : thread V => fst t = []) ths ->
  run_schedule e sched mem ths = Ok (mem, ths).
Proof.
  induction sched as [|i sched IH]; intros mem ths H; cbn; [reflexivity|].
  destruct (nth_error ths i) as [t|] eqn:E; [|apply IH; assumption].
  assert (Ht : fst t = []) by (rewrite Forall_forall in H; apply H; eapply nth_error_In; eassumption).
  destruct t as [ops regs]. cbn in Ht. subst ops. cbn.
  assert (upd ths i ([], regs) = ths) as ->.
  { clear - E. revert i E. induction ths as [|x ths IH]; intros [|i] E; cbn in *; try congruence. f_equal. auto. }
  apply IH. assumption.
Qed.
Lemma outcome_idle {V} (e : aexp V) phs mem r : Forall (Forall (fun th => th = [])) phs -> outcome e phs mem r <-> r = Ok mem.
Proof.
  intros H. split.
  - intros Ho. induction Ho as [mem|ph phs sched mem mem1 ths r E Hf Ho IH|ph phs sched mem x E|ph phs sched mem E].
    + reflexivity.
    + inversion H; subst.
      rewrite run_idle in E by (apply Forall_map; eapply Forall_impl; [|eassumption]; cbn; intros ? ->; reflexivity).
      injection E as <- <-. auto.
    + inversion H; subst.
      rewrite run_idle in E by (apply Forall_map; eapply Forall_impl; [|eassumption]; cbn; intros ? ->; reflexivity). discriminate.
    + inversion H; subst.
      rewrite run_idle in E by (apply Forall_map; eapply Forall_impl; [|eassumption]; cbn; intros ? ->; reflexivity). discriminate.
  - intros ->. induction H as [|ph phs H1 H2 IH]; [constructor|].
    assert (Hs : Forall (fun t => fst t = []) (map (@start V) ph)).
    { apply Forall_map. eapply Forall_impl; [|exact H1]. cbn. intros ? ->. reflexivity. }
    eapply out_phase with (sched := []); [reflexivity| |exact IH]. exact Hs.
Qed.
Lemma pieces_nil {A} sizes : Forall (fun th : list A => th = []) (pieces sizes []).
Proof. induction sizes as [|n sizes IH]; cbn; constructor; auto; [destruct n; reflexivity|destruct n; assumption]. Qed.

Lemma cut_row_len {V} st (e : aexp V) cut : a_strided e = true ->
  leaves_ok (fun _ k => (length (k_strides k) <= length st)%nat) e -> exists n, cut_of true st e cut = Ok n.
Proof.
  revert cut. induction e as [v|m k src|s f|f args IH] using aexp_ind'; intros cut Hs Hl; cbn in *; eauto; try discriminate.
  - destruct (overlap_row_ok (rev st) (rev (k_strides k))) as (n & E & _); [rewrite !rev_length; assumption|].
    rewrite E. cbn. eauto.
  - apply fr_and in Hl. rewrite forallb_forall in Hs.
    revert cut. induction IH as [|x l Hx _ IHl]; intros cut; cbn; eauto.
    inversion Hl; subst. destruct (Hx cut) as (n & E); [apply Hs; left; reflexivity|assumption|]. rewrite E. cbn [bind].
    apply IHl; auto. intros y Hy. apply Hs. right. assumption.
Qed.
Lemma cut_col_len {V} st (e : aexp V) cut : a_strided e = true -> exists n, cut_of false st e cut = Ok n.
Proof.
  revert cut. induction e as [v|m k src|s f|f args IH] using aexp_ind'; intros cut Hs; cbn in *; eauto; try discriminate.
  rewrite forallb_forall in Hs.
  revert cut. induction IH as [|x l Hx _ IHl]; intros cut; cbn; eauto.
  destruct (Hx cut) as (n & E); [apply Hs; left; reflexivity|]. rewrite E. cbn [bind].
  apply IHl; auto. intros y Hy. apply Hs. right. assumption.
Qed.

Lemma assign_empty {V} g m (c : container) (e : aexp V) t (mem : list V) r :
  is_shape (k_shape c) -> prod (k_shape c) = 0 -> setup_ok g 0 ->
  leaves_ok (fun _ k => (length (k_strides k) <= length (k_strides c))%nat) e ->
  assign_data g m c e t mem r <-> r = Ok mem.
Proof.
  intros Hs H0 Hg Hl. unfold assign_data.
  assert (Hst : exists phs, stepper_plan g m c e = Ok phs /\ Forall (Forall (fun th => th = [])) phs).
  { unfold stepper_plan. rewrite compute_size_prod, H0. change (Z.to_nat 0) with O. cbn. eexists. split; [reflexivity|].
    repeat constructor. }
  assert (exists phs, assign_plan g m c e t = Ok phs /\ Forall (Forall (fun th => th = [])) phs) as (phs & E & Hf).
  { unfold assign_plan. destruct (t && is_linear_assign m c e).
    - destruct (_ || _).
      + eexists. split; [reflexivity|]. unfold simd_plan. rewrite compute_size_prod, H0.
        destruct Hg as ((k & Hk & Hw) & Ha & _). assert (g_align g = 0) as -> by lia. rewrite Hw.
        change (0 - 0) with 0. rewrite Z.land_0_l. change (0 + 0) with 0. change (0 - 0) with 0. change (Z.to_nat 0) with O.
        assert (Z.to_nat ((0 + 2 ^ k - 1) / 2 ^ k) = O) as ->.
        { pose proof (Z.pow_pos_nonneg 2 k ltac:(lia) Hk). rewrite Z.div_small by lia. reflexivity. }
        cbn. repeat constructor. destruct (g_parallel g); [apply pieces_nil|repeat constructor].
      + eexists. split; [reflexivity|]. unfold linear_plan. rewrite compute_size_prod, H0. change (Z.to_nat 0) with O. cbn.
        constructor; [|constructor]. destruct (g_parallel g); [apply pieces_nil|repeat constructor].
    - destruct (a_strided e && _) eqn:Es; [|exact Hst]. apply andb_true_iff in Es. destruct Es as [Es _].
      assert (exists ls, get_loop_sizes c e = Ok ls /\ (ls_can ls = true -> ls_outer ls = 0)) as (ls & El & Hout).
      { unfold get_loop_sizes. destruct (match last_nonzero (k_strides c) with Some s => s =? 1 | None => false end).
        - destruct (cut_row_len (k_strides c) e 0 Es Hl) as (n & ->). cbn [bind]. eexists. split; [reflexivity|]. cbn [ls_can ls_outer].
          intros Hi. set (cut := if (n <? length (k_strides c) - 1)%nat then (length (k_strides c) - 1)%nat else n) in *. rewrite acc_prod in *. rewrite Z.ltb_lt in Hi.
          pose proof (firstn_skipn cut (k_shape c)) as Hfs.
          rewrite <- Hfs, prod_app in H0. nia.
        - destruct (match first_nonzero (k_strides c) with Some s => s =? 1 | None => false end).
          + destruct (cut_col_len (k_strides c) e (length (k_strides c)) Es) as (n & ->). cbn [bind]. eexists. split; [reflexivity|]. cbn [ls_can ls_outer].
            intros Hi. set (cut := if (1 <? n)%nat then 1%nat else n) in *. rewrite acc_prod in *. rewrite Z.ltb_lt in Hi.
            pose proof (firstn_skipn cut (k_shape c)) as Hfs.
            rewrite <- Hfs, prod_app in H0. nia.
          + eexists. split; [reflexivity|]. discriminate. }
      rewrite El. cbn [bind]. destruct (ls_can ls) eqn:Ec; [|exact Hst].
      unfold strided_plan. rewrite (Hout eq_refl). change (Z.to_nat 0) with O. cbn [seq].
      destruct (g_parallel g).
      + assert (Hp : forall (f : list nat -> res (list task)), f [] = Ok [] -> seqM (map f (pieces (g_sizes g) [])) = Ok (map (fun _ => []) (pieces (g_sizes g) (@nil nat)))).
        { intros f Hf. pose proof (@pieces_nil nat (g_sizes g)) as Hn. induction Hn as [|x l -> _ IH]; cbn; [reflexivity|].
          rewrite Hf. cbn. rewrite IH. reflexivity. }
        rewrite Hp by reflexivity. cbn [bind]. eexists. split; [reflexivity|]. constructor; [|constructor].
        apply Forall_forall. intros x Hx. apply in_map_iff in Hx. destruct Hx as (y & <- & _). reflexivity.
      + cbn. eexists. split; [reflexivity|]. repeat constructor. }
  rewrite E. apply outcome_idle. assumption.
Qed.

(** ** Overlap *)
Lemma addr_last_position (c : container) : strided_ok c ->
  addr_last c = position c (map (fun d => d - 1) (k_shape c)).
Proof.
  intros (H1 & H2 & H3). unfold addr_last, position. f_equal.
  destruct c as [sh st bs b]. cbn in *. revert st bs H1 H2 H3. induction sh as [|d sh IH]; intros [|s st] [|x bs] H1 H2 H3; cbn in *; try lia.
  pose proof (proj2 (H3 0%nat ltac:(lia))) as E. cbn in E. subst x.
  rewrite (IH st bs) by (try lia; intros j Hj; exact (H3 (S j) ltac:(lia))). lia.
Qed.
Lemma addr_first_position (c : container) : addr_first c = position c (repeat 0 (length (k_shape c))).
Proof. unfold addr_first, position. rewrite <- (skipn_O (repeat 0 _)). rewrite dot_zeros. lia. Qed.

(** A dense container covers all its storage: any non-empty operand on the same
    memory overlaps it. *)
Definition shape_empty {V} (e : aexp V) : Prop := exists s, In s (operand_shapes e) /\ prod s = 0.

Lemma prod_zero_in s : is_shape s -> prod s = 0 -> In 0 s.
Proof.
  induction 1 as [|d s H1 H2 IH]; [rewrite prod_nil; lia|]. rewrite prod_cons. intros E.
  apply Z.mul_eq_0 in E. destruct E as [->|E]; cbn; auto.
Qed.
Lemma in_zero_prod s : In 0 s -> prod s = 0.
Proof. induction s as [|d s IH]; cbn [In]; [tauto|]. rewrite prod_cons. intros [->|H]; [lia|]. rewrite IH by assumption. lia. Qed.
Lemma axis_zero s : is_shape s -> prod s = 0 -> exists k, axis s k = 0.
Proof.
  intros H E. apply prod_zero_in in E; [|assumption]. apply in_rev in E. apply In_nth with (d := 1) in E.
  destruct E as (k & _ & E). exists k. exact E.
Qed.
Lemma axis_zero_prod s k : axis s k = 0 -> prod s = 0.
Proof.
  intros E. apply in_zero_prod. apply in_rev. unfold axis in E.
  destruct (nth_in_or_default k (rev s) 1) as [H|H]; [rewrite E in H; assumption|rewrite E in H; discriminate].
Qed.
Lemma fits_zero s sh : is_shape s -> fits s sh -> prod s = 0 -> prod sh = 0.
Proof.
  intros Hs (_ & H) E. destruct (axis_zero s Hs E) as (k & Ek). apply (axis_zero_prod sh k).
  destruct (H k) as [H1|H1]; lia.
Qed.

Lemma overlaps_iff lo hi f l : lo <= hi -> range_overlaps (lo, hi) f l = false <-> (Z.max f l < lo \/ hi < Z.min f l).
Proof.
  intros H. unfold range_overlaps. cbn. destruct (f <=? l) eqn:E; [apply Z.leb_le in E|apply Z.leb_gt in E].
  - rewrite andb_false_iff, !Z.leb_gt. lia.
  - rewrite andb_false_iff, !Z.leb_gt. lia.
Qed.
Lemma dst_range_some c : is_shape (k_shape c) -> prod (k_shape c) <> 0 ->
  dst_range c = Some (Z.min (addr_first c) (addr_last c), Z.max (addr_first c) (addr_last c)).
Proof.
  intros Hs H. unfold dst_range. rewrite compute_size_prod. replace (prod (k_shape c) =? 0) with false by (symmetry; apply Z.eqb_neq; assumption).
  destruct (addr_last c <? addr_first c) eqn:E; [apply Z.ltb_lt in E|apply Z.ltb_ge in E]; f_equal; f_equal; lia.
Qed.

(** What a negative answer of the check means for the operands. *)
Definition apart (r : Z * Z) (k : container) : Prop :=
  prod (k_shape k) = 0 \/ Z.max (addr_first k) (addr_last k) < fst r \/ snd r < Z.min (addr_first k) (addr_last k).

Lemma expr_overlaps_ok {V} r (e : aexp V) sh : fst r <= snd r -> is_shape sh -> prod sh <> 0 ->
  Forall real_shape (operand_shapes e) -> (forall s, In s (operand_shapes e) -> fits s sh) ->
  exists b, expr_overlaps r e = Ok b /\ (b = false <-> own_leaves (apart r) e).
Proof.
  intros Hr Hsh H0. unfold operand_shapes. induction e as [v|m k [s|]|s f|f args IH] using aexp_ind'; intros Hreal Hfit; cbn [expr_overlaps own_leaves].
  - eexists. split; [reflexivity|]. tauto.
  - eexists. split; [reflexivity|]. tauto.
  - eexists. split; [reflexivity|]. unfold apart. rewrite compute_size_prod.
    destruct (prod (k_shape k) =? 0) eqn:E; [apply Z.eqb_eq in E; tauto|]. apply Z.eqb_neq in E.
    destruct r as [lo hi]. rewrite overlaps_iff by exact Hr. cbn. tauto.
  - eexists. split; [reflexivity|]. tauto.
  - cbn [a_expr] in Hreal, Hfit.
    assert (Hc : compatible (leaves (EFun (map a_expr args)))).
    { intros s t k Hs Ht. destruct (proj2 (Hfit s Hs) k) as [H|H]; [auto|]. destruct (proj2 (Hfit t Ht) k) as [H'|H']; [auto|].
      right. right. congruence. }
    destruct (proj1 (broadcast_expr_lemma (EFun (map a_expr args)) Hreal) Hc) as (out & t & E & Hb). rewrite E. cbn [bind].
    assert (Hout : prod out <> 0).
    { intros Ez. apply H0.
      assert (is_shape out) by (apply real_is_shape; eapply broadcast_is_shape; eassumption).
      destruct (axis_zero out H Ez) as (k & Ek). destruct Hb as (_ & _ & Hb). destruct (proj2 (Hb k)) as [H1|(s & Hs & H1)]; [lia|].
      apply (fits_zero s sh); [|apply Hfit; assumption|].
      - apply real_is_shape. rewrite Forall_forall in Hreal. auto.
      - apply (axis_zero_prod s k). lia. }
    rewrite compute_size_prod. replace (prod out =? 0) with false by (symmetry; apply Z.eqb_neq; assumption).
    assert (Hsub : forall x, In x args -> exists b, expr_overlaps r x = Ok b /\ (b = false <-> own_leaves (apart r) x)).
    { intros x Hx. rewrite Forall_forall in IH. apply IH; [assumption| |].
      - rewrite Forall_forall in *. intros s Hs. apply Hreal. cbn. apply in_flat_map. exists (a_expr x). split; [apply in_map; assumption|assumption].
      - intros s Hs. apply Hfit. cbn. apply in_flat_map. exists (a_expr x). split; [apply in_map; assumption|assumption]. }
    clear - Hsub. induction args as [|x args IH].
    + exists false. split; [reflexivity|]. cbn. tauto.
    + destruct (Hsub x (or_introl eq_refl)) as (b & -> & Hb). cbn [bind fold_right]. destruct b.
      * exists true. split; [reflexivity|]. split; [discriminate|]. intros [H _]. apply Hb in H. discriminate.
      * destruct IH as (b' & E & Hb'); [intros y Hy; apply Hsub; right; assumption|]. exists b'. split; [exact E|]. tauto.
Qed.
