(** Lazy reduction: element access and iteration. *)
From Coq Require Import List ZArith Lia Bool Sorted.
From Verif Require Import Prelude PreludeFacts Strides_Model Strides_Spec Strides_Proofs Access_Model Broadcast_Spec Broadcast_Proofs Stepper_Model Stepper_Spec Stepper_Proofs
  Stepper2_Proofs Stepper3_Proofs Stepper4_Proofs Reduce_Model Reduce_Spec Reduce_Proofs Reduce2_Proofs Reduce3_Proofs Reduce4_Proofs.
Import ListNotations.
Open Scope Z_scope.

(** ** The list of all indices *)
Lemma flat_map_const_length {A B} (g : A -> list B) m : forall ls, (forall a, In a ls -> length (g a) = m) -> length (flat_map g ls) = (length ls * m)%nat.
Proof.
  induction ls; intros H; [reflexivity|]. cbn. rewrite app_length, IHls by (intros; apply H; right; assumption).
  rewrite H by (left; reflexivity). reflexivity.
Qed.

Lemma row_indices_length : forall sh, is_shape sh -> Z.of_nat (length (row_indices sh)) = prod sh.
Proof.
  induction 1 as [|d sh Hd Hs IH]; [reflexivity|]. cbn [row_indices]. rewrite prod_cons.
  rewrite (flat_map_const_length _ (length (row_indices sh))) by (intros; rewrite map_length; reflexivity).
  rewrite seq_length, Nat2Z.inj_mul, IH. rewrite Z2Nat.id by assumption. reflexivity.
Qed.

Lemma flat_map_nth {B} (g : nat -> list B) m n : forall k s i j, (i < n)%nat -> (j < m)%nat -> (forall a, length (g a) = m) -> k = (i * m + j)%nat ->
  nth_error (flat_map g (seq s n)) k = nth_error (g (s + i)%nat) j.
Proof.
  induction n; intros k s i j Hi Hj Hg Hk; [lia|]. cbn [seq flat_map]. destruct i.
  - rewrite nth_error_app1 by (rewrite Hg; lia). rewrite Nat.add_0_r. f_equal. lia.
  - rewrite nth_error_app2 by (rewrite Hg; lia). rewrite Hg. rewrite (IHn _ (S s) i j); auto; try lia. f_equal. f_equal. lia.
Qed.

Lemma row_indices_nth : forall sh ix, in_bounds sh ix -> nth_error (row_indices sh) (Z.to_nat (row_pos sh ix)) = Some ix.
Proof.
  induction 1 as [|d i sh ix Hi Hb IH]; [reflexivity|]. cbn [row_indices row_pos].
  assert (Hs : is_shape sh). { eapply Forall_impl; [|eapply in_bounds_shape_pos; exact Hb]. cbn. lia. }
  pose proof (row_indices_length sh Hs) as HL. pose proof (row_pos_bound sh ix Hb) as Hp.
  rewrite (flat_map_nth _ (length (row_indices sh)) _ _ _ (Z.to_nat i) (Z.to_nat (row_pos sh ix))).
  - cbn [Nat.add]. rewrite nth_error_map, IH. cbn. rewrite Z2Nat.id by lia. reflexivity.
  - lia.
  - lia.
  - intros. apply map_length.
  - rewrite <- HL. nia.
Qed.

Lemma indices_of_length l sh : l = row_major \/ l = column_major -> is_shape sh -> Z.of_nat (length (indices_of l sh)) = prod sh.
Proof.
  intros [ -> | -> ] H; cbn [indices_of]; [apply row_indices_length; assumption|].
  rewrite map_length, row_indices_length; [apply prod_rev|]. apply Forall_rev. assumption.
Qed.

Lemma indices_of_nth l sh ix : l = row_major \/ l = column_major -> in_bounds sh ix ->
  nth_error (indices_of l sh) (Z.to_nat (order_pos l sh ix)) = Some ix.
Proof.
  intros [ -> | -> ] H; cbn [indices_of order_pos]; [apply row_indices_nth; assumption|].
  pose proof (in_bounds_rev _ _ H) as Hr. pose proof (row_indices_nth _ _ Hr) as E.
  rewrite row_col_rev, !rev_involutive in E by (rewrite !rev_length; apply in_bounds_length; assumption).
  rewrite nth_error_map, E. cbn. rewrite rev_involutive. reflexivity.
Qed.

Lemma row_indices_empty sh : is_shape sh -> prod sh = 0 -> row_indices sh = [].
Proof. intros H E. apply length_zero_iff_nil. pose proof (row_indices_length sh H). lia. Qed.

(** ** Reading through an iterator *)
Section Read.
Context {T R S : Type} (f : rfun T R) (dflt : R) (esh : list Z) (sub : stepper_ops S) (deref : S -> res T) (r : reducer R)
  (off : nat) (l : layout) (sh : list Z) (at_ : list Z -> S -> Prop) (end_ : S -> Prop) (g : list Z -> R).
Hypothesis Hl : l = row_major \/ l = column_major.
Hypothesis Hpos : Forall (fun d => 0 < d) sh.
Hypothesis L : laws (rs_ops sub r off) l sh at_ end_.
Hypothesis HD : forall ix st, in_bounds sh ix -> at_ ix st ->
  exists st', rs_deref f dflt esh sub deref r st = Ok (g ix, st') /\ at_ ix st'.

Lemma read_all_ok : forall n k ix st, valid l sh at_ end_ k ix st -> k + Z.of_nat n = prod sh -> 0 <= k ->
  rs_read_all f dflt esh sub deref r off sh l n ix st = Ok (map g (skipn (Z.to_nat k) (indices_of l sh))).
Proof.
  assert (Hs : is_shape sh) by (eapply Forall_impl; [|exact Hpos]; cbn; lia).
  pose proof (indices_of_length l sh Hl Hs) as HLen.
  induction n as [|n IH]; intros k ix st Hv Hk H0.
  - cbn. rewrite skipn_all2 by lia. reflexivity.
  - cbn [rs_read_all]. destruct Hv as [(Hb & Hp & Ha)|(Hp & _)]; [|lia].
    destruct (HD ix st Hb Ha) as (st1 & E1 & Ha1). rewrite E1. cbn [bind].
    assert (Hv1 : valid l sh at_ end_ k ix st1) by (left; auto).
    assert (exists ix' st', (match l with row_major => row_increment (rs_ops sub r off) sh ix st1 | _ => col_increment (rs_ops sub r off) sh ix st1 end)
            = Ok (ix', st') /\ valid l sh at_ end_ (k + 1) ix' st') as (ix2 & st2 & E2 & Hv2).
    { clear IH. destruct Hl as [El|El]; rewrite El in *; [eapply rv_inc|eapply cv_inc]; eauto; lia. }
    rewrite E2. cbn [bind]. rewrite (IH (k + 1) ix2 st2 Hv2) by lia. cbn [bind].
    rewrite posn_order in Hp. pose proof (indices_of_nth l sh ix Hl Hb) as Hn. rewrite Hp in Hn.
    rewrite (skipn_cons_nth _ _ _ Hn). cbn [map]. replace (Z.to_nat (k + 1)) with (Datatypes.S (Z.to_nat k)) by lia. reflexivity.
Qed.

Lemma read_all_begin st : at_ (repeat 0 (length sh)) st ->
  rs_read_all f dflt esh sub deref r off sh l (Z.to_nat (prod sh)) (repeat 0 (length sh)) st = Ok (map g (indices_of l sh)).
Proof.
  intros Ha. rewrite (read_all_ok _ 0).
  - reflexivity.
  - left. pose proof (zeros_in_bounds sh Hpos) as Hz. split; [assumption|]. split; [|assumption].
    destruct Hl as [ -> | -> ]; cbn [posn]; [|apply col_pos_zeros]. rewrite row_col_rev by apply repeat_length.
    rewrite Broadcast_Proofs.rev_repeat. apply col_pos_zeros.
  - pose proof (prod_pos _ Hpos). lia.
  - lia.
Qed.
End Read.

(** ** Expressions without elements: the steppers move, nothing is read *)
Section Shaped.
Context {V : Type} (sh : list Z).

Lemma idx_ok (g : list Z -> res (list Z)) s (fv : list Z -> V) st : x_shaped (XIndexed s fv) st ->
  (forall m, length m = length s -> exists m', g m = Ok m' /\ length m' = length s) ->
  exists st', idx_op g st = Ok st' /\ x_shaped (XIndexed s fv) st'.
Proof.
  destruct st as [| |m|]; try contradiction. intros Hm H. cbn in Hm. destruct (H m Hm) as (m' & E & Hm').
  exists (TIdx m'). cbn. rewrite E. auto.
Qed.

Lemma wr_some {A} (m : list A) k v : (k < length m)%nat -> exists m', wr m k v = Ok m' /\ length m' = length m.
Proof. intros H. rewrite wr_ok by assumption. eexists. split; [reflexivity|]. apply upd_length. Qed.

Definition keeps (g : stepper_ops sstate -> sstate -> res sstate) : Prop := forall e : sexp V, operands_ok sh e -> forall st, x_shaped e st ->
  exists st', g (x_ops sh e) st = Ok st' /\ x_shaped e st'.

Lemma keeps_intro g :
  (forall v st, x_shaped (XScalar v) st -> exists st', g (x_ops sh (XScalar v)) st = Ok st' /\ @x_shaped V (XScalar v) st') ->
  (forall c b st, fits (k_shape c) sh -> strided_ok c -> x_shaped (XStrided c b) st -> exists st', g (x_ops sh (XStrided c b)) st = Ok st' /\ @x_shaped V (XStrided c b) st') ->
  (forall s fv st, fits s sh -> s <> [] -> x_shaped (XIndexed s fv) st -> exists st', g (x_ops sh (XIndexed s fv)) st = Ok st' /\ @x_shaped V (XIndexed s fv) st') ->
  (forall ops st, g (node_ops ops) st = node_op g ops st) ->
  keeps g.
Proof.
  intros H1 H2 H3 H4 e. induction e as [v|c b|s f|f args IH] using sexp_ind'; intros Hok st Hs.
  - apply H1. assumption.
  - destruct Hok. apply H2; assumption.
  - destruct Hok. apply H3; assumption.
  - unfold operands_ok in Hok. apply all_leaves_fun in Hok. apply shaped_fun in Hs. destruct Hs as (ss & -> & Hs).
    destruct (node_ok g (fun a s => x_shaped a s) (fun a s => x_shaped a s) sh args) with (ss := ss) as (ss' & E & HQ); auto.
    { eapply Forall_imp2; [exact IH|exact Hok|]. cbn. intros a Ha Hb. apply Ha. exact Hb. }
    exists (TNode ss'). cbn [x_ops]. rewrite H4. split; [exact E|]. apply shaped_fun. eauto.
Qed.

Ltac leaf := intros; match goal with H : x_shaped _ ?st |- _ => destruct st; try contradiction end; cbn in *.

Lemma rd_some {A} (m : list A) k : (k < length m)%nat -> exists v, rd m k = Ok v.
Proof. intros H. destruct (nth_error m k) eqn:E; [exists a; apply rd_ok; assumption|]. apply nth_error_None in E. lia. Qed.

Ltac strided := intros c b st Hf (S1 & S2 & _) Hs; destruct st as [|p| |]; try contradiction; destruct Hf as [HL _];
  cbn [x_ops ptr_ops s_step s_step_back s_reset s_reset_back ptr_op xs_ops]; unfold xs_step, xs_step_back, xs_reset, xs_reset_back, k_offset.

Ltac indexed := intros s fv st Hf Hne Hs; destruct st as [| |m|]; try contradiction; destruct Hf as [HL _]; cbn in Hs;
  cbn [x_ops idx_ops s_step s_step_back s_reset s_reset_back idx_op ix_ops]; unfold ix_step, ix_step_back, ix_reset, ix_reset_back.

Ltac fin d x := destruct (Nat.leb_spec x d); cbn [bind]; [|eexists; split; [reflexivity|]; cbn; auto].

Lemma keeps_step d n : (d < length sh)%nat -> keeps (fun o => s_step o d n).
Proof.
  intros Hd. apply keeps_intro.
  - leaf. exists TUnit. auto.
  - strided. fin d (length sh - length (k_shape c))%nat.
    destruct (rd_some (k_strides c) (d - (length sh - length (k_shape c)))) as (v & E); [lia|]. rewrite E. cbn [bind]. eexists. split; [reflexivity|exact I].
  - indexed. fin d (length sh - length s)%nat.
    destruct (rd_some m (d - (length sh - length s))) as (v & E); [lia|]. rewrite E. cbn [bind].
    destruct (wr_some m (d - (length sh - length s)) (v + n)) as (m' & E' & Hm'); [lia|]. rewrite E'. cbn [bind]. eexists. split; [reflexivity|]. cbn. congruence.
  - reflexivity.
Qed.
Lemma keeps_step_back d n : (d < length sh)%nat -> keeps (fun o => s_step_back o d n).
Proof.
  intros Hd. apply keeps_intro.
  - leaf. exists TUnit. auto.
  - strided. fin d (length sh - length (k_shape c))%nat.
    destruct (rd_some (k_strides c) (d - (length sh - length (k_shape c)))) as (v & E); [lia|]. rewrite E. cbn [bind]. eexists. split; [reflexivity|exact I].
  - indexed. fin d (length sh - length s)%nat.
    destruct (rd_some m (d - (length sh - length s))) as (v & E); [lia|]. rewrite E. cbn [bind].
    destruct (wr_some m (d - (length sh - length s)) (v - n)) as (m' & E' & Hm'); [lia|]. rewrite E'. cbn [bind]. eexists. split; [reflexivity|]. cbn. congruence.
  - reflexivity.
Qed.
Lemma keeps_reset d : (d < length sh)%nat -> keeps (fun o => s_reset o d).
Proof.
  intros Hd. apply keeps_intro.
  - leaf. exists TUnit. auto.
  - strided. fin d (length sh - length (k_shape c))%nat.
    destruct (rd_some (k_backstrides c) (d - (length sh - length (k_shape c)))) as (v & E); [lia|]. rewrite E. cbn [bind]. eexists. split; [reflexivity|exact I].
  - indexed. fin d (length sh - length s)%nat.
    destruct (wr_some m (d - (length sh - length s)) 0) as (m' & E' & Hm'); [lia|]. rewrite E'. cbn [bind]. eexists. split; [reflexivity|]. cbn. congruence.
  - reflexivity.
Qed.
Lemma keeps_reset_back d : (d < length sh)%nat -> keeps (fun o => s_reset_back o d).
Proof.
  intros Hd. apply keeps_intro.
  - leaf. exists TUnit. auto.
  - strided. fin d (length sh - length (k_shape c))%nat.
    destruct (rd_some (k_backstrides c) (d - (length sh - length (k_shape c)))) as (v & E); [lia|]. rewrite E. cbn [bind]. eexists. split; [reflexivity|exact I].
  - indexed. fin d (length sh - length s)%nat.
    destruct (rd_some s (d - (length sh - length s))) as (v & E); [lia|]. rewrite E. cbn [bind].
    destruct (wr_some m (d - (length sh - length s)) (v - 1)) as (m' & E' & Hm'); [lia|]. rewrite E'. cbn [bind]. eexists. split; [reflexivity|]. cbn. congruence.
  - reflexivity.
Qed.

Lemma to_end_same l : forall e : sexp V, forall st1 st2, x_shaped e st1 -> x_shaped e st2 ->
  s_to_end (x_ops sh e) l st1 = s_to_end (x_ops sh e) l st2.
Proof.
  induction e as [v|c b|s f|f args IH] using sexp_ind'; intros st1 st2 H1 H2.
  - destruct st1, st2; try contradiction. reflexivity.
  - destruct st1, st2; try contradiction. reflexivity.
  - destruct st1, st2; try contradiction. reflexivity.
  - apply shaped_fun in H1. apply shaped_fun in H2. destruct H1 as (s1 & -> & H1). destruct H2 as (s2 & -> & H2).
    cbn [x_ops node_ops s_to_end node_op]. f_equal. revert s1 s2 H1 H2. clear f.
    induction IH as [|a args Ha _ IH2]; intros s1 s2 H1 H2; inversion H1; inversion H2; subst; [reflexivity|].
    cbn [map zipM]. rewrite (Ha y y0) by assumption. destruct (s_to_end (x_ops sh a) l y0); cbn [bind]; try reflexivity.
    rewrite (IH2 l' l'0) by assumption. reflexivity.
Qed.

Lemma keeps_end l : l = row_major \/ l = column_major -> keeps (fun o => s_to_end o l).
Proof.
  intros Hl e Hok st Hs. pose proof (x_laws l sh Hl e Hok) as L.
  destruct (l_end _ _ _ _ _ L (x_begin e)) as (st' & E & [He _]).
  { eexists. apply x_begin_at. assumption. }
  exists st'. split; [|assumption]. rewrite <- E. apply to_end_same; [assumption|]. apply x_begin_shaped.
Qed.
Lemma keeps_begin : keeps (fun o => s_to_begin o).
Proof.
  intros e Hok st Hs. destruct (to_begin_ok sh e Hok st Hs) as (st' & E & Ha). exists st'. split; [exact E|]. eapply x_at_shaped; eassumption.
Qed.
End Shaped.
