(** Every strategy visits every element exactly once. *)
From Coq Require Import List ZArith Bool Lia Permutation.
From Verif Require Import Prelude PreludeFacts Strides_Model Strides_Spec Strides_Proofs Broadcast_Spec Layout_Model Slice_Model
  Stepper_Model Stepper_Spec Stepper_Proofs Stepper2_Proofs Stepper3_Proofs Stepper4_Proofs Container_Proofs Assign_Model Assign_Spec Assign_Proofs.
Import ListNotations.
Open Scope Z_scope.

Lemma aexp_ind' {V} (P : aexp V -> Prop) :
  (forall v, P (AScalar v)) -> (forall m c s, P (ALeaf m c s)) -> (forall s f, P (AIndexed s f)) ->
  (forall f args, Forall P args -> P (AFun f args)) -> forall e, P e.
Proof.
  intros H1 H2 H3 H4. fix IH 1. intros [v|m c s|s f|f args].
  - apply H1.
  - apply H2.
  - apply H3.
  - apply H4. induction args; constructor; auto.
Qed.

Lemma leaves_fun {V} (P : meta -> container -> Prop) (f : list V -> V) args :
  leaves_ok P (AFun f args) <-> Forall (leaves_ok P) args.
Proof. cbn. induction args; cbn; split; intros H; try constructor; try inversion H; subst; try tauto. Qed.

Lemma Forall2_map_l {A B C} (f : A -> B) (P : B -> C -> Prop) l r : Forall2 P (map f l) r <-> Forall2 (fun a c => P (f a) c) l r.
Proof.
  split.
  - revert r. induction l; intros r H; inversion H; subst; constructor; auto.
  - induction 1; cbn; constructor; auto.
Qed.

Lemma x_at_inst {V} sh (e : aexp V) : forall mem1 mem2 ix st, x_at sh (inst mem1 e) ix st -> x_at sh (inst mem2 e) ix st.
Proof.
  induction e as [v|m c s|s f|f args IH] using aexp_ind'; intros mem1 mem2 ix st H; try exact H.
  cbn [inst] in *. apply at_fun in H. destruct H as (ss & -> & H). apply at_fun. exists ss. split; [reflexivity|].
  apply Forall2_map_l. apply Forall2_map_l in H. revert ss H.
  induction IH as [|a args Ha _ IH2]; intros ss H; inversion H; subst; constructor; eauto.
Qed.

Lemma operands_inst {V} sh (e : aexp V) : forall mem1 mem2, operands_ok sh (inst mem1 e) -> operands_ok sh (inst mem2 e).
Proof.
  induction e as [v|m c s|s f|f args IH] using aexp_ind'; intros mem1 mem2 H; try exact H.
  cbn [inst] in *. unfold operands_ok in *. apply all_leaves_fun. apply all_leaves_fun in H.
  rewrite Forall_map in *. revert H. induction IH as [|a args Ha _ IH2]; intros H; inversion H; subst; constructor; eauto.
Qed.

(** A lane computes element ix. *)
Definition lane_at {V} (c : container) (e : aexp V) (ix : list Z) (ln : lane) : Prop :=
  fst ln = position c ix /\ x_at (k_shape c) (inst [] e) ix (snd ln).
(** The lanes compute every element exactly once. *)
Definition enumerates {V} (c : container) (e : aexp V) (lanes : list lane) : Prop :=
  (forall ln, In ln lanes -> exists ix, in_bounds (k_shape c) ix /\ lane_at c e ix ln) /\
  (forall ix, in_bounds (k_shape c) ix -> exists ln, In ln lanes /\ lane_at c e ix ln) /\
  NoDup (map fst lanes).

Lemma rdz_some {A} (l : list A) p : 0 <= p < Z.of_nat (length l) -> exists v, rdz l p = Ok v.
Proof.
  intros H. destruct (nth_error_lt_ex l (Z.to_nat p)) as [x Hx]; [lia|]. exists x. apply rdz_ok; [lia|assumption].
Qed.

Lemma rdz_ext {A} (l1 l2 : list A) : length l1 = length l2 -> (forall p, rdz l1 p = rdz l2 p) -> l1 = l2.
Proof.
  intros Hlen H. apply nth_ext_error. intros n. specialize (H (Z.of_nat n)). unfold rdz in H.
  destruct (Z.ltb_spec (Z.of_nat n) 0); [lia|]. rewrite Nat2Z.id in H. unfold rd in H.
  destruct (nth_error l1 n), (nth_error l2 n); congruence.
Qed.

Lemma exec_pointwise {V} (c : container) (e : aexp V) (mem : list V) (phs : list phase) :
  writable c mem -> operands_ok (k_shape c) (inst mem e) -> storage_ok (inst mem e) -> elementwise c e ->
  enumerates c e (concat (concat (concat phs))) ->
  exists mem', (forall r, outcome e phs mem r <-> r = Ok mem') /\ pointwise c e mem mem mem'.
Proof.
  intros (Hsh & Hst & Hpos & Hinj) Hop Hsto Hew (E1 & E2 & E3).
  set (lanes := concat (concat (concat phs))) in *.
  assert (Hd : forall ln ix mem1, in_bounds (k_shape c) ix -> lane_at c e ix ln ->
            x_deref (inst mem1 e) (snd ln) = x_value ix (inst mem1 e)).
  { intros ln ix mem1 Hb [_ Ha]. apply (x_deref_ok (k_shape c)); [eapply operands_inst; eassumption|assumption|].
    eapply x_at_inst; eassumption. }
  assert (Hval : forall l mem1, In l lanes -> length mem1 = length mem ->
     (forall p, (forall l', In l' lanes -> l' <> l -> p <> fst l') -> rdz mem1 p = rdz mem p) ->
     x_deref (inst mem1 e) (snd l) = x_deref (inst mem e) (snd l)).
  { intros l mem1 Hl Hlen Hag. destruct (E1 l Hl) as (ix & Hb & Hla). rewrite !(Hd l ix _ Hb Hla). apply Hew; auto.
    intros p Hp. apply Hag. intros l' Hl' Hne. destruct (E1 l' Hl') as (jx & Hbj & Hlj). destruct Hlj as [Ej _]. rewrite Ej.
    apply Hp; [assumption|]. intros ->. apply Hne. destruct Hla as [El _].
    apply (lane_inj lanes E3); auto. congruence. }
  assert (Hok : forall l, In l lanes -> exists v, x_deref (inst mem e) (snd l) = Ok v).
  { intros l Hl. destruct (E1 l Hl) as (ix & Hb & Hla). rewrite (Hd l ix _ Hb Hla). eapply x_value_ok; eassumption. }
  assert (Hin : Forall (fun l => 0 <= fst l < Z.of_nat (length mem)) lanes).
  { apply Forall_forall. intros l Hl. destruct (E1 l Hl) as (ix & Hb & [El _]). rewrite El. apply Hpos. assumption. }
  assert (HM : mem_inv e mem [] mem).
  { split; [reflexivity|]. split; [intros l []|]. reflexivity. }
  destruct (outcome_ok e mem lanes E3 Hin Hval Hok phs [] mem HM (Permutation_refl _)) as [(r0 & Hr0) Hall].
  destruct (Hall r0 Hr0) as (mem' & -> & HM').
  exists mem'. split.
  - intros r. split; [|intros ->; assumption]. intros Hr. destruct (Hall r Hr) as (mem2 & -> & HM2). f_equal.
    destruct HM' as (L1 & V1 & U1), HM2 as (L2 & V2 & U2). apply rdz_ext; [congruence|]. intros p.
    destruct (in_dec Z.eq_dec p (map fst lanes)) as [Hi|Hi].
    + apply in_map_iff in Hi. destruct Hi as (l & <- & Hl). destruct (V1 l Hl) as (v1 & Hv1 & ->), (V2 l Hl) as (v2 & Hv2 & ->).
      unfold val in *. congruence.
    + rewrite U1, U2; auto.
  - destruct HM' as (L1 & V1 & U1). split; [assumption|]. split.
    + intros ix Hb. destruct (E2 ix Hb) as (l & Hl & Hla). destruct (V1 l Hl) as (v & Hv & Ev). exists v.
      unfold val in Hv. rewrite (Hd l ix _ Hb Hla) in Hv. destruct Hla as [El _]. rewrite <- El. auto.
    + intros p Hp. apply U1. intros Hc. apply in_map_iff in Hc. destruct Hc as (l & <- & Hl).
      destruct (E1 l Hl) as (ix & Hb & [El _]). apply (Hp ix Hb). assumption.
Qed.

(** ** Enumeration by rank *)
Lemma order_unpos l sh k : l = row_major \/ l = column_major -> is_shape sh -> 0 <= k < prod sh ->
  exists ix, in_bounds sh ix /\ order_pos l sh ix = k.
Proof.
  intros [ -> | -> ] Hsh Hk.
  - exists (row_unpos sh k). apply row_unpos_spec; assumption.
  - exists (col_unpos sh k). apply col_unpos_spec; assumption.
Qed.

Lemma enum_by_rank {V} l (c : container) (e : aexp V) (mem : list V) lanes : l = row_major \/ l = column_major ->
  writable c mem -> length lanes = Z.to_nat (prod (k_shape c)) ->
  (forall ix, in_bounds (k_shape c) ix -> exists ln, nth_error lanes (Z.to_nat (order_pos l (k_shape c) ix)) = Some ln /\ lane_at c e ix ln) ->
  enumerates c e lanes.
Proof.
  intros Hl (Hsh & _ & _ & Hinj) Hlen H.
  assert (Hn : forall n ln, nth_error lanes n = Some ln ->
            exists ix, in_bounds (k_shape c) ix /\ Z.of_nat n = order_pos l (k_shape c) ix /\ lane_at c e ix ln).
  { intros n ln Hn. assert (n < length lanes)%nat by (apply nth_error_Some; congruence).
    destruct (order_unpos l (k_shape c) (Z.of_nat n) Hl Hsh ltac:(lia)) as (ix & Hb & Ho).
    exists ix. split; [assumption|]. split; [auto|]. destruct (H ix Hb) as (ln' & Hn' & Hla). rewrite Ho, Nat2Z.id in Hn'.
    congruence. }
  split; [|split].
  - intros ln Hin. apply In_nth_error in Hin. destruct Hin as (n & Hin). destruct (Hn n ln Hin) as (ix & Hb & _ & Hla). eauto.
  - intros ix Hb. destruct (H ix Hb) as (ln & Hnth & Hla). exists ln. split; [eapply nth_error_In; eassumption|assumption].
  - apply NoDup_nth_error. intros i j Hi Heq. rewrite map_length in Hi.
    destruct (nth_error_lt_ex lanes i Hi) as (a & Ha). rewrite (map_nth_error fst i lanes Ha) in Heq.
    destruct (nth_error lanes j) as [b|] eqn:Hb.
    2:{ assert (nth_error (map fst lanes) j = None). { apply nth_error_None. rewrite map_length. apply nth_error_None. assumption. } congruence. }
    rewrite (map_nth_error fst j lanes Hb) in Heq. injection Heq as Heq.
    destruct (Hn i a Ha) as (ix & Hbi & Hoi & [Ei _]), (Hn j b Hb) as (jx & Hbj & Hoj & [Ej _]).
    assert (ix = jx) by (apply Hinj; auto; congruence). subst jx. lia.
Qed.

(** ** Pieces *)
Lemma pieces_concat {A} : forall sizes (l : list A), concat (pieces sizes l) = l.
Proof.
  induction sizes as [|n sizes IH]; intros l; cbn; [apply app_nil_r|]. rewrite IH. apply firstn_skipn.
Qed.

(** ** The stepper loop *)
Section StepperLoop.
Context {V : Type} (l : layout) (c : container) (e : aexp V) (f : list V -> V).
Let sh := k_shape c.
Let pair := XFun f [@XStrided V c []; inst [] e].
Hypothesis Hl : l = row_major \/ l = column_major.
Hypothesis Hpos : Forall (fun d => 0 < d) sh.
Hypothesis Hst : strided_ok c.
Hypothesis Hop : operands_ok sh (inst [] e).

Lemma pair_ok : operands_ok sh pair.
Proof.
  unfold operands_ok, pair. apply all_leaves_fun. constructor; [|constructor; [exact Hop|constructor]].
  cbn. split; [apply fits_self|assumption].
Qed.

Lemma stepper_loop_ok : forall n k ix st, valid l sh (x_at sh pair) (x_endst sh l pair) k ix st ->
  0 <= k -> k + Z.of_nat n = prod sh ->
  exists ts, stepper_loop (both_ops c e) sh l n ix st = Ok ts /\ length (concat ts) = n /\
    forall jx, in_bounds sh jx -> k <= order_pos l sh jx ->
      exists ln, nth_error (concat ts) (Z.to_nat (order_pos l sh jx - k)) = Some ln /\ lane_at c e jx ln.
Proof.
  pose proof (HL l sh pair Hl pair_ok) as L.
  induction n as [|n IH]; intros k ix st Hv Hk Hn; cbn [stepper_loop].
  - exists []. split; [reflexivity|]. split; [reflexivity|]. intros jx Hb Hle.
    pose proof (order_pos_bound l sh jx Hl Hb). lia.
  - assert (exists ix' st', (match l with row_major => row_increment (both_ops c e) sh ix st | _ => col_increment (both_ops c e) sh ix st end)
            = Ok (ix', st') /\ valid l sh (x_at sh pair) (x_endst sh l pair) (k + 1) ix' st') as (ix' & st' & E & H).
    { clear IH. change (both_ops c e) with (x_ops sh pair). destruct Hl as [El|El]; rewrite El in *; [eapply rv_inc|eapply cv_inc]; eauto; lia. }
    destruct Hv as [(Hb & Hp & Ha)|(Hp & _)]; [|lia].
    unfold pair in Ha. apply at_fun in Ha. destruct Ha as (ss & -> & Ha). inversion Ha as [|? s1 ? ? A1 Ha1]; subst.
    inversion Ha1 as [|? s2 ? ? A2 Ha2]; subst. inversion Ha2; subst.
    destruct s1 as [|p| |]; try contradiction. rewrite E. cbn [bind].
    destruct (IH (posn l sh ix + 1) ix' st' H ltac:(lia) ltac:(lia)) as (ts & Ets & Hlen & Hall). rewrite Ets. cbn [bind].
    exists ([(p, s2)] :: ts). split; [reflexivity|]. split; [cbn; lia|]. intros jx Hbj Hle. rewrite posn_order in *.
    destruct (Z.eq_dec (order_pos l sh jx) (order_pos l sh ix)) as [Eq|Ne].
    + assert (jx = ix) by (eapply order_pos_inj; eauto). subst jx. exists (p, s2). change (posn l sh ix) with (order_pos l sh ix). rewrite Z.sub_diag. split; [reflexivity|].
      split; [|exact A2]. cbn [fst]. destruct A1 as [_ A1]. rewrite A1. unfold position, k_offset. unfold sh.
      rewrite Nat.sub_diag. reflexivity.
    + destruct (Hall jx Hbj ltac:(lia)) as (ln & Hnth & Hla). exists ln. split; [|assumption]. change (posn l sh ix) with (order_pos l sh ix).
      replace (Z.to_nat (order_pos l sh jx - order_pos l sh ix)) with (S (Z.to_nat (order_pos l sh jx - (order_pos l sh ix + 1)))) by lia.
      exact Hnth.
Qed.

Lemma stepper_start : valid l sh (x_at sh pair) (x_endst sh l pair) 0 (repeat 0 (length sh)) (TNode [TPtr (k_begin c); x_begin (inst [] e)]).
Proof.
  destruct (x_begin_valid l sh pair Hl pair_ok Hpos) as (b & Eb & Hv). injection Eb as Eb. subst b. destruct Hv as [_ Hv]. exact Hv.
Qed.
End StepperLoop.

Lemma default_rc g l : (g = row_major \/ g = column_major) ->
  default_assignable_layout g l = row_major \/ default_assignable_layout g l = column_major.
Proof. destruct l; cbn; tauto. Qed.

Lemma stepper_plan_ok {V} g m (c : container) (e : aexp V) (mem : list V) :
  writable c mem -> operands_ok (k_shape c) (inst mem e) -> (g_default g = row_major \/ g_default g = column_major) ->
  exists phs, stepper_plan g m c e = Ok phs /\ enumerates c e (concat (concat (concat phs))).
Proof.
  intros Hw Hop Hg. pose proof Hw as (Hsh & Hst & Hin & _). unfold stepper_plan. rewrite compute_size_prod.
  pose proof (default_rc (g_default g) (m_static m) Hg) as Hl. set (l := default_assignable_layout _ _) in *.
  pose proof (prod_nn _ Hsh) as Hnn.
  destruct (Z.eq_dec (prod (k_shape c)) 0) as [E|E].
  - rewrite E. change (Z.to_nat 0) with O. cbn [stepper_loop bind]. eexists. split; [reflexivity|]. cbn.
    eapply (enum_by_rank l); eauto.
    + rewrite E. reflexivity.
    + intros ix Hb. pose proof (order_pos_bound l _ ix Hl Hb). lia.
  - assert (Hpos : Forall (fun d => 0 < d) (k_shape c)) by (apply prod_nonneg_pos; [assumption|lia]).
    destruct (order_unpos l (k_shape c) 0 Hl Hsh ltac:(lia)) as (ix0 & Hb0 & _).
    destruct (rdz_some mem (position c ix0) (Hin ix0 Hb0)) as (v & _).
    pose proof (operands_inst _ _ mem [] Hop) as Hop'.
    destruct (stepper_loop_ok l c e (fun _ => v) Hl Hpos Hst Hop' (Z.to_nat (prod (k_shape c))) 0 _ _
                (stepper_start l c e (fun _ => v) Hl Hpos Hst Hop') ltac:(lia) ltac:(lia)) as (ts & Ets & Hlen & Hall).
    rewrite Ets. cbn [bind]. eexists. split; [reflexivity|]. cbn [concat app]. rewrite !app_nil_r.
    eapply (enum_by_rank l); eauto. intros ix Hb. pose proof (order_pos_bound l _ ix Hl Hb).
    destruct (Hall ix Hb ltac:(lia)) as (ln & Hnth & Hla). rewrite Z.sub_0_r in Hnth. eauto.
Qed.

(** ** Linear loops *)
Lemma zseq_length a n : length (zseq a n) = n.
Proof. unfold zseq. rewrite map_length, seq_length. reflexivity. Qed.
Lemma zseq_nth a n k : (k < n)%nat -> nth_error (zseq a n) k = Some (a + Z.of_nat k).
Proof. intros H. unfold zseq. erewrite map_nth_error; [reflexivity|]. rewrite nth_error_seq; [reflexivity|assumption]. Qed.
Lemma zseq_app a n1 n2 : zseq a (n1 + n2) = zseq a n1 ++ zseq (a + Z.of_nat n1) n2.
Proof.
  unfold zseq. rewrite seq_app, map_app. f_equal. cbn [plus]. rewrite <- (Nat.add_0_r n1) at 1.
  generalize 0%nat. induction n2 as [|n2 IH]; intros b; [reflexivity|].
  cbn [seq map]. f_equal; [lia|]. rewrite <- IH. do 2 f_equal. lia.
Qed.

(** Dense in a given order. *)
Definition dense (l : layout) (k : container) : Prop :=
  forall ix, in_bounds (k_shape k) ix -> dot ix (k_strides k) = order_pos l (k_shape k) ix.

Lemma flat_state_at {V} simd l sh (e : aexp V) : is_shape sh -> (l = row_major \/ l = column_major) ->
  a_strided e = true ->
  leaves_ok (fun m k => k_shape k = sh /\ dense l k /\ (simd = true -> m_kind m = KStridedView -> k_begin k = 0)) e ->
  forall ix, in_bounds sh ix -> x_at sh (inst [] e) ix (flat_state simd e (order_pos l sh ix)).
Proof.
  intros Hsh Hl. induction e as [v|m c s|s f|f args IH] using aexp_ind'; intros Hs Hlv ix Hb.
  - exact I.
  - cbn [inst flat_state x_at]. destruct Hlv as (Esh & Hd & Ho). split; [eapply in_bounds_length; eassumption|].
    unfold k_offset. rewrite Esh, Nat.sub_diag. cbn [skipn]. specialize (Hd ix). rewrite Esh in Hd. rewrite (Hd Hb).
    unfold flat_position. destruct (m_kind m) eqn:Ek; auto. destruct simd; auto. rewrite Ho; auto.
  - discriminate.
  - cbn [inst flat_state]. apply at_fun. eexists. split; [reflexivity|].
    apply leaves_fun in Hlv. cbn [a_strided] in Hs. rewrite forallb_forall in Hs.
    apply Forall2_map_l. clear f. induction IH as [|a args Ha _ IH2]; cbn; constructor.
    + inversion Hlv; subst. apply Ha; auto. apply Hs. left. reflexivity.
    + inversion Hlv; subst. apply IH2; auto. intros x Hx. apply Hs. right. assumption.
Qed.

Lemma flat_lanes_ok {V} simd l m (c : container) (e : aexp V) (mem : list V) : writable c mem -> (l = row_major \/ l = column_major) ->
  dense l c -> (simd = true -> m_kind m = KStridedView -> k_begin c = 0) -> a_strided e = true ->
  leaves_ok (fun m k => k_shape k = k_shape c /\ dense l k /\ (simd = true -> m_kind m = KStridedView -> k_begin k = 0)) e ->
  enumerates c e (map (flat_lane simd m c e) (zseq 0 (Z.to_nat (prod (k_shape c))))).
Proof.
  intros Hw Hl Hd Ho Hs Hlv. pose proof Hw as (Hsh & _). eapply (enum_by_rank l); eauto.
  - rewrite map_length, zseq_length. reflexivity.
  - intros ix Hb. pose proof (order_pos_bound l _ ix Hl Hb) as Hp.
    exists (flat_lane simd m c e (order_pos l (k_shape c) ix)). split.
    + erewrite map_nth_error; [|apply zseq_nth; lia]. f_equal. f_equal. lia.
    + split; cbn [fst snd flat_lane].
      * unfold position. rewrite (Hd ix Hb). unfold flat_position. destruct (m_kind m) eqn:Ek; auto. destruct simd; auto. rewrite Ho; auto.
      * apply flat_state_at; assumption.
Qed.

Lemma concat_single {A B} (f : A -> B) l : concat (map (fun a => [f a]) l) = map f l.
Proof. induction l; cbn; [reflexivity|]. f_equal. assumption. Qed.

Lemma linear_plan_lanes {V} g m (c : container) (e : aexp V) :
  concat (concat (concat (linear_plan g m c e))) = map (flat_lane false m c e) (zseq 0 (Z.to_nat (prod (k_shape c)))).
Proof.
  unfold linear_plan. rewrite compute_size_prod. cbn [concat]. rewrite app_nil_r.
  destruct (g_parallel g); [rewrite pieces_concat|cbn [concat]; rewrite app_nil_r]; apply concat_single.
Qed.

Lemma batches_concat {B} (f : Z -> B) a w nb :
  concat (map (fun k => map f (zseq (a + Z.of_nat k * Z.of_nat w) w)) (seq 0 nb)) = map f (zseq a (nb * w)).
Proof.
  induction nb as [|nb IH]; [reflexivity|].
  rewrite seq_S, map_app, concat_app, IH. cbn [map concat plus]. rewrite app_nil_r, <- map_app.
  f_equal. rewrite Nat.mul_succ_l, zseq_app. do 2 f_equal. lia.
Qed.

Lemma land_mask n k : 0 <= n -> 0 <= k -> Z.land n (Z.lnot (2 ^ k - 1)) = n / 2 ^ k * 2 ^ k.
Proof.
  intros Hn Hk. replace (2 ^ k - 1) with (Z.ones k) by (rewrite Z.ones_equiv; lia).
  rewrite <- Z.ldiff_land. rewrite Z.ldiff_ones_r by assumption. rewrite Z.shiftl_mul_pow2, Z.shiftr_div_pow2 by assumption. reflexivity.
Qed.

Lemma simd_plan_lanes {V} g m (c : container) (e : aexp V) : is_shape (k_shape c) -> setup_ok g (prod (k_shape c)) ->
  concat (concat (concat (simd_plan g m c e))) = map (flat_lane true m c e) (zseq 0 (Z.to_nat (prod (k_shape c)))).
Proof.
  intros Hsh ((k & Hk & Ew) & Ha & _). unfold simd_plan. rewrite compute_size_prod. set (size := prod (k_shape c)) in *.
  rewrite Ew, land_mask by lia. set (a := g_align g) in *. set (q := (size - a) / 2 ^ k).
  assert (Hw : 0 < 2 ^ k) by (apply Z.pow_pos_nonneg; lia).
  assert (Hq : 0 <= q) by (apply Z.div_pos; lia).
  assert (Hqm : q * 2 ^ k <= size - a) by (unfold q; rewrite Z.mul_comm; apply Z.mul_div_le; lia).
  replace ((a + q * 2 ^ k - a + 2 ^ k - 1) / 2 ^ k) with q.
  2:{ apply Z.div_unique with (r := 2 ^ k - 1); lia. }
  cbn [concat]. rewrite !concat_app, !app_nil_r. cbn [concat]. rewrite !app_nil_r.
  rewrite !concat_single.
  assert (Eb : concat (concat (if g_parallel g
     then pieces (g_sizes g) (map (fun k0 => map (fun j => flat_lane true m c e j) (zseq (a + Z.of_nat k0 * 2 ^ k) (Z.to_nat (2 ^ k)))) (seq 0 (Z.to_nat q)))
     else [map (fun k0 => map (fun j => flat_lane true m c e j) (zseq (a + Z.of_nat k0 * 2 ^ k) (Z.to_nat (2 ^ k)))) (seq 0 (Z.to_nat q))]))
     = map (flat_lane true m c e) (zseq a (Z.to_nat q * Z.to_nat (2 ^ k)))).
  { transitivity (concat (map (fun k0 => map (fun j => flat_lane true m c e j) (zseq (a + Z.of_nat k0 * Z.of_nat (Z.to_nat (2 ^ k))) (Z.to_nat (2 ^ k)))) (seq 0 (Z.to_nat q)))).
    - rewrite Z2Nat.id by lia. destruct (g_parallel g); [rewrite pieces_concat|cbn [concat]; rewrite app_nil_r]; reflexivity.
    - rewrite batches_concat. reflexivity. }
  etransitivity; [apply (f_equal2 (@app lane)); [reflexivity|apply (f_equal2 (@app lane)); [exact Eb|reflexivity]]|].
  rewrite <- !map_app. f_equal.
  replace (Z.to_nat size) with (Z.to_nat a + (Z.to_nat q * Z.to_nat (2 ^ k) + Z.to_nat (size - (a + q * 2 ^ k))))%nat.
  2:{ rewrite <- Z2Nat.inj_mul by lia. lia. }
  rewrite !zseq_app. do 2 f_equal.
  - rewrite Z2Nat.id by lia. reflexivity.
  - f_equal. rewrite Nat2Z.inj_mul, !Z2Nat.id by lia. lia.
Qed.
