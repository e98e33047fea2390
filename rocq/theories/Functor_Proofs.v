From Coq Require Import List ZArith Lia Bool Arith.
From Verif Require Import Prelude PreludeFacts Strides_Model Strides_Spec Strides_Proofs Layout_Model Broadcast_Model Broadcast_Spec Broadcast_Proofs Broadcast2_Proofs
  Slice_Model Stepper_Model Stepper_Spec Stepper_Proofs Stepper4_Proofs Container_Model Container_Spec Container_Proofs
  Assign_Model Assign_Spec Semantic_Model Semantic_Spec Semantic_Proofs Semantic2_Proofs Semantic3_Proofs Semantic5_Proofs
  Reduce_Spec Reduce13_Proofs Functor_Model Functor_Spec.
Import ListNotations.
Open Scope Z_scope.

(** ** Positions *)

Lemma element_offset_bc (c : container) sh ix : strided_ok c -> fits (k_shape c) sh -> in_bounds sh ix ->
  fv_pos c ix = position c (bc_index (k_shape c) ix).
Proof.
  intros (H1 & _ & H2) (Hl & _) Hb. unfold fv_pos, position. f_equal.
  pose proof (in_bounds_length _ _ Hb) as Hlen. unfold bc_index.
  assert (E : element_offset (k_strides c) ix = element_offset (k_strides c) (skipn (length ix - length (k_shape c)) ix)).
  { unfold element_offset. rewrite !skipn_length. rewrite H1.
    replace (Nat.min (length ix) (length (k_shape c))) with (length (k_shape c)) by lia.
    replace (Nat.min (length ix - (length ix - length (k_shape c))) (length (k_shape c))) with (length (k_shape c)) by lia.
    replace (length ix - (length ix - length (k_shape c)) - length (k_shape c))%nat with 0%nat by lia. reflexivity. }
  rewrite E. set (jx := skipn _ ix). assert (Lj : length jx = length (k_shape c)) by (unfold jx; rewrite skipn_length; lia). clearbody jx. clear E.
  rewrite element_offset_same by lia.
  assert (H : forall sh st ix, length st = length sh -> length ix = length sh ->
             (forall j, (j < length sh)%nat -> nth j sh 0 = 1 -> nth j st 0 = 0) -> dot ix st = dot (zero_unit sh ix) st).
  { clear. induction sh as [|d sh IH]; intros [|s st] [|i ix] L1 L2 H; cbn in *; try lia.
    rewrite (IH st ix) by (try lia; intros j Hj; apply (H (S j)); lia).
    destruct (Z.eqb_spec d 1) as [->|]; [|lia]. rewrite (H 0%nat ltac:(lia) eq_refl). lia. }
  apply H; [lia|lia|]. intros j Hj. apply H2. exact Hj.
Qed.
Lemma element_offset_own (c : container) ix : strided_ok c -> in_bounds (k_shape c) ix -> fv_pos c ix = position c ix.
Proof. intros H Hb. rewrite (element_offset_bc c (k_shape c)) by (auto using fits_self). rewrite bc_index_self by exact Hb. reflexivity. Qed.

Lemma rdz_wrz {A} (l : list A) p x : 0 <= p < Z.of_nat (length l) ->
  exists l', wrz l p x = Ok l' /\ length l' = length l /\ rdz l' p = Ok x /\ forall q, q <> p -> rdz l' q = rdz l q.
Proof.
  intros H. rewrite wrz_ok by exact H. eexists. split; [reflexivity|]. split; [apply upd_length|]. split.
  - apply rdz_ok; [lia|]. rewrite nth_error_upd_same by lia. reflexivity.
  - intros q Hq. unfold rdz. destruct (Z.ltb_spec q 0) as [|Hq0]; [reflexivity|].
    unfold rd. rewrite nth_error_upd_other by lia. reflexivity.
Qed.

Section Writes.
  Context {T M : Type} (a : accessor T M) (c : container) (mem : list T) (v : Z -> T).
  Hypothesis Hw : writable c mem.
  Hypothesis Hv : contents mem v.

  (** The memory when the elements at the indices [done] have got their values [g]. *)
  Definition state (g : list Z -> M) (done : list (list Z)) (m : list T) : Prop :=
    length m = length mem /\
    (forall ix, In ix done -> rdz m (position c ix) = Ok (acc_put a (v (position c ix)) (g ix))) /\
    (forall p, (forall ix, In ix done -> position c ix <> p) -> rdz m p = rdz mem p).

  Lemma state_nil g : state g [] mem.
  Proof. split; [reflexivity|]. split; [intros ix []|]. reflexivity. Qed.

  Lemma state_own g done m ix : state g done m -> Forall (in_bounds (k_shape c)) done -> in_bounds (k_shape c) ix -> ~ In ix done ->
    rdz m (position c ix) = Ok (v (position c ix)).
  Proof.
    intros (_ & _ & H3) Hd Hb Hn. destruct Hw as (_ & _ & W3 & W4). rewrite H3; [apply Hv, W3; exact Hb|].
    intros jx Hj E. rewrite Forall_forall in Hd. apply W4 in E; auto. subst jx. contradiction.
  Qed.

  Lemma state_write g done m ix : state g done m -> Forall (in_bounds (k_shape c)) done -> in_bounds (k_shape c) ix -> ~ In ix done ->
    exists m', fv_write a c m ix (g ix) = Ok m' /\ state g (ix :: done) m'.
  Proof.
    intros Hs Hd Hb Hn. pose proof (state_own _ _ _ _ Hs Hd Hb Hn) as Er. destruct Hs as (H1 & H2 & H3). destruct Hw as (W1 & W2 & W3 & W4).
    unfold fv_write. rewrite element_offset_own by assumption. rewrite Er. cbn [bind].
    destruct (rdz_wrz m (position c ix) (acc_put a (v (position c ix)) (g ix))) as (m' & E & L & R1 & R2).
    { rewrite H1. apply W3. exact Hb. }
    exists m'. split; [exact E|]. rewrite Forall_forall in Hd. split; [congruence|]. split.
    - intros jx [<-|Hj]; [exact R1|]. rewrite R2; [apply H2; exact Hj|]. intros Ep. apply W4 in Ep; auto. subst jx. contradiction.
    - intros p Hp. rewrite R2; [|intros ->; exact (Hp ix (or_introl eq_refl) eq_refl)]. apply H3. intros jx Hj. apply Hp. right. exact Hj.
  Qed.

  Lemma each_ok g (step : list Z -> list T -> res (list T)) : forall l done m,
    (forall ix done m, In ix l -> state g done m -> Forall (in_bounds (k_shape c)) done -> in_bounds (k_shape c) ix -> ~ In ix done ->
       step ix m = fv_write a c m ix (g ix)) ->
    state g done m -> Forall (in_bounds (k_shape c)) done -> Forall (in_bounds (k_shape c)) l -> NoDup l -> (forall ix, In ix l -> ~ In ix done) ->
    exists m', for_each step l m = Ok m' /\ state g (rev l ++ done) m'.
  Proof.
    induction l as [|ix l IH]; intros done m Hstep Hs Hd Hl Hn Hnew.
    - exists m. split; [reflexivity|exact Hs].
    - inversion Hl as [|? ? Hb Hl']; subst. inversion Hn as [|? ? Hni Hn']; subst.
      assert (Hnd : ~ In ix done) by (apply Hnew; left; reflexivity).
      destruct (state_write g done m ix Hs Hd Hb Hnd) as (m1 & E1 & S1).
      cbn [for_each]. rewrite (Hstep ix done m (or_introl eq_refl) Hs Hd Hb Hnd), E1. cbn [bind].
      destruct (IH (ix :: done) m1) as (m' & E & S'); auto.
      + intros jx dn m2 Hj. apply Hstep. right. exact Hj.
      + intros jx Hj [<-|Hx]; [contradiction|]. exact (Hnew jx (or_intror Hj) Hx).
      + exists m'. split; [exact E|]. cbn [rev]. rewrite <- app_assoc. exact S'.
  Qed.

  Lemma state_assigned g l m : (forall ix, In ix l <-> in_bounds (k_shape c) ix) -> state g l m -> assigned a c g v mem m.
  Proof.
    intros Hl (H1 & H2 & H3). split; [exact H1|]. split.
    - intros ix Hb. apply H2, Hl. exact Hb.
    - intros p Hp. apply H3. intros ix Hi. apply Hp, Hl. exact Hi.
  Qed.

  Lemma order_ok L g (step : list Z -> list T -> res (list T)) : is_order L ->
    (forall ix done m, state g done m -> Forall (in_bounds (k_shape c)) done -> in_bounds (k_shape c) ix -> ~ In ix done ->
       step ix m = fv_write a c m ix (g ix)) ->
    exists m', for_each step (indices_of L (k_shape c)) mem = Ok m' /\ assigned a c g v mem m'.
  Proof.
    intros HL Hstep. destruct (each_ok g step (indices_of L (k_shape c)) [] mem) as (m' & E & S').
    - intros ix done m _. apply Hstep.
    - apply state_nil.
    - constructor.
    - apply Forall_forall. intros ix. apply indices_of_in. exact HL.
    - apply indices_of_nodup. exact HL.
    - auto.
    - exists m'. split; [exact E|]. eapply state_assigned; [|exact S']. intros ix. rewrite app_nil_r, <- in_rev. apply indices_of_in. exact HL.
  Qed.

  (** ** Values of the right-hand side *)

  Definition undisturbed (b : accessor T M) (k : container) : Prop :=
    readable mem k /\ fits (k_shape k) (k_shape c) /\
    forall ix jx, in_bounds (k_shape c) ix -> in_bounds (k_shape c) jx -> ix <> jx ->
      position c jx <> position k (bc_index (k_shape k) ix) \/ forall t m, acc_get b (acc_put a t m) = acc_get b t.

  Lemma fv_read_ok b k done m g ix : undisturbed b k -> state g done m -> Forall (in_bounds (k_shape c)) done -> in_bounds (k_shape c) ix -> ~ In ix done ->
    fv_read b k m ix = Ok (acc_get b (v (position k (bc_index (k_shape k) ix)))).
  Proof.
    intros ((R1 & R2) & Hf & Hu) (H1 & H2 & H3) Hd Hb Hn. unfold fv_read. rewrite (element_offset_bc k (k_shape c)) by assumption.
    set (q := position k (bc_index (k_shape k) ix)).
    assert (Hq : 0 <= q < Z.of_nat (length mem)) by (apply R2; destruct Hf as [F1 F2]; eapply bc_index_in_bounds; eassumption).
    rewrite Forall_forall in Hd.
    destruct (in_dec Z.eq_dec q (map (position c) done)) as [Hi|Hi].
    - apply in_map_iff in Hi. destruct Hi as (jx & Eq & Hj). rewrite <- Eq, (H2 jx Hj). cbn [bind].
      destruct (Hu ix jx Hb (Hd jx Hj)) as [X|X]; [intros ->; contradiction|contradiction|]. rewrite X. reflexivity.
    - rewrite H3; [rewrite (Hv q Hq); reflexivity|]. intros jx Hj E. apply Hi, in_map_iff. exists jx. auto.
  Qed.

  Lemma fx_eval_ok e done m g ix : fx_views undisturbed e -> state g done m -> Forall (in_bounds (k_shape c)) done -> in_bounds (k_shape c) ix -> ~ In ix done ->
    fx_eval m e ix = Ok (fx_value v e ix).
  Proof.
    intros He Hs Hd Hb Hn. induction e as [x|st sh f|b k|f e1 IH1 e2 IH2]; cbn [fx_eval fx_value fx_views] in *; auto.
    - eapply fv_read_ok; eassumption.
    - destruct He as [He1 He2]. rewrite IH1, IH2 by assumption. reflexivity.
  Qed.
  Lemma fx_eval_before (e : fexp T M) ix : fx_views (fun b k => readable mem k /\ fits (k_shape k) (k_shape c)) e -> in_bounds (k_shape c) ix ->
    fx_eval mem e ix = Ok (fx_value v e ix).
  Proof.
    intros He Hb. induction e as [x|st sh f|b k|f e1 IH1 e2 IH2]; cbn [fx_eval fx_value fx_views] in *; auto.
    - destruct He as ((R1 & R2) & Hf). unfold fv_read. rewrite (element_offset_bc k (k_shape c)) by assumption. rewrite Hv; [reflexivity|].
      apply R2. destruct Hf as [F1 F2]. eapply bc_index_in_bounds; eassumption.
    - destruct He as [He1 He2]. rewrite IH1, IH2 by assumption. reflexivity.
  Qed.

  Lemma direct_ok L e : is_order L -> fx_views undisturbed e ->
    exists m', fv_direct L a c e mem = Ok m' /\ assigned a c (fx_value v e) v mem m'.
  Proof.
    intros HL He. apply order_ok; [exact HL|]. intros ix done m Hs Hd Hb Hn. erewrite fx_eval_ok by eassumption. reflexivity.
  Qed.

  Lemma copy_each : forall l (g : list Z -> M) m, fv_copy a c l (map g l) m = for_each (fun ix m => fv_write a c m ix (g ix)) l m.
  Proof.
    induction l as [|ix l IH]; intros g m; [reflexivity|]. cbn [fv_copy map for_each]. destruct (fv_write a c m ix (g ix)); cbn [bind]; auto.
  Qed.
  Lemma seqM_each {A B} (f : A -> res B) (g : A -> B) : forall l, (forall x, In x l -> f x = Ok (g x)) -> seqM (map f l) = Ok (map g l).
  Proof. induction l as [|x l IH]; intros H; cbn; [reflexivity|]. rewrite (H x (or_introl eq_refl)). cbn. rewrite IH by auto using in_cons. reflexivity. Qed.
  Lemma by_copy_ok L (e : fexp T M) : is_order L -> fx_views (fun b k => readable mem k /\ fits (k_shape k) (k_shape c)) e ->
    exists m', fv_by_copy L a c e mem = Ok m' /\ assigned a c (fx_value v e) v mem m'.
  Proof.
    intros HL He. unfold fv_by_copy. rewrite (seqM_each _ (fx_value v e)).
    - cbn [bind]. rewrite copy_each. apply order_ok; [exact HL|]. reflexivity.
    - intros ix Hi. apply indices_of_in in Hi; [|exact HL]. apply fx_eval_before; assumption.
  Qed.
  Lemma fill_ok L x : is_order L -> exists m', fv_fill L a c x mem = Ok m' /\ assigned a c (fun _ => x) v mem m'.
  Proof. intros HL. apply order_ok; [exact HL|]. reflexivity. Qed.
  Lemma scalar_ok L f : is_order L -> exists m', fv_scalar L f a c mem = Ok m' /\ assigned a c (fun ix => f (acc_get a (v (position c ix)))) v mem m'.
  Proof.
    intros HL. apply order_ok; [exact HL|]. intros ix done m Hs Hd Hb Hn. unfold fv_read at 1.
    rewrite element_offset_own by (try assumption; apply Hw). erewrite state_own by eassumption. reflexivity.
  Qed.
End Writes.
