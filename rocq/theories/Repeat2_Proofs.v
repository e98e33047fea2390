(** The stepper of xt::repeat obeys the laws of steppers. *)
From Coq Require Import List ZArith Lia Bool.
From Verif Require Import Prelude PreludeFacts Strides_Model Strides_Spec Strides_Proofs Access_Model
  Stepper_Model Stepper_Spec Stepper_Proofs Stepper2_Proofs Stepper3_Proofs Stepper4_Proofs StepGen_Proofs
  Repeat_Model Repeat_Spec Repeat_Proofs.
Import ListNotations.
Open Scope Z_scope.

Lemma in_bounds_nth2 : forall s ix j, in_bounds s ix -> (j < length s)%nat -> 0 <= nth j ix 0 < nth j s 0.
Proof. intros. apply in_bounds_nth'; assumption. Qed.

Section Rep.
Context {T : Type} (ops : stepper_ops T) (l : layout) (esh r : list Z) (axis : nat).
Context (at_ : list Z -> T -> Prop) (end_ : T -> Prop).
Hypothesis L : ulaws ops l esh at_ end_.
Hypothesis Hn : nth_error esh axis = Some (Z.of_nat (length r)).
Hypothesis Hr : Forall (fun x => 0 <= x) r.

Notation sh := (upd esh axis (total r)).

Lemma axis_lt : (axis < length esh)%nat.
Proof. apply nth_error_Some. congruence. Qed.
Lemma axis_nth : nth axis esh 0 = Z.of_nat (length r).
Proof. apply nth_error_nth. exact Hn. Qed.
Lemma sh_len : length sh = length esh.
Proof. apply upd_length. Qed.
Lemma sh_axis : nth axis sh 0 = total r.
Proof. apply nth_upd_same. apply axis_lt. Qed.
Lemma sh_other k : k <> axis -> nth k sh 0 = nth k esh 0.
Proof. intros. apply nth_upd_other. auto. Qed.

(** The index of the element of the argument. *)
Lemma sub_in_bounds ix j : in_bounds sh ix -> (j < length r)%nat -> in_bounds esh (upd ix axis (Z.of_nat j)).
Proof.
  intros Hb Hj. pose proof (in_bounds_length _ _ Hb) as Hl. rewrite sh_len in Hl. pose proof axis_lt.
  apply in_bounds_intro; [rewrite upd_length; exact Hl|].
  intros k Hk. destruct (Nat.eq_dec k axis) as [ -> |Hne].
  - rewrite nth_upd_same by lia. rewrite axis_nth. lia.
  - rewrite nth_upd_other by auto. rewrite <- sh_other by assumption. apply in_bounds_nth2; [exact Hb|].
    rewrite sh_len. exact Hk.
Qed.

Lemma upd_in_bounds ix k v : in_bounds sh ix -> 0 <= v < nth k sh 0 -> in_bounds sh (upd ix k v).
Proof.
  intros Hb Hv. pose proof (in_bounds_length _ _ Hb) as Hl.
  apply in_bounds_intro; [rewrite upd_length; exact Hl|].
  intros i Hi. destruct (Nat.eq_dec i k) as [ -> |Hne].
  - rewrite nth_upd_same by lia. exact Hv.
  - rewrite nth_upd_other by auto. apply in_bounds_nth2; assumption.
Qed.

(** Block and position inside the block for a position along the axis; the
    beginning may sit in front of an empty block. *)
Definition inv (p : Z) (j : nat) (s : Z) : Prop :=
  (j < length r)%nat /\ 0 <= s /\ p = total (firstn j r) + s /\ (s < nth j r 0 \/ (p = 0 /\ j = 0%nat)).

Definition rp_at (ix : list Z) (st : rp_state T) : Prop :=
  in_bounds sh ix /\ rp_pos st = ix /\
  exists j, rp_subpos st = Z.of_nat j /\ inv (nth axis ix 0) j (rp_steps st) /\
    at_ (upd ix axis (Z.of_nat j)) (rp_sub st).

Lemma begin_at b : Forall (fun d => 0 < d) sh -> at_ (repeat 0 (length esh)) b -> rp_at (repeat 0 (length sh)) (rp_begin sh b).
Proof.
  intros Hp Hb. pose proof axis_lt as Ha. split; [apply zeros_in_bounds; exact Hp|].
  assert (Hz : forall n k, nth k (repeat 0 n) 0 = 0).
  { intros n k. destruct (Nat.lt_ge_cases k n); [apply nth_repeat|]. apply nth_overflow. rewrite repeat_length. assumption. }
  split.
  { unfold rp_begin. cbn [rp_pos]. generalize sh. intros s. induction s; cbn; [reflexivity|]. f_equal. assumption. }
  exists 0%nat. split; [reflexivity|]. cbn [rp_begin rp_steps rp_sub]. rewrite Hz. split.
  - assert (0 < total r).
    { rewrite <- sh_axis. rewrite Forall_forall in Hp. apply Hp. apply nth_In. rewrite sh_len. exact Ha. }
    split; [|cbn [firstn total fold_right]; split; [lia|]; split; [lia|right; auto]].
    destruct r; [cbn in H; lia|cbn; lia].
  - rewrite sh_len. replace (upd (repeat 0 (length esh)) axis (Z.of_nat 0)) with (repeat 0 (length esh)); [exact Hb|].
    symmetry. apply upd_nth_self. rewrite (nth_error_nth' _ 0) by (rewrite repeat_length; exact Ha). rewrite Hz. reflexivity.
Qed.

Lemma rep_step : forall ix k n st, (k < length sh)%nat -> in_bounds sh ix ->
  0 <= n -> nth k ix 0 + n < nth k sh 0 -> rp_at ix st ->
  exists st', rp_step ops sh r axis k n st = Ok st' /\ rp_at (upd ix k (nth k ix 0 + n)) st' /\
    (k = axis -> 0 < n -> rp_steps st' < nth (Z.to_nat (rp_subpos st')) r 0) /\
    (k <> axis -> rp_subpos st' = rp_subpos st /\ rp_steps st' = rp_steps st).
Proof.
  intros ix k n st Hk Hb Hn0 Hx (_ & Hp & j & Hj & (I1 & I2 & I3 & I4) & Ha).
  pose proof (in_bounds_length _ _ Hb) as Hlx. pose proof axis_lt as Hax. rewrite sh_len in Hlx.
  pose proof Hk as Hk'. rewrite sh_len in Hk'.
  pose proof (in_bounds_nth2 _ _ k Hb Hk) as Bk.
  unfold rp_step. rewrite (rd_nth 0) by (rewrite Hp; lia). cbn [bind].
  rewrite (rd_nth 0) by assumption. cbn [bind]. rewrite Hp.
  destruct (Z.leb_spec (nth k sh 0) (nth k ix 0 + n)); [lia|].
  unfold rp_make_step. destruct (Z.ltb_spec 0 n) as [Hn1|Hn1].
  2: { exists st. split; [reflexivity|]. assert (n = 0) by lia. subst n. rewrite Z.add_0_r.
       rewrite upd_nth_self by (apply nth_error_nth'; lia). split.
       - split; [exact Hb|]. split; [exact Hp|]. exists j. repeat split; auto.
       - split; [lia|auto]. }
  destruct (Nat.eqb_spec k axis) as [->|Hne].
  - rewrite Hj. rewrite sh_axis in Hx.
    destruct (forward_ok r (S (length r)) j (rp_steps st + n)) as (j' & s' & E & Hj' & Hs' & Ht'); try lia.
    rewrite E. cbn [bind].
    pose proof (sub_in_bounds ix j Hb I1) as Hsb.
    destruct (u_step _ _ _ _ _ L (upd ix axis (Z.of_nat j)) axis (Z.of_nat j' - Z.of_nat j) (rp_sub st)) as (sub & Es & Ha'); auto.
    { lia. }
    { rewrite nth_upd_same by lia. rewrite axis_nth. lia. }
    rewrite Es. cbn [bind].
    rewrite (rd_nth 0) by (rewrite Hp; lia). cbn [bind]. rewrite (wr_ok _ _ _) by (rewrite Hp; lia). cbn [bind].
    eexists. split; [reflexivity|]. split; [|split; [|intros C; congruence]].
    + split; [apply upd_in_bounds; [exact Hb|rewrite sh_axis; lia]|]. cbn [rp_pos rp_subpos rp_steps rp_sub].
      split; [rewrite Hp; reflexivity|]. exists j'. split; [reflexivity|].
      rewrite nth_upd_same by lia. split.
      * repeat split; try lia.
      * rewrite upd_upd_same. rewrite nth_upd_same, upd_upd_same in Ha' by lia.
        replace (Z.of_nat j + (Z.of_nat j' - Z.of_nat j)) with (Z.of_nat j') in Ha' by lia. exact Ha'.
    + intros _ _. cbn [rp_steps rp_subpos]. rewrite Nat2Z.id. lia.
  - pose proof (sub_in_bounds ix j Hb I1) as Hsb. rewrite sh_other in Hx by assumption.
    destruct (u_step _ _ _ _ _ L (upd ix axis (Z.of_nat j)) k n (rp_sub st)) as (sub & Es & Ha'); auto.
    { rewrite nth_upd_other by auto. lia. }
    rewrite Es. cbn [bind]. rewrite (rd_nth 0) by (rewrite Hp; lia). cbn [bind]. rewrite (wr_ok _ _ _) by (rewrite Hp; lia). cbn [bind].
    eexists. split; [reflexivity|]. split; [|split; [intros C; congruence|auto]].
    split; [apply upd_in_bounds; [exact Hb|rewrite sh_other by assumption; lia]|]. cbn [rp_pos rp_subpos rp_steps rp_sub].
    split; [rewrite Hp; reflexivity|]. exists j. split; [exact Hj|].
    rewrite nth_upd_other by auto. split; [repeat split; auto|].
    rewrite nth_upd_other in Ha' by auto. rewrite upd_comm by auto. exact Ha'.
Qed.

Lemma inv_source p j s : inv p j s -> s < nth j r 0 -> source r p j.
Proof. intros (I1 & I2 & I3 & I4) H. split; [exact I1|]. rewrite total_S by exact I1. lia. Qed.

(** Element access: the stepper is moved along every axis in turn. *)
Lemma rep_walk : forall args pre st k, in_bounds sh (pre ++ args) -> k = length pre ->
  rp_at (pre ++ repeat 0 (length args)) st ->
  (nth axis (pre ++ args) 0 > 0 -> (axis < k)%nat -> rp_steps st < nth (Z.to_nat (rp_subpos st)) r 0) ->
  exists st', rp_walk ops sh r axis k args st = Ok st' /\ rp_at (pre ++ args) st' /\
    (nth axis (pre ++ args) 0 > 0 -> rp_steps st' < nth (Z.to_nat (rp_subpos st')) r 0).
Proof.
  induction args as [|a args IH]; intros pre st k Hb Hk Ha Hs; cbn [rp_walk].
  - cbn [length repeat] in Ha. exists st. split; [reflexivity|]. split; [exact Ha|].
    intros Hx. apply Hs; [exact Hx|]. pose proof (in_bounds_length _ _ Hb) as HL. rewrite app_nil_r, sh_len in HL.
    pose proof axis_lt. lia.
  - cbn [length repeat] in Ha.
    assert (Hin : in_bounds sh (pre ++ 0 :: repeat 0 (length args))) by apply Ha.
    pose proof (in_bounds_length _ _ Hb) as HL. rewrite app_length in HL. cbn [length] in HL.
    assert (Hkl : (k < length sh)%nat) by lia.
    pose proof (in_bounds_nth2 _ _ k Hb Hkl) as Bk. rewrite Hk, nth_mid in Bk.
    destruct (rep_step _ k a st Hkl Hin) as (st1 & E & Ha1 & HA & HB); try lia.
    { rewrite Hk, nth_mid. lia. }
    { exact Ha. }
    rewrite E. cbn [bind]. rewrite Hk in Ha1. rewrite nth_mid, upd_mid in Ha1.
    replace (pre ++ a :: args) with ((pre ++ [a]) ++ args) in * by (rewrite <- app_assoc; reflexivity).
    destruct (IH (pre ++ [a]) st1 (S k)) as (st2 & E2 & Ha2 & Hs2); auto.
    { rewrite app_length. cbn. lia. }
    { rewrite <- app_assoc. exact Ha1. }
    { intros Hx Hax. destruct (Nat.eq_dec k axis) as [Ek|Ek].
      - apply HA; [exact Ek|]. rewrite <- Ek, <- app_assoc in Hx. cbn [app] in Hx. rewrite Hk, nth_mid in Hx. lia.
      - destruct (HB Ek) as [-> ->]. apply Hs; [exact Hx|lia]. }
    exists st2. auto.
Qed.

Lemma rep_element b ix j : Forall (fun d => 0 < d) sh -> at_ (repeat 0 (length esh)) b -> in_bounds sh ix ->
  source r (nth axis ix 0) j -> (0 < nth axis ix 0 \/ 0 < nth 0 r 0) ->
  exists st', rp_element ops sh r axis b ix = Ok st' /\ at_ (upd ix axis (Z.of_nat j)) (rp_sub st').
Proof.
  intros Hp Hb Hx Hs Hc. pose proof (in_bounds_length _ _ Hx) as HL.
  unfold rp_element. destruct (rep_walk ix [] (rp_begin sh b) 0) as (st & E & Ha & HS); auto.
  - cbn [app]. rewrite HL. apply begin_at; assumption.
  - lia.
  - exists st. split; [exact E|]. cbn [app] in *. destruct Ha as (_ & _ & j' & Hj' & HI & Ha).
    assert (j' = j).
    { eapply source_unique; [exact Hr| |exact Hs]. apply inv_source with (s := rp_steps st); [exact HI|].
      destruct HI as (I1 & I2 & I3 & I4). destruct I4 as [I4|[I4 I5]]; [exact I4|].
      destruct Hc as [Hc|Hc]; [lia|]. subst j'. cbn in I3. lia. }
    subst j'. exact Ha.
Qed.

(** ** All the laws, when no first or last block is empty *)
Hypothesis Hfirst : 0 < nth 0 r 0.
Hypothesis Hlast : 0 < nth (length r - 1) r 0.
Hypothesis Hpos : Forall (fun d => 0 < d) sh.
Hypothesis Hl : l = row_major \/ l = column_major.

Definition rp_last (ix : list Z) (st : rp_state T) : Prop :=
  length esh = 1%nat /\ ix = [total r] /\ rp_pos st = ix /\ rp_subpos st = Z.of_nat (length r) /\ rp_steps st = 0 /\
  at_ [Z.of_nat (length r)] (rp_sub st).
Definition rp_at2 (ix : list Z) (st : rp_state T) : Prop := rp_at ix st \/ rp_last ix st.
Definition rp_end2 (st : rp_state T) : Prop :=
  end_ (rp_sub st) /\ length (rp_pos st) = length esh /\
  (length esh = 1%nat -> rp_pos st = [total r] /\ rp_subpos st = Z.of_nat (length r) /\ rp_steps st = 0).

Lemma inv_strong p j s : inv p j s -> s < nth j r 0.
Proof. intros (I1 & I2 & I3 & [I4|[I4 I5]]); [exact I4|]. subst j. cbn in I3. lia. Qed.

Lemma rpos_len : (0 < length r)%nat.
Proof. destruct r; [cbn in Hfirst; lia|cbn; lia]. Qed.

Lemma inv_last j s : inv (total r - 1) j s -> j = (length r - 1)%nat.
Proof.
  intros HI. pose proof rpos_len. eapply source_unique; [exact Hr|apply (inv_source _ _ _ HI), (inv_strong _ _ _ HI)|].
  split; [lia|]. replace (S (length r - 1)) with (length r) by lia. rewrite firstn_all.
  assert (total r = total (firstn (length r - 1) r) + nth (length r - 1) r 0).
  { rewrite <- total_S by lia. replace (S (length r - 1)) with (length r) by lia. rewrite firstn_all. reflexivity. }
  lia.
Qed.

Lemma inv_first j s : inv 0 j s -> j = 0%nat.
Proof.
  intros HI. pose proof rpos_len. eapply source_unique; [exact Hr|apply (inv_source _ _ _ HI), (inv_strong _ _ _ HI)|].
  split; [lia|]. rewrite total_S by lia. cbn [firstn total fold_right]. lia.
Qed.

Lemma last_not_in ix st : rp_last ix st -> in_bounds sh ix -> False.
Proof.
  intros (H1 & -> & _) Hb. pose proof axis_lt. pose proof (in_bounds_nth2 _ _ axis Hb) as B. rewrite sh_len in B.
  specialize (B ltac:(lia)). rewrite sh_axis in B. replace axis with 0%nat in B by lia. cbn in B. lia.
Qed.

Lemma rep_back : forall ix k n st, (k < length ix)%nat -> 0 <= n <= nth k ix 0 -> rp_at ix st ->
  exists st', rp_step_back ops sh r axis k n st = Ok st' /\ rp_at (upd ix k (nth k ix 0 - n)) st'.
Proof.
  intros ix k n st Hk Hn0 (Hb & Hp & j & Hj & HI & Ha). pose proof HI as (I1 & I2 & I3 & _).
  pose proof (inv_strong _ _ _ HI) as I4.
  pose proof (in_bounds_length _ _ Hb) as Hlx. pose proof axis_lt as Hax. rewrite sh_len in Hlx.
  assert (Hk2 : (k < length sh)%nat) by (rewrite sh_len; lia).
  pose proof (in_bounds_nth2 _ _ k Hb Hk2) as Bk.
  unfold rp_step_back. rewrite (rd_nth 0) by (rewrite Hp; lia). cbn [bind]. rewrite Hp.
  destruct (Z.ltb_spec (nth k ix 0) n); [lia|].
  unfold rp_make_step_back. destruct (Z.ltb_spec 0 n) as [Hn1|Hn1].
  2: { exists st. split; [reflexivity|]. assert (n = 0) by lia. subst n. rewrite Z.sub_0_r.
       rewrite upd_nth_self by (apply nth_error_nth'; lia).
       split; [exact Hb|]. split; [exact Hp|]. exists j. auto. }
  pose proof (sub_in_bounds ix j Hb I1) as Hsb.
  destruct (Nat.eqb_spec k axis) as [->|Hne].
  - rewrite Hj.
    assert (exists j' s', rp_backward r (S (length r)) (rp_steps st - n) (Z.of_nat j) = Ok (s', Z.of_nat j') /\ (j' <= j)%nat /\
       0 <= s' < nth j' r 0 /\ total (firstn j' r) + s' = nth axis ix 0 - n) as (j' & s' & E & Hj' & Hs' & Ht').
    { destruct (Z.lt_ge_cases (rp_steps st - n) 0) as [C|C].
      - destruct (backward_ok r (S (length r)) j (rp_steps st - n)) as (j' & s' & E & Hj' & Hs' & Ht'); try lia.
        exists j', s'. repeat split; try assumption; lia.
      - exists j, (rp_steps st - n). cbn [rp_backward]. destruct (Z.ltb_spec (rp_steps st - n) 0); [lia|].
        repeat split; try lia. }
    rewrite E. cbn [bind].
    destruct (u_back _ _ _ _ _ L (upd ix axis (Z.of_nat j)) axis (Z.of_nat j - Z.of_nat j') (rp_sub st)) as (sub & Es & Ha'); auto.
    { rewrite upd_length. lia. }
    { rewrite nth_upd_same by lia. lia. }
    rewrite Es. cbn [bind]. rewrite (rd_nth 0) by (rewrite Hp; lia). cbn [bind]. rewrite (wr_ok _ _ _) by (rewrite Hp; lia). cbn [bind].
    eexists. split; [reflexivity|].
    split; [apply upd_in_bounds; [exact Hb|lia]|]. cbn [rp_pos rp_subpos rp_steps rp_sub].
    split; [rewrite Hp; reflexivity|]. exists j'. split; [reflexivity|].
    rewrite nth_upd_same by lia. split.
    + repeat split; try lia.
    + rewrite upd_upd_same. rewrite nth_upd_same, upd_upd_same in Ha' by lia.
      replace (Z.of_nat j - (Z.of_nat j - Z.of_nat j')) with (Z.of_nat j') in Ha' by lia. exact Ha'.
  - destruct (u_back _ _ _ _ _ L (upd ix axis (Z.of_nat j)) k n (rp_sub st)) as (sub & Es & Ha'); auto.
    { rewrite upd_length. lia. }
    { rewrite nth_upd_other by auto. lia. }
    rewrite Es. cbn [bind]. rewrite (rd_nth 0) by (rewrite Hp; lia). cbn [bind]. rewrite (wr_ok _ _ _) by (rewrite Hp; lia). cbn [bind].
    eexists. split; [reflexivity|].
    split; [apply upd_in_bounds; [exact Hb|lia]|]. cbn [rp_pos rp_subpos rp_steps rp_sub].
    split; [rewrite Hp; reflexivity|]. exists j. split; [exact Hj|].
    rewrite nth_upd_other by auto. split; [exact HI|].
    rewrite nth_upd_other in Ha' by auto. rewrite upd_comm by auto. exact Ha'.
Qed.

Lemma esh_1d : length esh = 1%nat -> axis = 0%nat /\ esh = [Z.of_nat (length r)].
Proof.
  intros H. pose proof axis_lt as A. assert (axis = 0%nat) by lia. split; [assumption|].
  pose proof Hn as HN. rewrite H0 in HN. destruct esh as [|d [|]]; try discriminate. cbn in HN. congruence.
Qed.

Lemma rep_back_end : forall ix k n st, (k < length ix)%nat -> 0 <= n <= nth k ix 0 -> rp_last ix st ->
  exists st', rp_step_back ops sh r axis k n st = Ok st' /\ rp_at2 (upd ix k (nth k ix 0 - n)) st'.
Proof.
  intros ix k n st Hk Hn0 HLst. pose proof HLst as (H1 & H2 & H3 & H4 & H5 & H6).
  destruct (esh_1d H1) as [Eax Eesh]. subst ix. cbn [length] in Hk. assert (k = 0%nat) by lia. subst k. cbn [nth] in *.
  unfold rp_step_back. rewrite H3. cbn [rd nth_error bind].
  destruct (Z.ltb_spec (total r) n); [lia|]. unfold rp_make_step_back.
  destruct (Z.ltb_spec 0 n) as [Hn1|Hn1].
  2: { exists st. split; [reflexivity|]. right. assert (n = 0) by lia. subst n. rewrite Z.sub_0_r. exact HLst. }
  rewrite Eax. cbn [Nat.eqb]. rewrite H4, H5.
  destruct (backward_ok r (S (length r)) (length r) (0 - n)) as (j' & s' & E & Hj' & Hs' & Ht'); try lia.
  { rewrite firstn_all. lia. }
  rewrite firstn_all in Ht'.
  rewrite E. cbn [bind].
  destruct (u_back _ _ _ _ _ L [Z.of_nat (length r)] 0 (Z.of_nat (length r) - Z.of_nat j') (rp_sub st)) as (sub & Es & Ha'); auto.
  { right. rewrite Eesh. destruct Hl as [ -> | -> ]; reflexivity. }
  { cbn [nth]. lia. }
  rewrite Es. cbn [bind]. rewrite H3. cbn [rd nth_error bind wr length Nat.ltb Nat.leb upd].
  eexists. split; [reflexivity|]. left. cbn [nth upd] in *.
  split; [rewrite Eesh, Eax; cbn [upd]; constructor; [lia|constructor]|]. cbn [rp_pos rp_subpos rp_steps rp_sub].
  split; [reflexivity|]. exists j'. split; [reflexivity|]. rewrite Eax. cbn [nth upd]. split.
  - repeat split; try lia.
  - replace (Z.of_nat (length r) - (Z.of_nat (length r) - Z.of_nat j')) with (Z.of_nat j') in Ha' by lia. exact Ha'.
Qed.

Lemma rep_laws : laws (rp_ops ops sh r axis) l sh rp_at2 rp_end2.
Proof.
  pose proof axis_lt as Hax.
  apply laws_of_ulaws. split; cbn [rp_ops s_step s_step_back s_reset s_reset_back s_to_begin s_to_end].
  - intros ix k n st Hk Hb Hn0 Hx [Ha|Ha]; [|exfalso; eapply last_not_in; eauto].
    destruct (rep_step ix k n st Hk Hb Hn0 Hx Ha) as (st' & E & Ha' & _). exists st'. split; [exact E|]. left. exact Ha'.
  - intros ix k n st Hk _ Hn0 [Ha|Ha]; [|apply rep_back_end; assumption].
    destruct (rep_back ix k n st Hk Hn0 Ha) as (st' & E & Ha'). exists st'. split; [exact E|]. left. exact Ha'.
  - intros ix k st Hk Hb Hx [Ha|Ha]; [|exfalso; eapply last_not_in; eauto].
    destruct Ha as (_ & Hp & j & Hj & HI & Ha). pose proof HI as (I1 & _).
    pose proof (in_bounds_length _ _ Hb) as Hlx. pose proof Hk as Hk'. rewrite sh_len in Hk', Hlx.
    pose proof (sub_in_bounds ix j Hb I1) as Hsb.
    pose proof (in_bounds_nth2 _ _ k Hb Hk) as Bk.
    unfold rp_reset.
    destruct (u_reset _ _ _ _ _ L (upd ix axis (Z.of_nat j)) k (rp_sub st)) as (sub & Es & Ha'); auto.
    { destruct (Nat.eq_dec k axis) as [ -> |Hne].
      - rewrite nth_upd_same by lia. rewrite sh_axis in Hx. rewrite Hx in HI. apply inv_last in HI. rewrite axis_nth. lia.
      - rewrite nth_upd_other by auto. rewrite sh_other in Hx by assumption. exact Hx. }
    rewrite Es. cbn [bind]. rewrite (wr_ok _ _ _) by (rewrite Hp; lia). cbn [bind].
    destruct (Nat.eqb_spec k axis) as [->|Hne]; (eexists; split; [reflexivity|]; left; (split; [apply upd_in_bounds; [exact Hb|lia]|]);
      cbn [rp_pos rp_subpos rp_steps rp_sub]; (split; [rewrite Hp; reflexivity|])).
    + exists 0%nat. split; [reflexivity|]. rewrite nth_upd_same by lia. rewrite upd_upd_same in *.
      split; [|exact Ha']. pose proof rpos_len. cbn [firstn total fold_right]. repeat split; auto; lia.
    + exists j. split; [exact Hj|]. rewrite nth_upd_other by auto. split; [exact HI|]. rewrite upd_comm by auto. exact Ha'.
  - intros ix k st Hk Hb Hx [Ha|Ha]; [|exfalso; eapply last_not_in; eauto].
    destruct Ha as (_ & Hp & j & Hj & HI & Ha). pose proof HI as (I1 & _).
    pose proof (in_bounds_length _ _ Hb) as Hlx. pose proof Hk as Hk'. rewrite sh_len in Hk', Hlx.
    pose proof (sub_in_bounds ix j Hb I1) as Hsb. pose proof rpos_len as Hrl.
    pose proof (in_bounds_nth2 _ _ k Hb Hk) as Bk.
    unfold rp_reset_back.
    destruct (u_reset_back _ _ _ _ _ L (upd ix axis (Z.of_nat j)) k (rp_sub st)) as (sub & Es & Ha'); auto.
    { destruct (Nat.eq_dec k axis) as [ -> |Hne].
      - rewrite nth_upd_same by lia. rewrite Hx in HI. apply inv_first in HI. lia.
      - rewrite nth_upd_other by auto. exact Hx. }
    rewrite Es. cbn [bind]. rewrite (rd_nth 0) by assumption. cbn [bind].
    rewrite (wr_ok _ _ _) by (rewrite Hp; lia). cbn [bind].
    destruct (Nat.eqb_spec k axis) as [->|Hne].
    + replace (Z.of_nat (length r) - 1) with (Z.of_nat (length r - 1)) by lia.
      rewrite rdz_rep by lia. cbn [bind].
      eexists; split; [reflexivity|]; left; (split; [apply upd_in_bounds; [exact Hb|lia]|]);
      cbn [rp_pos rp_subpos rp_steps rp_sub]; (split; [rewrite Hp; reflexivity|]).
      exists (length r - 1)%nat. split; [reflexivity|]. rewrite nth_upd_same by lia. rewrite upd_upd_same in *.
      rewrite sh_axis in *. rewrite axis_nth in Ha'.
      assert (total r = total (firstn (length r - 1) r) + nth (length r - 1) r 0).
      { rewrite <- total_S by lia. replace (S (length r - 1)) with (length r) by lia. rewrite firstn_all. reflexivity. }
      split; [repeat split; lia|]. replace (Z.of_nat (length r - 1)) with (Z.of_nat (length r) - 1) by lia. exact Ha'.
    + eexists; split; [reflexivity|]; left; (split; [apply upd_in_bounds; [exact Hb|lia]|]);
      cbn [rp_pos rp_subpos rp_steps rp_sub]; (split; [rewrite Hp; reflexivity|]).
      exists j. split; [exact Hj|]. rewrite nth_upd_other by auto. split; [exact HI|]. rewrite upd_comm by auto.
      rewrite sh_other by assumption. exact Ha'.
  - intros st Hst. unfold rp_to_begin.
    assert (HS : (exists ix, at_ ix (rp_sub st)) \/ end_ (rp_sub st)).
    { destruct Hst as [[ix [(_ & _ & j & _ & _ & H)|(_ & _ & _ & _ & _ & H)]]|(H & _)]; eauto. }
    assert (HP : length (rp_pos st) = length esh).
    { destruct Hst as [[ix [(H & -> & _)|(H & -> & -> & _)]]|(_ & H & _)]; auto.
      apply in_bounds_length in H. rewrite sh_len in H. exact H. }
    destruct (u_begin _ _ _ _ _ L (rp_sub st) HS) as (sub & Es & Ha'). rewrite Es. cbn [bind].
    eexists. split; [reflexivity|]. left.
    pose proof (begin_at sub Hpos Ha') as HB. unfold rp_begin in HB.
    replace (map (fun _ : Z => 0) (rp_pos st)) with (map (fun _ : Z => 0) sh); [exact HB|].
    assert (M : forall a b : list Z, length a = length b -> map (fun _ => 0) a = map (fun _ => 0) b).
    { induction a as [|x a IHa]; intros [|y b] HH; try discriminate; [reflexivity|]. cbn. f_equal. apply IHa. cbn in HH. lia. }
    apply M. rewrite sh_len. auto.
  - intros st Hst. unfold rp_to_end.
    assert (HS : exists ix, at_ ix (rp_sub st)).
    { destruct Hst as [ix [(_ & _ & j & _ & _ & H)|(_ & _ & _ & _ & _ & H)]]; eauto. }
    destruct (u_end _ _ _ _ _ L (rp_sub st) HS) as (sub & Es & He). rewrite Es. cbn [bind].
    set (kk := match l with row_major => 0%nat | _ => (length sh - 1)%nat end).
    assert (Hkk : (kk < length sh)%nat).
    { unfold kk. rewrite sh_len. destruct Hl as [ -> | -> ]; lia. }
    rewrite (rd_nth 0) by (rewrite map_length; exact Hkk). cbn [bind].
    rewrite (wr_ok _ _ _) by (rewrite map_length; exact Hkk). cbn [bind].
    eexists. split; [reflexivity|]. split; [exact He|]. cbn [rp_pos rp_subpos rp_steps]. split.
    + rewrite upd_length, map_length. apply sh_len.
    + intros H1. destruct (esh_1d H1) as [E1 E2]. split; [|auto]. rewrite E1, E2 in *. clear E1 E2.
      assert (kk = 0%nat) by (cbn in Hkk; lia). rewrite H. cbn [upd map nth]. f_equal. lia.
Qed.

Lemma rep_end_at : length esh = 1%nat -> (forall st, end_ st -> at_ (endx l esh) st) ->
  forall st, rp_end2 st -> rp_at2 (endx l sh) st.
Proof.
  intros H1 He st (H2 & H3 & H4). destruct (H4 H1) as (H5 & H6 & H7). destruct (esh_1d H1) as [E1 E2].
  specialize (He _ H2). right. split; [exact H1|]. rewrite E2, E1 in *. cbn [upd] in *.
  assert (A : forall x, endx l [x] = [x]) by (intros x; destruct Hl as [ -> | -> ]; reflexivity).
  rewrite A in *. repeat split; auto.
Qed.

Lemma rep_at_sub ix st j : in_bounds sh ix -> rp_at2 ix st -> source r (nth axis ix 0) j ->
  at_ (upd ix axis (Z.of_nat j)) (rp_sub st).
Proof.
  intros Hb [Ha|Ha] Hs; [|exfalso; eapply last_not_in; eauto].
  destruct Ha as (_ & _ & j' & Hj' & HI & Ha).
  assert (j' = j) by (eapply source_unique; [exact Hr|apply (inv_source _ _ _ HI), (inv_strong _ _ _ HI)|exact Hs]).
  subst j'. exact Ha.
Qed.
End Rep.
