(** Lazy reduction: the stepper of a reducer, constructor. *)
From Coq Require Import List ZArith Lia Bool Sorted.
From Verif Require Import Prelude PreludeFacts Strides_Model Strides_Spec Strides_Proofs Access_Model Stepper_Model Stepper_Spec Stepper_Proofs
  Stepper2_Proofs Stepper4_Proofs Reduce_Model Reduce_Spec Reduce_Proofs Reduce2_Proofs.
Import ListNotations.
Open Scope Z_scope.

Lemma Forall2_len {A B} (P : A -> B -> Prop) l1 l2 : Forall2 P l1 l2 -> length l1 = length l2.
Proof. induction 1; cbn; congruence. Qed.

Section Laws.
Context {R S : Type} (sub : stepper_ops S) (l : layout) (fsh sh : list Z) (at_ : list Z -> S -> Prop) (end_ : S -> Prop)
  (r : reducer R) (off : nat) (F : list Z -> list Z).
Hypothesis HL : laws sub l fsh at_ end_.
Hypothesis Hpos : Forall (fun d => 0 < d) sh.
Hypothesis Hoff : (off <= length sh)%nat.
Hypothesis HFs : forall pre post, (off + length (pre ++ 0%Z :: post) = length sh)%nat ->
  exists P Q, rd (r_mapping r) (length pre) = Ok (length P) /\ (forall x, F (pre ++ x :: post) = P ++ x :: Q) /\
    forall d, nth_error sh (off + length pre) = Some d ->
      if r_keep r && mem_axis (length pre) (r_axes r) then d = 1 /\ exists d', nth_error fsh (length P) = Some d'
      else nth_error fsh (length P) = Some d.
Hypothesis HFb : forall ix, in_bounds sh ix -> in_bounds fsh (F (skipn off ix)).
Hypothesis HFz : F (repeat 0 (length sh - off)) = repeat 0 (length fsh).

Definition R_at (ix : list Z) (st : S) : Prop := in_bounds sh ix /\ at_ (F (skipn off ix)) st.

Lemma skipn_pre {A} (pre post : list A) x n : (length pre < n)%nat -> skipn n (pre ++ x :: post) = skipn (n - length pre - 1) post.
Proof.
  intros H. rewrite skipn_app, skipn_all2 by lia. cbn [app].
  replace (n - length pre)%nat with (Datatypes.S (n - length pre - 1)) by lia. cbn [skipn]. f_equal. lia.
Qed.
Lemma skipn_mid {A} (pre post : list A) x n : (n <= length pre)%nat -> skipn n (pre ++ x :: post) = skipn n pre ++ x :: post.
Proof. intros H. rewrite skipn_app. replace (n - length pre)%nat with 0%nat by lia. reflexivity. Qed.

Lemma mid_split pre x post : in_bounds sh (pre ++ x :: post) -> (off <= length pre)%nat ->
  exists P Q d, rd (r_mapping r) (length pre - off) = Ok (length P) /\
    (forall x, F (skipn off (pre ++ x :: post)) = P ++ x :: Q) /\
    nth_error sh (length pre) = Some d /\
    if r_keep r && mem_axis (length pre - off) (r_axes r) then d = 1 /\ exists d', nth_error fsh (length P) = Some d'
    else nth_error fsh (length P) = Some d.
Proof.
  intros Hb Ho. pose proof (in_bounds_length _ _ Hb) as HLn.
  destruct (HFs (skipn off pre) post) as (P & Q & E1 & E2 & E3).
  { rewrite app_length in *. rewrite skipn_length. cbn in *. lia. }
  rewrite skipn_length in *.
  assert (exists d, nth_error sh (length pre) = Some d) as (d & Hd).
  { destruct (nth_error sh (length pre)) eqn:E; eauto. apply nth_error_None in E. rewrite app_length in HLn. cbn in HLn. lia. }
  exists P, Q, d. split; [assumption|]. split; [intros y; rewrite skipn_mid by assumption; apply E2|]. split; [assumption|].
  apply E3. replace (off + (length pre - off))%nat with (length pre) by lia. assumption.
Qed.

Lemma reducer_laws : laws (rs_ops sub r off) l sh R_at end_.
Proof.
  constructor.
  - intros pre x post n d st Hd Hb Hn Hlt [_ Ha]. unfold rs_ops, s_step, rs_step.
    assert (Hb' : in_bounds sh (pre ++ (x + n) :: post)).
    { eapply in_bounds_mid; eauto. split; [|assumption]. pose proof Hb as Hb2. apply Forall2_app_inv_r in Hb2.
      destruct Hb2 as (s1 & s2 & H1 & H2 & _). inversion H2; subst. lia. }
    destruct (Nat.leb_spec off (length pre)) as [Ho|Ho].
    + destruct (mid_split pre x post Hb Ho) as (P & Q & d2 & E1 & E2 & E3 & E4).
      rewrite Hd in E3. injection E3 as <-. unfold get_dim. rewrite E1. cbn [bind]. pose proof (HFb _ Hb) as Hfb. rewrite E2 in Ha, Hfb.
      pose proof (HFb _ Hb') as Hfb'. rewrite E2 in Hfb'.
      assert (exists d', nth_error fsh (length P) = Some d' /\ x + n < d') as (d' & Hd' & Hlt').
      { destruct (r_keep r && mem_axis (length pre - off) (r_axes r)); [|eauto]. destruct E4 as [_ [d' E4]]. exists d'. split; [assumption|].
        apply Forall2_app_inv_r in Hfb'. destruct Hfb' as (s1 & s2 & H1 & H2 & ->). inversion H2; subst.
        pose proof (Forall2_len _ _ _ H1) as HLL; rewrite <- HLL, nth_error_app2, Nat.sub_diag in E4 by lia. injection E4 as <-. lia. }
      destruct (l_step _ _ _ _ _ HL P x Q n d' st Hd' Hfb Hn Hlt' Ha) as (st' & E & Ha').
      exists st'. split; [exact E|]. split; [assumption|]. rewrite E2. assumption.
    + exists st. split; [reflexivity|]. split; [assumption|]. rewrite skipn_pre in * by lia. assumption.
  - intros pre x post n st Hb0 Hn [Hb Ha]. clear Hb0. unfold rs_ops, s_step_back, rs_step_back.
    assert (Hb' : in_bounds sh (pre ++ (x - n) :: post)).
    { apply Forall2_app_inv_r in Hb. destruct Hb as (s1 & s2 & H1 & H2 & ->). inversion H2; subst.
      apply Forall2_app; [assumption|]. constructor; [lia|assumption]. }
    destruct (Nat.leb_spec off (length pre)) as [Ho|Ho].
    + destruct (mid_split pre x post Hb Ho) as (P & Q & d2 & E1 & E2 & E3 & E4).
      unfold get_dim. rewrite E1. cbn [bind]. pose proof (HFb _ Hb) as Hfb. rewrite E2 in Ha, Hfb.
      destruct (l_back _ _ _ _ _ HL P x Q n st (or_introl Hfb) Hn Ha) as (st' & E & Ha').
      exists st'. split; [exact E|]. split; [assumption|]. rewrite E2. assumption.
    + exists st. split; [reflexivity|]. split; [assumption|]. rewrite skipn_pre in * by lia. assumption.
  - intros pre x post d st Hd Hb Hx [_ Ha]. unfold rs_ops, s_reset, rs_reset.
    assert (Hb' : in_bounds sh (pre ++ 0 :: post)).
    { apply Forall2_app_inv_r in Hb. destruct Hb as (s1 & s2 & H1 & H2 & E0). subst sh. inversion H2; subst.
      apply Forall2_app; [assumption|]. constructor; [lia|assumption]. }
    destruct (Nat.leb_spec off (length pre)) as [Ho|Ho].
    + destruct (mid_split pre x post Hb Ho) as (P & Q & d2 & E1 & E2 & E3 & E4).
      rewrite Hd in E3. injection E3 as <-. destruct (r_keep r && mem_axis (length pre - off) (r_axes r)).
      * destruct E4 as [-> _]. exists st. split; [reflexivity|]. split; [assumption|]. subst x. exact Ha.
      * unfold get_dim. rewrite E1. cbn [bind]. pose proof (HFb _ Hb) as Hfb. rewrite E2 in Ha, Hfb.
        destruct (l_reset _ _ _ _ _ HL P x Q d st E4 Hfb Hx Ha) as (st' & E & Ha').
        exists st'. split; [exact E|]. split; [assumption|]. rewrite E2. assumption.
    + exists st. split; [reflexivity|]. split; [assumption|]. rewrite skipn_pre in * by lia. assumption.
  - intros pre post d st Hd Hb [_ Ha]. unfold rs_ops, s_reset_back, rs_reset_back.
    assert (Hb' : in_bounds sh (pre ++ d - 1 :: post)).
    { pose proof Hd as Hd'. apply Forall2_app_inv_r in Hb. destruct Hb as (s1 & s2 & H1 & H2 & E0). subst sh. inversion H2; subst.
      pose proof (Forall2_len _ _ _ H1) as HLL; rewrite <- HLL, nth_error_app2, Nat.sub_diag in Hd' by lia. injection Hd' as ->.
      apply Forall2_app; [assumption|]. constructor; [lia|assumption]. }
    destruct (Nat.leb_spec off (length pre)) as [Ho|Ho].
    + destruct (mid_split pre 0 post Hb Ho) as (P & Q & d2 & E1 & E2 & E3 & E4).
      rewrite Hd in E3. injection E3 as <-. destruct (r_keep r && mem_axis (length pre - off) (r_axes r)).
      * destruct E4 as [-> _]. exists st. split; [reflexivity|]. split; [assumption|]. exact Ha.
      * unfold get_dim. rewrite E1. cbn [bind]. pose proof (HFb _ Hb) as Hfb. rewrite E2 in Ha, Hfb.
        destruct (l_reset_back _ _ _ _ _ HL P Q d st E4 Hfb Ha) as (st' & E & Ha').
        exists st'. split; [exact E|]. split; [assumption|]. rewrite E2. assumption.
    + exists st. split; [reflexivity|]. split; [assumption|]. rewrite skipn_pre in * by lia. assumption.
  - intros st H. destruct (l_begin _ _ _ _ _ HL st) as (st' & E & Ha).
    { destruct H as [(ix & _ & Ha)|He]; eauto. }
    exists st'. split; [exact E|]. split; [apply zeros_in_bounds; assumption|].
    assert (Hs : skipn off (repeat 0 (length sh)) = repeat 0 (length sh - off)).
    { clear -Hoff. revert Hoff. generalize (length sh). generalize off. clear. induction off as [|o IHo]; intros [|m] H; try reflexivity. cbn [skipn repeat Nat.sub]. apply IHo. lia. }
    rewrite Hs, HFz. assumption.
  - intros st (ix & _ & Ha). destruct (l_end _ _ _ _ _ HL st) as (st' & E & He); eauto.
Qed.
End Laws.

(** ** The constructor *)
Fixpoint kepts (axes : list Z) (k : Z) (i len : nat) : list nat :=
  match len with
  | O => []
  | S len' => if in_dec Z.eq_dec k axes then kepts axes (k + 1) (S i) len' else i :: kepts axes (k + 1) (S i) len'
  end.

Lemma kepts_length axes : forall len k i, length (kepts axes k i len) = nkept axes k len.
Proof. induction len; intros; cbn; [reflexivity|]. destruct (in_dec Z.eq_dec k axes); cbn; rewrite IHlen; reflexivity. Qed.

Lemma kepts_nth axes : forall len k i n, (n < nkept axes k len)%nat -> nth_error (kepts axes k i len) n = Some (i + kept_pos axes k len n)%nat.
Proof.
  induction len; intros k i n H; cbn in *; [lia|]. destruct (in_dec Z.eq_dec k axes).
  - rewrite IHlen by assumption. f_equal. lia.
  - destruct n; cbn; [f_equal; lia|]. rewrite IHlen by lia. f_equal. lia.
Qed.

Lemma without_drop : forall l a axes k, a < k -> without (a :: axes) k l = without axes k l.
Proof.
  induction l; intros b axes k H; [reflexivity|]. cbn [without]. rewrite IHl by lia.
  destruct (in_dec Z.eq_dec k (b :: axes)) as [H1|H1]; destruct (in_dec Z.eq_dec k axes) as [H2|H2]; try reflexivity.
  - destruct H1; [lia|contradiction].
  - exfalso. apply H1. right. assumption.
Qed.
Lemma kepts_drop : forall len a axes k i, a < k -> kepts (a :: axes) k i len = kepts axes k i len.
Proof.
  induction len; intros b axes k i H; [reflexivity|]. cbn [kepts]. rewrite IHlen by lia.
  destruct (in_dec Z.eq_dec k (b :: axes)) as [H1|H1]; destruct (in_dec Z.eq_dec k axes) as [H2|H2]; try reflexivity.
  - destruct H1; [lia|contradiction].
  - exfalso. apply H1. right. assumption.
Qed.
Lemma nkept_drop : forall len a axes k, a < k -> nkept (a :: axes) k len = nkept axes k len.
Proof. intros. rewrite <- !(kepts_length _ _ _ 0), kepts_drop by assumption. reflexivity. Qed.

Lemma wr_mid {A} (pre : list A) x post v : wr (pre ++ x :: post) (length pre) v = Ok (pre ++ v :: post).
Proof. rewrite wr_ok by (rewrite app_length; cbn; lia). rewrite upd_mid. reflexivity. Qed.

Lemma shape_mapping_ok : forall rest i axes pre mpre junk mjunk,
  StronglySorted Z.lt axes -> Forall (fun a => Z.of_nat i <= a) axes ->
  length mpre = length pre -> length junk = nkept axes (Z.of_nat i) (length rest) -> length mjunk = length junk ->
  shape_mapping rest i axes (length pre) (pre ++ junk) (mpre ++ mjunk) =
  Ok (pre ++ without axes (Z.of_nat i) rest, mpre ++ kepts axes (Z.of_nat i) i (length rest)).
Proof.
  induction rest as [|x rest IH]; intros i axes pre mpre junk mjunk HS HF H1 H2 H3.
  - cbn in *. destruct junk; [|discriminate]. destruct mjunk; [|discriminate]. reflexivity.
  - cbn [shape_mapping length without kepts nkept] in *. replace (Z.of_nat i + 1) with (Z.of_nat (S i)) in * by lia.
    destruct axes as [|a axes].
    + destruct (in_dec Z.eq_dec (Z.of_nat i) []) as [[]|_].
      destruct junk as [|y junk]; [discriminate|]. destruct mjunk as [|z mjunk]; [discriminate|].
      rewrite wr_mid. cbn [bind]. rewrite <- H1 at 1. rewrite wr_mid. cbn [bind].
      specialize (IH (S i) [] (pre ++ [x]) (mpre ++ [i]) junk mjunk). rewrite <- !app_assoc in IH. cbn [app] in IH.
      rewrite !app_length in IH. cbn [length] in IH. replace (length pre + 1)%nat with (S (length pre)) in IH by lia.
      rewrite IH; auto; cbn in *; lia.
    + inversion HS as [|? ? HS' HA]; subst. inversion HF as [|? ? Ha HF']; subst.
      destruct (Z.eqb_spec a (Z.of_nat i)) as [->|Hne]; cbn [negb].
      * destruct (in_dec Z.eq_dec (Z.of_nat i) (Z.of_nat i :: axes)) as [_|Hn]; [|exfalso; apply Hn; left; reflexivity].
        rewrite without_drop, kepts_drop by lia. rewrite nkept_drop in H2 by lia. apply IH; auto.
        rewrite Forall_forall in *. intros b Hb. apply HA in Hb. lia.
      * destruct (in_dec Z.eq_dec (Z.of_nat i) (a :: axes)) as [Hin|Hnin].
        { exfalso. destruct Hin as [Hin|Hin]; [lia|]. rewrite Forall_forall in HA. apply HA in Hin. lia. }
        destruct junk as [|y junk]; [discriminate|]. destruct mjunk as [|z mjunk]; [discriminate|].
        rewrite wr_mid. cbn [bind]. rewrite <- H1 at 1. rewrite wr_mid. cbn [bind].
        specialize (IH (S i) (a :: axes) (pre ++ [x]) (mpre ++ [i]) junk mjunk). rewrite <- !app_assoc in IH. cbn [app] in IH.
        rewrite !app_length in IH. cbn [length] in IH. replace (length pre + 1)%nat with (S (length pre)) in IH by lia.
        rewrite IH; auto.
        -- rewrite Forall_forall in *. intros b [<-|Hb]; [lia|]. specialize (HF' b Hb). specialize (HA b Hb). lia.
        -- lia.
Qed.

Lemma mem_axis_spec i axes : mem_axis i axes = true <-> In (Z.of_nat i) axes.
Proof.
  unfold mem_axis. rewrite existsb_exists. split.
  - intros (x & Hx & E). apply Z.eqb_eq in E. subst. assumption.
  - intros H. exists (Z.of_nat i). split; [assumption|apply Z.eqb_refl].
Qed.

Lemma keep_shape_ok axes : forall rest done_ pre junk, length pre = length done_ -> length junk = length rest ->
  for_up (fun i shape => let* x := rd (done_ ++ rest) i in wr shape i (if mem_axis i axes then 1 else x)) (length done_) (length rest) (pre ++ junk) =
  Ok (pre ++ replaced axes 1 (Z.of_nat (length done_)) rest).
Proof.
  induction rest as [|x rest IH]; intros done_ pre junk H1 H2; destruct junk as [|y junk]; try discriminate.
  - reflexivity.
  - cbn [length for_up]. erewrite rd_ok by (rewrite nth_error_app2, Nat.sub_diag by lia; reflexivity). cbn [bind].
    assert (W : forall v, wr (pre ++ y :: junk) (length done_) v = Ok (pre ++ v :: junk)) by (intros v; rewrite <- H1; apply wr_mid).
    rewrite W. cbn [bind].
    specialize (IH (done_ ++ [x]) (pre ++ [if mem_axis (length done_) axes then 1 else x]) junk).
    rewrite <- !app_assoc in IH. cbn [app] in IH. rewrite !app_length in IH. cbn [length] in IH.
    replace (length done_ + 1)%nat with (S (length done_)) in IH by lia.
    rewrite IH; [|lia|cbn in H2; lia].
    cbn [replaced]. replace (Z.of_nat (length done_) + 1) with (Z.of_nat (S (length done_))) by lia. do 2 f_equal. f_equal.
    pose proof (mem_axis_spec (length done_) axes). destruct (in_dec Z.eq_dec (Z.of_nat (length done_)) axes), (mem_axis (length done_) axes); try reflexivity.
    + exfalso. intuition congruence.
    + exfalso. intuition congruence.
Qed.

(** ** Checking the axes *)
Lemma is_sorted_ok axes : StronglySorted Z.lt axes -> is_sorted axes = true.
Proof.
  induction 1 as [|a axes HS IH HA]; [reflexivity|]. destruct axes as [|b axes]; [reflexivity|].
  change (is_sorted (a :: b :: axes)) with (negb (b <? a) && is_sorted (b :: axes)). rewrite IH. inversion HA; subst. destruct (Z.ltb_spec b a); [lia|reflexivity].
Qed.
Lemma has_adjacent_ok axes : StronglySorted Z.lt axes -> has_adjacent axes = false.
Proof.
  induction 1 as [|a axes HS IH HA]; [reflexivity|]. destruct axes as [|b axes]; [reflexivity|].
  change (has_adjacent (a :: b :: axes)) with ((a =? b) || has_adjacent (b :: axes)). rewrite IH. inversion HA; subst. destruct (Z.eqb_spec a b); [lia|reflexivity].
Qed.
Lemma sorted_strict axes : is_sorted axes = true -> has_adjacent axes = false -> StronglySorted Z.lt axes.
Proof.
  intros H1 H2. apply Sorted_StronglySorted; [intros x y z; lia|]. revert H1 H2.
  induction axes as [|a axes IH]; intros H1 H2; [constructor|]. destruct axes as [|b axes]; [repeat constructor|].
  change (is_sorted (a :: b :: axes)) with (negb (b <? a) && is_sorted (b :: axes)) in H1.
  change (has_adjacent (a :: b :: axes)) with ((a =? b) || has_adjacent (b :: axes)) in H2.
  apply andb_prop in H1. destruct H1 as [H1 H1']. apply orb_false_elim in H2. destruct H2 as [H2 H2'].
  constructor; [apply IH; assumption|]. constructor. destruct (Z.ltb_spec b a); [discriminate|]. apply Z.eqb_neq in H2. lia.
Qed.

Lemma last_In {A} (l : list A) d : l <> [] -> In (last l d) l.
Proof. intros H. destruct (exists_last H) as (u & v & ->). rewrite last_last. apply in_or_app. right. left. reflexivity. Qed.
Lemma last_max axes a : StronglySorted Z.lt axes -> In a axes -> a <= last axes 0.
Proof.
  induction 1 as [|b axes HS IH HA]; [contradiction|]. intros [->|Hin]; destruct axes as [|c axes]; try (cbn; lia); try contradiction.
  - change (last (a :: c :: axes) 0) with (last (c :: axes) 0). rewrite Forall_forall in HA.
    specialize (HA _ (last_In (c :: axes) 0 ltac:(discriminate))). lia.
  - change (last (b :: c :: axes) 0) with (last (c :: axes) 0). auto.
Qed.

Definition small (dim : nat) : Prop := Z.of_nat dim < 2 ^ 64.

Lemma valid_axes_dim dim axes : valid_axes dim axes -> axes <> [] -> (0 < dim)%nat.
Proof. intros [_ HF] Hne. destruct axes; [congruence|]. inversion HF; subst. lia. Qed.

Lemma to_size_t_id x : 0 <= x < 2 ^ 64 -> to_size_t x = x.
Proof. intros H. unfold to_size_t. apply Z.mod_small. assumption. Qed.

Lemma check_axes_ok dim axes : small dim -> valid_axes dim axes -> check_axes dim axes = Ok tt.
Proof.
  intros Hsm Hv. pose proof (valid_axes_dim _ _ Hv) as Hd. destruct Hv as [HS HF]. unfold check_axes.
  rewrite is_sorted_ok, has_adjacent_ok by assumption. cbn [negb].
  destruct axes as [|a axes]; [reflexivity|]. specialize (Hd ltac:(discriminate)).
  rewrite to_size_t_id by (unfold small in Hsm; lia).
  pose proof (last_In (a :: axes) 0 ltac:(discriminate)) as Hin. rewrite Forall_forall in HF. specialize (HF _ Hin).
  destruct (Z.ltb_spec (Z.of_nat dim - 1) (last (a :: axes) 0)); [lia|reflexivity].
Qed.

(** Anything else is rejected, except on a 0-dimensional expression. *)
Lemma check_axes_bad dim axes : small dim -> (0 < dim)%nat -> Forall (fun a => 0 <= a) axes -> ~ valid_axes dim axes ->
  check_axes dim axes = Throw runtime_error.
Proof.
  intros Hsm Hd Hnn Hv. unfold check_axes.
  destruct (is_sorted axes) eqn:E1; [|reflexivity]. cbn [negb]. destruct (has_adjacent axes) eqn:E2; [reflexivity|].
  pose proof (sorted_strict _ E1 E2) as HS.
  destruct axes as [|a axes]; [exfalso; apply Hv; split; constructor|].
  rewrite to_size_t_id by (unfold small in Hsm; lia).
  destruct (Z.ltb_spec (Z.of_nat dim - 1) (last (a :: axes) 0)); [reflexivity|].
  exfalso. apply Hv. split; [assumption|]. rewrite Forall_forall in *. intros b Hb. specialize (Hnn b Hb).
  pose proof (last_max _ _ HS Hb). lia.
Qed.

Lemma valid_axes_length dim axes : valid_axes dim axes -> (length axes <= dim)%nat.
Proof.
  intros [HS HF].
  assert (NoDup (map Z.to_nat axes)).
  { clear -HS HF. induction HS as [|a axes HS IH HA]; cbn; [constructor|]. inversion HF; subst. constructor; [|apply IH; assumption].
    intros Hin. apply in_map_iff in Hin. destruct Hin as (b & E & Hb). rewrite Forall_forall in *. specialize (HA b Hb). specialize (H2 b Hb). lia. }
  assert (incl (map Z.to_nat axes) (seq 0 dim)).
  { intros x Hx. apply in_map_iff in Hx. destruct Hx as (b & <- & Hb). rewrite Forall_forall in HF. specialize (HF b Hb). apply in_seq. lia. }
  pose proof (NoDup_incl_length H H0) as HH. rewrite map_length, seq_length in HH. assumption.
Qed.

Lemma nkept_valid : forall len axes k, StronglySorted Z.lt axes -> Forall (fun a => k <= a < k + Z.of_nat len) axes ->
  (nkept axes k len + length axes = len)%nat.
Proof.
  induction len as [|len IH]; intros axes k HS HF.
  - destruct axes; [reflexivity|]. inversion HF; subst. lia.
  - cbn [nkept]. destruct axes as [|a axes].
    + destruct (in_dec Z.eq_dec k []) as [[]|_]. specialize (IH [] (k + 1) HS ltac:(constructor)). cbn in *. lia.
    + inversion HS as [|? ? HS' HA]; subst. inversion HF as [|? ? Ha HF']; subst.
      destruct (Z.eq_dec a k) as [->|Hne].
      * destruct (in_dec Z.eq_dec k (k :: axes)) as [_|Hn]; [|exfalso; apply Hn; left; reflexivity].
        rewrite nkept_drop by lia. specialize (IH axes (k + 1) HS'). cbn [length]. enough (nkept axes (k + 1) len + length axes = len)%nat by lia.
        apply IH. rewrite Forall_forall in *. intros b Hb. specialize (HA b Hb). specialize (HF' b Hb). lia.
      * destruct (in_dec Z.eq_dec k (a :: axes)) as [Hin|_].
        { exfalso. destruct Hin as [Hin|Hin]; [lia|]. rewrite Forall_forall in HA. apply HA in Hin. lia. }
        enough (nkept (a :: axes) (k + 1) len + length (a :: axes) = len)%nat by lia. apply IH; [assumption|].
        rewrite Forall_forall in *. intros b [<-|Hb]; [lia|]. specialize (HA b Hb). specialize (HF' b Hb). lia.
Qed.

Lemma make_reducer_ok {R} esh axes keep (initial : option R) : small (length esh) -> valid_axes (length esh) axes ->
  make_reducer esh axes keep initial =
  Ok (mk_reducer axes (red_shape keep axes esh) (if keep then seq 0 (length esh) else kepts axes 0 0 (length esh)) keep initial).
Proof.
  intros Hsm Hv. pose proof (valid_axes_length _ _ Hv) as Hle. unfold make_reducer.
  destruct (Nat.ltb_spec (length esh) (length axes)); [lia|]. rewrite andb_false_r.
  rewrite check_axes_ok by assumption. cbn [bind]. destruct keep.
  - unfold shape_mapping_keep. pose proof (keep_shape_ok axes esh [] [] (repeat 0 (length esh)) eq_refl) as E. cbn [app length] in E.
    rewrite E by apply repeat_length. reflexivity.
  - destruct Hv as [HS HF].
    pose proof (nkept_valid (length esh) axes 0 HS) as Hn.
    pose proof (shape_mapping_ok esh 0 axes [] [] (repeat 0 (length esh - length axes)) (repeat 0%nat (length esh - length axes)) HS) as E.
    cbn [app length] in E. rewrite E.
    + reflexivity.
    + eapply Forall_impl; [|exact HF]. cbn. intros. lia.
    + reflexivity.
    + rewrite repeat_length. change (Z.of_nat 0) with 0. enough (nkept axes 0 (length esh) + length axes = length esh)%nat by lia. apply Hn. eapply Forall_impl; [|exact HF]. cbn. intros. lia.
    + rewrite !repeat_length. reflexivity.
Qed.

Lemma make_reducer_bad {R} esh axes keep (initial : option R) : small (length esh) -> esh <> [] ->
  Forall (fun a => 0 <= a) axes -> ~ valid_axes (length esh) axes -> (length axes <= length esh)%nat \/ keep = true ->
  make_reducer esh axes keep initial = Throw runtime_error.
Proof.
  intros Hsm Hne Hnn Hv Hle. unfold make_reducer.
  assert (E : negb keep && (length esh <? length axes)%nat = false).
  { destruct Hle as [Hle| ->]; [|reflexivity]. destruct (Nat.ltb_spec (length esh) (length axes)); [lia|]. apply andb_false_r. }
  rewrite E, check_axes_bad; auto. destruct esh; [congruence|cbn; lia].
Qed.
