(** Proofs about concatenate, stack, hstack and vstack. *)
From Coq Require Import List ZArith Bool Lia.
From Verif Require Import Prelude PreludeFacts Strides_Model Strides_Spec Strides_Proofs Access_Model Manip_Spec
  Manip_Proofs Manip2_Proofs Manip4_Proofs Manip5_Proofs Builder_Model Builder_Spec.
Import ListNotations.
Open Scope Z_scope.

Lemma to_size_t_id x : 0 <= x < 2 ^ 64 -> to_size_t x = x.
Proof. intros. apply Z.mod_small. auto. Qed.
Lemma to_int_id x : - 2 ^ 31 <= x < 2 ^ 31 -> to_int x = x.
Proof. intros. unfold to_int. rewrite Z.mod_small; lia. Qed.

Lemma inb_true sh ix : inb sh ix = true <-> in_bounds sh ix.
Proof.
  revert ix; induction sh as [|n sh IH]; intros [|i ix]; cbn [inb]; split; intros H; try discriminate; try constructor; auto.
  - inversion H.
  - inversion H.
  - apply andb_true_iff in H as [H1 H2]. apply andb_true_iff in H1. lia.
  - apply andb_true_iff in H as [H1 H2]. apply IH. auto.
  - inversion H; subst. rewrite (proj2 (IH ix)) by auto. apply andb_true_iff. split; auto.
    apply andb_true_iff. lia.
Qed.
Lemma o_get_ok {V} (o : operand V) ix : in_bounds (o_shape o) ix -> o_get o ix = Ok (o_at o ix).
Proof. intros H. unfold o_get. rewrite (proj2 (inb_true _ _) H). reflexivity. Qed.

Lemma bounds_shape sh ix : in_bounds sh ix -> is_shape sh.
Proof. intros H. apply in_bounds_pos in H. eapply Forall_impl; [|exact H]. cbn. lia. Qed.

Lemma o_begin_ok {V} (o : operand V) ix : in_bounds (o_shape o) ix ->
  o_begin_plus o (row_pos (o_shape o) ix) = Ok (o_at o ix).
Proof.
  intros H. pose proof (bounds_shape _ _ H) as Hs. pose proof (row_pos_bound _ _ H) as Hb.
  unfold o_begin_plus. rewrite compute_size_prod.
  rewrite (proj2 (Z.leb_le _ _)) by lia. rewrite (proj2 (Z.ltb_lt _ _)) by lia. cbn [andb].
  destruct (ravel_unravel_lemma row_major (o_shape o) (or_introl eq_refl) Hs) as (_ & Hr).
  destruct (Hr ix H) as (p & Ep & _ & Eu). rewrite ravel_index_row in Ep by auto. injection Ep as <-.
  rewrite Eu. reflexivity.
Qed.

(** ** reading an index *)

(** [read] shows the index ix from position [off] on. *)
Definition shows (read : Z -> res Z) (off : Z) (ix : list Z) : Prop :=
  forall i x, nth_error ix i = Some x -> read (Z.of_nat i + off) = Ok x.

Lemma shows_rdz extra ix : shows (rdz (extra ++ ix)) (Z.of_nat (length extra)) ix.
Proof.
  intros i x H. apply rdz_ok; [lia|]. rewrite nth_error_app2 by lia.
  replace (Z.to_nat (Z.of_nat i + Z.of_nat (length extra)) - length extra)%nat with i by lia. auto.
Qed.
Lemma shows_rdz0 ix : shows (rdz ix) 0 ix.
Proof. apply (shows_rdz [] ix). Qed.
Lemma shows_bounded sh ix : in_bounds sh ix -> shows (bounded sh ix) 0 ix.
Proof.
  intros H i x Hx. unfold bounded. rewrite Z.add_0_r.
  rewrite (rdz_ok _ _ x) by (rewrite ?Nat2Z.id; auto; lia). cbn [bind].
  pose proof (in_bounds_length _ _ H) as Hl.
  assert (Hi : (i < length ix)%nat) by (apply nth_error_Some; congruence).
  destruct (nth_error sh i) as [b|] eqn:Eb; [|apply nth_error_None in Eb; lia].
  rewrite (rdz_ok _ _ b) by (rewrite ?Nat2Z.id; auto; lia). cbn [bind].
  pose proof (in_bounds_nth _ _ i H ltac:(lia)) as Hb.
  rewrite (nth_error_nth _ _ 0 Eb), (nth_error_nth _ _ 0 Hx) in Hb.
  rewrite (proj2 (Z.ltb_lt _ _)) by lia. reflexivity.
Qed.

Lemma adapt_in_bounds sh : forall pre rest ix,
  sh = pre ++ rest -> in_bounds rest ix -> adapt_index sh (length pre) ix = Ok ix.
Proof.
  intros pre rest; revert pre; induction rest as [|n rest IH]; intros pre ix E H; inversion H; subst; [reflexivity|].
  cbn [adapt_index]. pose proof (in_bounds_length _ _ H) as Hl. cbn in Hl.
  rewrite app_length; cbn [length].
  rewrite (proj2 (Nat.ltb_ge _ _)) by lia.
  rewrite rd_ok with (a := n) by (rewrite nth_error_app2, Nat.sub_diag by lia; reflexivity). cbn [bind].
  rewrite (proj2 (Z.leb_gt _ _)) by lia. cbn [andb].
  specialize (IH (pre ++ [n])). rewrite app_length in IH; cbn [length] in IH. rewrite Nat.add_1_r in IH.
  rewrite IH by (rewrite <- ?app_assoc; auto). reflexivity.
Qed.

Lemma gives_intro {V} (g : gen V) ix v : in_bounds (g_shape g) ix ->
  g_fun g ix = Ok v -> g_elem g (bounded (g_shape g) ix) (length ix) = Ok v -> gives g ix v.
Proof.
  intros H A B. unfold gives, gen_call, gen_unchecked, gen_element. repeat split; auto.
  rewrite (adapt_in_bounds _ [] (g_shape g) ix) by auto. exact A.
Qed.

Lemma adapt_extra sh extra ix : in_bounds sh ix -> adapt_index sh 0 (extra ++ ix) = Ok (extra ++ ix).
Proof.
  intros H. induction extra as [|x extra IH]; cbn [app adapt_index].
  - apply (adapt_in_bounds sh [] sh); auto.
  - rewrite app_length, (in_bounds_length _ _ H).
    rewrite (proj2 (Nat.ltb_lt _ _)) by lia. rewrite IH. reflexivity.
Qed.

(** ** strides computed in int *)

Lemma prod_ge1 l : Forall (fun d => 0 < d) l -> 1 <= prod l.
Proof. intros H. apply prod_pos in H. lia. Qed.

Lemma int_fold l : forall acc, 0 < acc -> Forall (fun d => 0 < d) l -> acc * prod l < 2 ^ 31 ->
  fold_left (fun acc n => to_int (to_size_t (to_size_t acc * n))) l acc = acc * prod l.
Proof.
  induction l as [|n l IH]; intros acc Ha Hl Hp; cbn [fold_left].
  - rewrite prod_nil. lia.
  - inversion Hl; subst. rewrite prod_cons in Hp |- *.
    pose proof (prod_ge1 l ltac:(auto)).
    assert (acc < 2 ^ 31) by nia.
    assert (0 < acc * n < 2 ^ 31) by nia.
    rewrite (to_size_t_id acc) by lia. rewrite to_size_t_id by lia. rewrite to_int_id by lia.
    rewrite IH; auto; try nia.
Qed.

Lemma suffix_pos (sh : list Z) i : Forall (fun d => 0 < d) sh -> 1 <= prod (skipn i sh) <= prod sh.
Proof.
  intros H. rewrite <- (firstn_skipn i sh) at 3. rewrite prod_app.
  assert (H' := H). rewrite <- (firstn_skipn i sh) in H'. apply Forall_app in H' as [H1 H2].
  pose proof (prod_ge1 _ H1). pose proof (prod_ge1 _ H2). nia.
Qed.

Lemma int_stride_ok sh i : Forall (fun d => 0 < d) sh -> prod sh < 2 ^ 31 ->
  int_stride sh i = prod (skipn (S i) sh).
Proof.
  intros H Hp. unfold int_stride. rewrite Nat.add_1_r. pose proof (suffix_pos sh (S i) H).
  rewrite int_fold; rewrite ?Z.mul_1_l; try apply to_size_t_id; try apply Forall_skipn'; auto; lia.
Qed.

Lemma row_pos_skip sh ix i n x : nth_error sh i = Some n -> nth_error ix i = Some x ->
  row_pos (skipn i sh) (skipn i ix) = x * prod (skipn (S i) sh) + row_pos (skipn (S i) sh) (skipn (S i) ix).
Proof. intros A B. rewrite (skipn_cons_nth _ _ _ A), (skipn_cons_nth _ _ _ B). reflexivity. Qed.

Lemma in_bounds_skip sh ix i : in_bounds sh ix -> in_bounds (skipn i sh) (skipn i ix).
Proof.
  revert sh ix; induction i; intros sh ix H; [auto|]. inversion H; subst; cbn [skipn]; auto.
Qed.

(** ** concatenate: access *)

Lemma cc_get_ok {V} (o : operand V) axis axis_dim off read jx :
  in_bounds (o_shape o) jx -> prod (o_shape o) < 2 ^ 31 -> (axis < length jx)%nat ->
  (forall i x, i <> axis -> nth_error jx i = Some x -> read (Z.of_nat i + off) = Ok x) ->
  nth axis jx 0 = axis_dim ->
  cc_get axis axis_dim off read o = Ok (o_at o jx).
Proof.
  intros Hb Hp Ha Hr Hx. unfold cc_get.
  pose proof (in_bounds_length _ _ Hb) as Hl. pose proof (in_bounds_pos _ _ Hb) as Hpos.
  pose proof (row_pos_bound _ _ Hb) as HB.
  set (sh := o_shape o) in *.
  destruct (for_up_inv
    (fun i (s : Z) => 0 <= s /\ s + row_pos (skipn i sh) (skipn i jx) = row_pos sh jx)
    (cc_get_body sh axis axis_dim off read) 0 (length sh) 0) as (s & Es & I).
  - cbn [skipn]. lia.
  - intros i s Hi (I0 & I). cbn in Hi.
    destruct (nth_error_lt_ex sh i ltac:(lia)) as (n & En).
    destruct (nth_error_lt_ex jx i ltac:(lia)) as (x & Ex).
    pose proof (row_pos_skip sh jx i n x En Ex) as Hrp.
    pose proof (row_pos_bound _ _ (in_bounds_skip sh jx (S i) Hb)) as Hb1.
    pose proof (suffix_pos sh (S i) Hpos) as Hs1.
    assert (Hx0 : 0 <= x).
    { pose proof (in_bounds_nth _ _ i Hb ltac:(lia)) as Hbi. rewrite (nth_error_nth _ _ 0 Ex) in Hbi. lia. }
    assert (Hnn : 0 <= x * prod (skipn (S i) sh)) by nia.
    exists (s + x * prod (skipn (S i) sh)). split; [|lia].
    unfold cc_get_body. rewrite int_stride_ok by auto.
    destruct (Nat.eqb_spec i axis) as [->|Hne].
    + rewrite (nth_error_nth _ _ 0 Ex) in Hx. subst x. rewrite to_size_t_id by lia. reflexivity.
    + rewrite (Hr i x Hne Ex). cbn [bind]. rewrite to_size_t_id by lia. reflexivity.
  - rewrite Es. cbn [bind]. destruct I as (_ & I). cbn [Nat.add] in I.
    rewrite !skipn_all2 in I by lia. cbn [row_pos] in I. rewrite Z.add_0_r in I. rewrite I. subst sh.
    apply o_begin_ok. auto.
Qed.

Lemma extent_sum_cons {V} axis (o : operand V) t : extent_sum axis (o :: t) = nth axis (o_shape o) 0 + extent_sum axis t.
Proof. reflexivity. Qed.
Lemma extent_sum_app {V} axis (t u : list (operand V)) : extent_sum axis (t ++ u) = extent_sum axis t + extent_sum axis u.
Proof. induction t; cbn [app]; [cbn; lia|]. rewrite !extent_sum_cons. lia. Qed.
Lemma extent_sum_nonneg {V} axis (t : list (operand V)) : (forall o, In o t -> is_shape (o_shape o)) -> 0 <= extent_sum axis t.
Proof.
  induction t as [|o t IH]; intros H; [cbn; lia|]. rewrite extent_sum_cons.
  pose proof (IH ltac:(intros; apply H; right; auto)). pose proof (H o (or_introl eq_refl)) as Ho.
  assert (0 <= nth axis (o_shape o) 0); [|lia].
  destruct (Nat.lt_ge_cases axis (length (o_shape o))) as [Hl|Hl]; [|rewrite nth_overflow by lia; lia].
  unfold is_shape in Ho. rewrite Forall_forall in Ho. apply Ho, nth_In; auto.
Qed.

Lemma nth_shape_nonneg sh k : is_shape sh -> 0 <= nth k sh 0.
Proof.
  intros H. destruct (Nat.lt_ge_cases k (length sh)) as [Hl|Hl]; [|rewrite nth_overflow by lia; lia].
  unfold is_shape in H. rewrite Forall_forall in H. apply H, nth_In; auto.
Qed.

Lemma cc_select_ok {V} (dflt : V) axis off read : forall t k o jx p,
  (forall o, In o t -> is_shape (o_shape o) /\ (axis < length (o_shape o))%nat) ->
  nth_error t k = Some o -> in_bounds (o_shape o) jx -> prod (o_shape o) < 2 ^ 31 ->
  (forall i x, i <> axis -> nth_error jx i = Some x -> read (Z.of_nat i + off) = Ok x) ->
  p = extent_sum axis (firstn k t) + nth axis jx 0 ->
  cc_select dflt axis p off read t = Ok (o_at o jx).
Proof.
  induction t as [|o0 t IH]; intros k o jx p Ht Hk Hb Hp Hr E; [destruct k; discriminate|].
  destruct (Ht o0 (or_introl eq_refl)) as (Hs0 & Hl0).
  cbn [cc_select]. unfold cc_match.
  rewrite (rd_nth 0) by lia. cbn [bind].
  destruct k as [|k]; cbn in Hk.
  - injection Hk as ->. cbn [firstn extent_sum fold_right] in E. 
    pose proof (in_bounds_nth _ _ axis Hb ltac:(lia)).
    rewrite (proj2 (Z.leb_gt _ _)) by (cbn in E; lia). cbn [bind].
    apply cc_get_ok; auto; try (rewrite (in_bounds_length _ _ Hb); auto); cbn in E; lia.
  - cbn [firstn] in E. rewrite extent_sum_cons in E.
    assert (0 <= extent_sum axis (firstn k t)).
    { apply extent_sum_nonneg. intros o' Ho'. apply Ht. right. rewrite <- (firstn_skipn k t). apply in_or_app. auto. }
    assert (Hax : 0 <= nth axis jx 0).
    { assert (Hin : In o (o0 :: t)) by (right; eapply nth_error_In; eauto).
      destruct (Ht o Hin) as (_ & Hlo). pose proof (in_bounds_nth _ _ axis Hb ltac:(lia)). lia. }
    rewrite (proj2 (Z.leb_le _ _)) by lia. cbn [bind].
    apply (IH k o jx); auto; [|lia]. intros o' Ho'. apply Ht. right; auto.
Qed.

(** ** concatenate: shape *)

Lemma cc_check_ok axis sh0 sh :
  cc_check axis sh0 sh =
  if ((length sh0 =? length sh)%nat && forallb (fun k => (k =? axis)%nat || (nth k sh0 0 =? nth k sh 0)) (seq 0 (length sh0)))%bool
  then Ok tt else Throw concatenate_error.
Proof.
  unfold cc_check. set (n := length sh0) at 1 4.
  assert (G : forall m start r, (start + m <= length sh0)%nat -> (r = true -> length sh0 = length sh) ->
    for_up (cc_check_body axis sh0 sh) start m r =
    Ok (r && forallb (fun k => (k =? axis)%nat || (nth k sh0 0 =? nth k sh 0)) (seq start m))).
  { induction m; intros start r Hm Hr; cbn [for_up seq forallb]; [rewrite andb_true_r; auto|].
    unfold cc_check_body at 1. destruct r; cbn [andb].
    - specialize (Hr eq_refl). destruct (Nat.eqb_spec start axis) as [Es|Es]; cbn [bind orb].
      + rewrite IHm by (auto; lia). reflexivity.
      + rewrite (rd_nth 0) by lia. cbn [bind]. rewrite (rd_nth 0) by lia. cbn [bind].
        rewrite IHm by (auto; lia). destruct (nth start sh0 0 =? nth start sh 0); reflexivity.
    - cbn [bind]. rewrite IHm by (auto; try lia; discriminate). reflexivity. }
  rewrite G; [|lia|intros H; apply Nat.eqb_eq in H; auto]. cbn [bind]. reflexivity.
Qed.

Definition fits_axis (axis : nat) (sh0 sh : list Z) : Prop :=
  length sh0 = length sh /\ forall k, (k < length sh0)%nat -> k <> axis -> nth k sh0 0 = nth k sh 0.

Lemma cc_check_spec axis sh0 sh :
  (fits_axis axis sh0 sh -> cc_check axis sh0 sh = Ok tt) /\
  (~ fits_axis axis sh0 sh -> cc_check axis sh0 sh = Throw concatenate_error).
Proof.
  rewrite cc_check_ok. destruct (Nat.eqb_spec (length sh0) (length sh)) as [El|El]; cbn [andb].
  - destruct (forallb _ _) eqn:Ef; split; intros H; auto.
    + exfalso. apply H. split; auto. intros k Hk Hne. rewrite forallb_forall in Ef.
      specialize (Ef k). rewrite in_seq in Ef. specialize (Ef ltac:(lia)).
      apply orb_true_iff in Ef as [E|E]; [apply Nat.eqb_eq in E; lia|apply Z.eqb_eq in E; auto].
    + exfalso. assert (Et : forallb (fun k => (k =? axis)%nat || (nth k sh0 0 =? nth k sh 0)) (seq 0 (length sh0)) = true);
        [|congruence].
      apply forallb_forall. intros k Hk. apply in_seq in Hk. destruct H as (_ & H).
      destruct (Nat.eqb_spec k axis); cbn [orb]; auto. apply Z.eqb_eq, H; auto; lia.
  - split; intros H; auto. destruct H. contradiction.
Qed.

Lemma cc_checks_ok {V} axis sh0 (t : list (operand V)) :
  (forall o, In o t -> fits_axis axis sh0 (o_shape o)) ->
  for_each (fun o _ => cc_check axis sh0 (o_shape o)) t tt = Ok tt.
Proof.
  induction t as [|o t IH]; intros H; cbn [for_each]; auto.
  rewrite (proj1 (cc_check_spec axis sh0 (o_shape o))) by (apply H; left; auto). cbn [bind].
  apply IH. intros; apply H; right; auto.
Qed.

Lemma fits_dec axis sh0 sh : fits_axis axis sh0 sh \/ ~ fits_axis axis sh0 sh.
Proof.
  destruct (cc_check axis sh0 sh) as [[]|ex|] eqn:E.
  - left. rewrite cc_check_ok in E.
    destruct (Nat.eqb_spec (length sh0) (length sh)) as [El|]; cbn [andb] in E; [|discriminate].
    destruct (forallb _ _) eqn:Ef; [|discriminate]. split; auto.
    intros k Hk Hne. rewrite forallb_forall in Ef. specialize (Ef k). rewrite in_seq in Ef. specialize (Ef ltac:(lia)).
    apply orb_true_iff in Ef as [E1|E1]; [apply Nat.eqb_eq in E1; lia|apply Z.eqb_eq in E1; auto].
  - right. intros H. rewrite (proj1 (cc_check_spec _ _ _) H) in E. discriminate.
  - right. intros H. rewrite (proj1 (cc_check_spec _ _ _) H) in E. discriminate.
Qed.

Lemma cc_checks_throw {V} axis sh0 (t : list (operand V)) :
  ~ (forall o, In o t -> fits_axis axis sh0 (o_shape o)) ->
  for_each (fun o _ => cc_check axis sh0 (o_shape o)) t tt = Throw concatenate_error.
Proof.
  induction t as [|o t IH]; intros H; cbn [for_each].
  - exfalso. apply H. intros ? [].
  - destruct (fits_dec axis sh0 (o_shape o)) as [Ho|Ho].
    + rewrite (proj1 (cc_check_spec _ _ _) Ho). cbn [bind]. apply IH. intros Ht. apply H.
      intros o' [<-|Hin]; auto.
    + rewrite (proj2 (cc_check_spec _ _ _) Ho). reflexivity.
Qed.

Lemma cc_total {V} axis (t : list (operand V)) : forall acc,
  (forall o, In o t -> (axis < length (o_shape o))%nat) ->
  for_each (fun o prev => let* n := rd (o_shape o) axis in Ok (prev + n)) t acc = Ok (acc + extent_sum axis t).
Proof.
  induction t as [|o t IH]; intros acc H; cbn [for_each]; [cbn; f_equal; lia|].
  rewrite (rd_nth 0) by (apply H; left; auto). cbn [bind].
  rewrite IH by (intros; apply H; right; auto). rewrite extent_sum_cons. f_equal. lia.
Qed.

Lemma conform_fits {V} axis (o0 : operand V) t : In o0 t -> conform axis t ->
  forall o, In o t -> fits_axis axis (o_shape o0) (o_shape o).
Proof. intros H0 Hc o Ho. destruct (Hc o0 o H0 Ho) as (_ & A & B). split; auto. Qed.

Lemma cc_build_ok {V} axis (o0 : operand V) t : conform axis (o0 :: t) ->
  cc_build (o0 :: t) axis = Ok (upd (o_shape o0) axis (extent_sum axis (o0 :: t))).
Proof.
  intros Hc. unfold cc_build. cbn [rd nth_error]. cbn [bind].
  change (rd (o0 :: t) 0) with (Ok o0). cbn [bind].
  rewrite cc_checks_ok by (apply conform_fits; auto; left; auto). cbn [bind].
  rewrite cc_total by (intros o Ho; apply (Hc o o); auto). cbn [bind].
  assert (axis < length (o_shape o0))%nat by (apply (Hc o0 o0); left; auto).
  rewrite (rd_nth 0) by auto. cbn [bind]. rewrite wr_ok by auto. f_equal. f_equal. lia.
Qed.

(** ** concatenate *)

Lemma placed_bounds {V} axis (t : list (operand V)) k o jx :
  (forall o, In o t -> is_shape (o_shape o)) ->
  nth_error t k = Some o -> in_bounds (o_shape o) jx -> (axis < length (o_shape o))%nat ->
  in_bounds (upd (o_shape o) axis (extent_sum axis t)) (placed axis t k jx).
Proof.
  intros Hs Hk Hb Ha. pose proof (in_bounds_length _ _ Hb) as Hl. unfold placed.
  apply in_bounds_intro; [rewrite !upd_length; auto|].
  intros i Hi. rewrite upd_length in Hi.
  destruct (Nat.eq_dec i axis) as [->|Hne].
  - rewrite !nth_upd_same by lia.
    assert (E : extent_sum axis t = extent_sum axis (firstn k t) + nth axis (o_shape o) 0 + extent_sum axis (skipn (S k) t)).
    { rewrite <- (firstn_skipn k t) at 1. rewrite extent_sum_app, (skipn_cons_nth _ _ _ Hk), extent_sum_cons. lia. }
    pose proof (in_bounds_nth _ _ axis Hb ltac:(lia)).
    assert (0 <= extent_sum axis (firstn k t)).
    { apply extent_sum_nonneg. intros o' Ho'. apply Hs. rewrite <- (firstn_skipn k t). apply in_or_app; auto. }
    assert (0 <= extent_sum axis (skipn (S k) t)).
    { apply extent_sum_nonneg. intros o' Ho'. apply Hs. rewrite <- (firstn_skipn (S k) t). apply in_or_app; auto. }
    lia.
  - rewrite !nth_upd_other by auto. apply in_bounds_nth; auto.
Qed.

Lemma placed_cover {V} axis : forall (t : list (operand V)) sh ix,
  (forall o, In o t -> is_shape (o_shape o) /\ fits_axis axis sh (o_shape o)) -> (axis < length sh)%nat ->
  in_bounds (upd sh axis (extent_sum axis t)) ix ->
  exists k o jx, nth_error t k = Some o /\ in_bounds (o_shape o) jx /\ ix = placed axis t k jx.
Proof.
  induction t as [|o t IH]; intros sh ix Ht Ha Hb.
  - exfalso. pose proof (in_bounds_nth _ _ axis Hb ltac:(rewrite upd_length; auto)) as H.
    rewrite nth_upd_same in H by auto. cbn in H. lia.
  - pose proof (in_bounds_length _ _ Hb) as Hl. rewrite upd_length in Hl.
    pose proof (in_bounds_nth _ _ axis Hb ltac:(rewrite upd_length; auto)) as H.
    rewrite nth_upd_same in H by auto. rewrite extent_sum_cons in H.
    destruct (Ht o (or_introl eq_refl)) as (Hs & Hfl & Hfx).
    destruct (Z.lt_ge_cases (nth axis ix 0) (nth axis (o_shape o) 0)) as [Hlt|Hge].
    + exists 0%nat, o, ix. split; [reflexivity|]. split.
      * apply in_bounds_intro; [lia|]. intros k Hk. destruct (Nat.eq_dec k axis) as [->|Hne]; [lia|].
        pose proof (in_bounds_nth _ _ k Hb ltac:(rewrite upd_length; lia)) as Hb'. rewrite nth_upd_other in Hb' by auto.
        rewrite <- Hfx by (auto; lia). auto.
      * unfold placed. cbn [firstn extent_sum fold_right]. rewrite Z.add_0_l. symmetry. apply upd_nth_self.
        apply nth_error_nth'. lia.
    + destruct (IH sh (upd ix axis (nth axis ix 0 - nth axis (o_shape o) 0))) as (k & o' & jx & A & B & C).
      * intros o' Ho'. apply Ht. right; auto.
      * auto.
      * apply in_bounds_intro; [rewrite !upd_length; lia|]. rewrite upd_length. intros k Hk.
        destruct (Nat.eq_dec k axis) as [->|Hne].
        -- rewrite !nth_upd_same by lia. lia.
        -- rewrite !nth_upd_other by auto.
           pose proof (in_bounds_nth _ _ k Hb ltac:(rewrite upd_length; lia)) as Hb'. rewrite nth_upd_other in Hb' by auto. auto.
      * exists (S k), o', jx. split; [exact A|]. split; [exact B|].
        unfold placed in C |- *. cbn [firstn]. rewrite extent_sum_cons.
        assert (Hjl : (axis < length jx)%nat).
        { rewrite (in_bounds_length _ _ B). destruct (Ht o' (or_intror (nth_error_In _ _ A))) as (_ & E & _). lia. }
        pose proof (f_equal (fun l => nth axis l 0) C) as C2. cbv beta in C2. rewrite !nth_upd_same in C2 by lia.
        apply (f_equal (fun l => upd l axis (nth axis ix 0))) in C. rewrite !upd_upd_same in C.
        rewrite upd_nth_self in C by (apply nth_error_nth'; lia).
        assert (E2 : nth axis ix 0 = nth axis (o_shape o) 0 + extent_sum axis (firstn k t) + nth axis jx 0) by lia.
        rewrite C. f_equal. rewrite <- E2. reflexivity.
Qed.

Lemma conform_shape {V} axis (t : list (operand V)) o1 o2 n : conform axis t -> In o1 t -> In o2 t ->
  upd (o_shape o1) axis n = upd (o_shape o2) axis n.
Proof.
  intros Hc H1 H2. destruct (Hc o1 o2 H1 H2) as (Ha & Hl & Hx).
  apply list_eq_nth; rewrite ?upd_length; auto. intros i Hi.
  destruct (Nat.eq_dec i axis) as [->|Hne]; [rewrite !nth_upd_same by lia; auto|rewrite !nth_upd_other by auto; auto].
Qed.

(** reading the placed index, from any offset *)
Lemma cc_access_placed {V} (dflt : V) axis (t : list (operand V)) k o jx read n :
  conform axis t -> (forall o, In o t -> small o) ->
  nth_error t k = Some o -> in_bounds (o_shape o) jx ->
  shows read (Z.of_nat n - Z.of_nat (length jx)) (placed axis t k jx) ->
  cc_access dflt t axis read n = Ok (o_at o jx).
Proof.
  intros Hc Hsm Hk Hb Hr. unfold cc_access.
  pose proof (nth_error_In _ _ Hk) as Hin.
  destruct t as [|o0 t]; [destruct k; discriminate|]. change (rd (o0 :: t) 0) with (Ok o0). cbn [bind].
  destruct (Hc o0 o (or_introl eq_refl) Hin) as (Ha0 & Hl0 & _).
  pose proof (in_bounds_length _ _ Hb) as Hl.
  replace (length (o_shape o0)) with (length jx) by lia.
  rewrite (Hr axis (extent_sum axis (firstn k (o0 :: t)) + nth axis jx 0)).
  2:{ unfold placed. apply nth_error_upd_same. lia. }
  cbn [bind].
  apply cc_select_ok with (k := k) (jx := jx); auto.
  - intros o' Ho'. split; [apply Hsm; auto|apply (Hc o' o'); auto].
  - apply Hsm; auto.
  - intros i x Hne Hx. apply Hr. unfold placed. rewrite nth_error_upd_other by auto. auto.
Qed.

Lemma concatenate_lemma : forall (V : Type) (dflt : V) (t : list (operand V)) (axis : nat),
  t <> [] -> conform axis t -> (forall o, In o t -> small o) ->
  exists g, concatenate dflt t axis = Ok g /\ concatenation axis t g.
Proof.
  intros V dflt t axis Hne Hc Hsm. destruct t as [|o0 t']; [congruence|].
  unfold concatenate. rewrite cc_build_ok by auto. cbn [bind]. eexists; split; [reflexivity|].
  set (t := o0 :: t') in *. assert (H0 : In o0 t) by (left; auto).
  assert (Hsh : forall o, In o t -> upd (o_shape o0) axis (extent_sum axis t) = upd (o_shape o) axis (extent_sum axis t)).
  { intros o Ho. eapply conform_shape; eauto. }
  split; [exact Hsh|]. split; cbn [g_shape].
  - intros k o jx Hk Hb. pose proof (nth_error_In _ _ Hk) as Hin.
    assert (Hpb : in_bounds (upd (o_shape o0) axis (extent_sum axis t)) (placed axis t k jx)).
    { rewrite (Hsh o Hin). apply placed_bounds; auto; [intros; apply Hsm; auto|apply (Hc o o); auto]. }
    split; [exact Hpb|].
    assert (Hlen : length (placed axis t k jx) = length jx) by (unfold placed; apply upd_length).
    apply gives_intro; cbn [g_shape g_fun g_elem]; auto; rewrite Hlen;
      apply cc_access_placed with (k := k); auto; rewrite Z.sub_diag.
    + apply shows_rdz0.
    + apply shows_bounded; auto.
  - intros ix Hb. apply placed_cover with (sh := o_shape o0); auto.
    + intros o Ho. split; [apply Hsm; auto|]. eapply conform_fits; eauto.
    + apply (Hc o0 o0); auto.
Qed.

(** extra leading indices are ignored by operator() and unchecked *)
Lemma concatenate_extra_lemma : forall (V : Type) (dflt : V) (t : list (operand V)) (axis : nat) (g : gen V) (extra ix : list Z),
  conform axis t -> (forall o, In o t -> small o) ->
  concatenate dflt t axis = Ok g -> in_bounds (g_shape g) ix ->
  gen_call g (extra ++ ix) = gen_call g ix /\ gen_unchecked g (extra ++ ix) = gen_unchecked g ix.
Proof.
  intros V dflt t axis g extra ix Hc Hsm Hg Hb.
  assert (Hne : t <> []) by (intros ->; discriminate Hg).
  destruct (concatenate_lemma V dflt t axis Hne Hc Hsm) as (g' & Eg & Hsh & Hgive & Hcov).
  rewrite Eg in Hg. injection Hg as ->.
  destruct (Hcov ix Hb) as (k & o & jx & Hk & Hbj & ->).
  destruct (Hgive k o jx Hk Hbj) as (Hb' & E1 & E2 & _).
  rewrite E1, E2. unfold gen_call. rewrite adapt_extra by auto. cbn [bind].
  assert (g_fun g (extra ++ placed axis t k jx) = Ok (o_at o jx)); [|auto].
  unfold concatenate in Eg. apply bind_ok in Eg as (sh & Esh & Eg). injection Eg as <-. cbn [g_fun].
  apply cc_access_placed with (k := k); auto.
  rewrite app_length. replace (length (placed axis t k jx)) with (length jx) by (unfold placed; rewrite upd_length; auto).
  replace (Z.of_nat (length extra + length jx) - Z.of_nat (length jx)) with (Z.of_nat (length extra)) by lia.
  apply shows_rdz.
Qed.

Lemma concatenate_throws_lemma : forall (V : Type) (dflt : V) (t : list (operand V)) (axis : nat) o1 o2,
  In o1 t -> In o2 t ->
  (length (o_shape o1) <> length (o_shape o2) \/
   exists k, (k < length (o_shape o1))%nat /\ k <> axis /\ nth k (o_shape o1) 0 <> nth k (o_shape o2) 0) ->
  concatenate dflt t axis = Throw concatenate_error.
Proof.
  intros V dflt t axis o1 o2 H1 H2 Hd. destruct t as [|o0 t]; [destruct H1|].
  unfold concatenate, cc_build. change (rd (o0 :: t) 0) with (Ok o0). cbn [bind].
  rewrite cc_checks_throw; [reflexivity|].
  intros H. destruct (H o1 H1) as (A1 & B1). destruct (H o2 H2) as (A2 & B2).
  destruct Hd as [Hd|(k & Hk & Hne & Hd)]; [congruence|]. apply Hd. rewrite <- B1, <- B2 by (auto; lia). auto.
Qed.

Lemma hstack_lemma : forall (V : Type) (dflt : V) (t : list (operand V)) (o : operand V),
  In o t -> let axis := if (1 <? length (o_shape o))%nat then 1%nat else 0%nat in
  conform axis t -> (forall o, In o t -> small o) ->
  exists g, hstack dflt t = Ok g /\ concatenation axis t g.
Proof.
  intros V dflt t o Ho axis Hc Hsm. destruct t as [|o0 t]; [destruct Ho|].
  unfold hstack. change (rd (o0 :: t) 0) with (Ok o0). cbn [bind].
  destruct (Hc o0 o (or_introl eq_refl) Ho) as (_ & El & _). rewrite El. fold axis.
  apply concatenate_lemma; auto. discriminate.
Qed.

(** ** stack *)

Lemma st_get_ok {V} (o : operand V) axis read jx x0 :
  in_bounds (o_shape o) jx -> prod (o_shape o) < 2 ^ 31 ->
  shows read 0 (insert_at axis x0 jx) -> (axis <= length jx)%nat ->
  st_get axis read o = Ok (o_at o jx).
Proof.
  intros Hb Hp Hr Ha. unfold st_get.
  pose proof (in_bounds_length _ _ Hb) as Hl. pose proof (in_bounds_pos _ _ Hb) as Hpos.
  pose proof (row_pos_bound _ _ Hb) as HB.
  set (sh := o_shape o) in *.
  destruct (for_up_inv
    (fun i (s : Z * Z) => snd s = (if (axis <? i)%nat then 1 else 0) /\
       0 <= fst s /\ fst s + row_pos (skipn i sh) (skipn i jx) = row_pos sh jx)
    (st_get_body sh axis read) 0 (length sh) (0, 0)) as ([s aft] & Es & I).
  - cbn [skipn fst snd]. repeat split; try lia. 
  - intros i [s aft] Hi (Iaft & I0 & I). cbn [fst snd] in *. cbn in Hi.
    destruct (nth_error_lt_ex sh i ltac:(lia)) as (n & En).
    destruct (nth_error_lt_ex jx i ltac:(lia)) as (x & Ex).
    pose proof (row_pos_skip sh jx i n x En Ex) as Hrp.
    pose proof (row_pos_bound _ _ (in_bounds_skip sh jx (S i) Hb)) as Hb1.
    pose proof (suffix_pos sh (S i) Hpos) as Hs1.
    assert (Hx0 : 0 <= x).
    { pose proof (in_bounds_nth _ _ i Hb ltac:(lia)) as Hbi. rewrite (nth_error_nth _ _ 0 Ex) in Hbi. lia. }
    assert (Hnn : 0 <= x * prod (skipn (S i) sh)) by nia.
    exists (s + x * prod (skipn (S i) sh), if (axis <? S i)%nat then 1 else 0). cbn [fst snd].
    split; [|split; [auto|lia]].
    unfold st_get_body. rewrite int_stride_ok by auto.
    assert (Eaft : (if (i =? axis)%nat then 1 else aft) = (if (axis <? S i)%nat then 1 else 0)).
    { subst aft. destruct (Nat.eqb_spec i axis), (Nat.ltb_spec axis (S i)), (Nat.ltb_spec axis i); auto; lia. }
    rewrite Eaft.
    assert (Er : read (Z.of_nat i + (if (axis <? S i)%nat then 1 else 0)) = Ok x).
    { unfold shows, insert_at in Hr. destruct (Nat.ltb_spec axis (S i)) as [Hc|Hc].
      - rewrite <- (Z.add_0_r (Z.of_nat i + 1)). replace (Z.of_nat i + 1) with (Z.of_nat (S i)) by lia. apply Hr.
        rewrite nth_error_app2; rewrite firstn_length, Nat.min_l by lia; [|lia].
        replace (S i - axis)%nat with (S (i - axis)) by lia. cbn [nth_error].
        rewrite nth_error_skipn. replace (axis + (i - axis))%nat with i by lia. auto.
      - apply Hr. rewrite nth_error_app1 by (rewrite firstn_length; lia).
        rewrite nth_error_firstn; auto. }
    rewrite Er. cbn [bind]. rewrite to_size_t_id by lia. reflexivity.
  - rewrite Es. cbn [bind]. destruct I as (_ & _ & I). cbn [Nat.add fst] in I.
    rewrite !skipn_all2 in I by lia. cbn [row_pos] in I. rewrite Z.add_0_r in I. rewrite I. subst sh.
    apply o_begin_ok. auto.
Qed.

Lemma st_access_ok {V} (dflt : V) axis (t : list (operand V)) k o jx read :
  nth_error t k = Some o -> in_bounds (o_shape o) jx -> prod (o_shape o) < 2 ^ 31 -> (axis <= length jx)%nat ->
  shows read 0 (insert_at axis (Z.of_nat k) jx) ->
  st_access dflt t axis read = Ok (o_at o jx).
Proof.
  intros Hk Hb Hp Ha Hr. unfold st_access.
  rewrite <- (Z.add_0_r (Z.of_nat axis)). rewrite (Hr axis (Z.of_nat k)).
  2:{ unfold insert_at. rewrite nth_error_app2; rewrite firstn_length, Nat.min_l by lia; [|lia].
      rewrite Nat.sub_diag. reflexivity. }
  cbn [bind]. rewrite Nat2Z.id, Hk. eapply st_get_ok; eauto.
Qed.

Lemma insert_bounds axis sh jx n k : (axis <= length sh)%nat -> in_bounds sh jx -> 0 <= k < n ->
  in_bounds (insert_at axis n sh) (insert_at axis k jx).
Proof.
  intros Ha Hb Hk. unfold insert_at. apply in_bounds_app.
  - clear - Hb. revert axis; induction Hb; intros [|a]; cbn; constructor; auto. apply IHHb.
  - constructor; [lia|]. apply in_bounds_skip. auto.
Qed.

Lemma insert_cover axis sh n ix : (axis <= length sh)%nat -> in_bounds (insert_at axis n sh) ix ->
  exists k jx, 0 <= k < n /\ in_bounds sh jx /\ ix = insert_at axis k jx.
Proof.
  intros Ha Hb. unfold insert_at in Hb. apply in_bounds_split in Hb as (i1 & i2 & -> & B1 & B2).
  inversion B2; subst. eexists _, (i1 ++ l'). split; [eassumption|]. split.
  - rewrite <- (firstn_skipn axis sh). apply in_bounds_app; auto.
  - symmetry. eapply insert_split; eauto. rewrite (in_bounds_length _ _ B1), firstn_length. lia.
Qed.

Lemma stacking_intro {V} (dflt : V) axis (t : list (operand V)) (o0 : operand V) (g : gen V) :
  (forall o, In o t -> o_shape o = o_shape o0) -> In o0 t ->
  (axis <= length (o_shape o0))%nat -> small o0 ->
  g_shape g = insert_at axis (Z.of_nat (length t)) (o_shape o0) ->
  (forall k o jx read n, nth_error t k = Some o -> in_bounds (o_shape o) jx ->
      shows read 0 (insert_at axis (Z.of_nat k) jx) -> n = S (length jx) ->
      g_elem g read n = st_access dflt t axis read) ->
  (forall k o jx args, nth_error t k = Some o -> in_bounds (o_shape o) jx -> args = insert_at axis (Z.of_nat k) jx ->
      g_fun g args = st_access dflt t axis (rdz args)) ->
  stacking axis t g.
Proof.
  intros Hsame H0 Ha Hsm Hsh Hel Hfun. split.
  { intros o Ho. rewrite Hsh, (Hsame o Ho). reflexivity. }
  split.
  - intros k o jx Hk Hb. pose proof (nth_error_In _ _ Hk) as Hin.
    assert (Hkl : (k < length t)%nat) by (apply nth_error_Some; congruence).
    assert (Hb' : in_bounds (g_shape g) (insert_at axis (Z.of_nat k) jx)).
    { rewrite Hsh, <- (Hsame o Hin). apply insert_bounds; auto; [rewrite (Hsame o Hin); auto|lia]. }
    split; [exact Hb'|].
    pose proof (in_bounds_length _ _ Hb) as Hl. rewrite (Hsame o Hin) in Hl.
    assert (Hp : prod (o_shape o) < 2 ^ 31) by (rewrite (Hsame o Hin); apply Hsm).
    apply gives_intro; auto.
    + rewrite (Hfun k o jx) by auto. eapply st_access_ok; eauto; [lia|apply shows_rdz0].
    + rewrite (Hel k o jx); auto.
      * eapply st_access_ok; eauto; [lia|]. apply shows_bounded; auto.
      * apply shows_bounded; auto.
      * unfold insert_at. rewrite app_length, firstn_length. cbn [length]. rewrite skipn_length. lia.
  - intros ix Hb. rewrite Hsh in Hb. apply insert_cover in Hb as (k & jx & Hk & Hb & ->); auto.
    destruct (nth_error_lt_ex t (Z.to_nat k) ltac:(lia)) as (o & Eo).
    exists (Z.to_nat k), o, jx. split; auto. rewrite (Hsame o (nth_error_In _ _ Eo)). split; auto.
    rewrite Z2Nat.id by lia. reflexivity.
Qed.

Lemma stack_lemma : forall (V : Type) (dflt : V) (t : list (operand V)) (o : operand V) (axis : nat),
  In o t -> (forall o', In o' t -> o_shape o' = o_shape o) -> small o -> (axis <= length (o_shape o))%nat ->
  exists g, stack dflt t axis = Ok g /\ stacking axis t g.
Proof.
  intros V dflt t o axis Ho Hsame Hsm Ha. destruct t as [|o0 t]; [destruct Ho|].
  unfold stack. change (rd (o0 :: t) 0) with (Ok o0). cbn [bind].
  pose proof (Hsame o0 (or_introl eq_refl)) as E0. rewrite E0.
  unfold add_axis. rewrite (proj2 (Nat.ltb_ge _ _)) by lia. cbn [bind]. eexists. split; [reflexivity|].
  apply stacking_intro with (dflt := dflt) (o0 := o); auto.
Qed.

Lemma vstack_one_lemma : forall (V : Type) (dflt : V) (t : list (operand V)) (o : operand V),
  In o t -> (forall o', In o' t -> o_shape o' = o_shape o) -> small o -> length (o_shape o) = 1%nat ->
  exists g, vstack dflt t = Ok g /\ stacking 0 t g.
Proof.
  intros V dflt t o Ho Hsame Hsm Hl. destruct t as [|o0 t]; [destruct Ho|].
  unfold vstack. change (rd (o0 :: t) 0) with (Ok o0). cbn [bind].
  pose proof (Hsame o0 (or_introl eq_refl)) as E0. rewrite E0, Hl, Nat.eqb_refl.
  destruct (o_shape o) as [|n [|? ?]] eqn:Esh; try discriminate. change (rd [n] 0) with (Ok n). cbn [bind].
  eexists. split; [reflexivity|].
  apply stacking_intro with (dflt := dflt) (o0 := o); auto.
  - rewrite Esh; auto.
  - cbn; lia.
  - cbn [g_shape]. rewrite Esh. reflexivity.
  - intros. cbn [g_elem]. unfold vs_access. change (rd (o0 :: t) 0) with (Ok o0). cbn [bind]. rewrite E0. reflexivity.
  - intros. cbn [g_fun]. unfold vs_access. change (rd (o0 :: t) 0) with (Ok o0). cbn [bind]. rewrite E0. reflexivity.
Qed.

Lemma vstack_many_lemma : forall (V : Type) (dflt : V) (t : list (operand V)),
  t <> [] -> conform 0 t -> (forall o, In o t -> small o /\ length (o_shape o) <> 1%nat) ->
  exists g, vstack dflt t = Ok g /\ concatenation 0 t g.
Proof.
  intros V dflt t Hne Hc Hsm.
  destruct (concatenate_lemma V dflt t 0 Hne Hc ltac:(intros; apply Hsm; auto)) as (g & Eg & Hg).
  exists g. split; [|exact Hg]. destruct t as [|o0 t]; [congruence|].
  unfold vstack, concatenate in *. change (rd (o0 :: t) 0) with (Ok o0). cbn [bind].
  destruct (Hsm o0 (or_introl eq_refl)) as (_ & Hl).
  rewrite (proj2 (Nat.eqb_neq _ _)) by auto.
  destruct (cc_build (o0 :: t) 0) as [sh| |]; try discriminate. cbn [bind] in *.
  injection Eg as <-. unfold vs_access. change (rd (o0 :: t) 0) with (Ok o0). cbn [bind].
  rewrite (proj2 (Nat.eqb_neq _ _)) by auto. reflexivity.
Qed.
