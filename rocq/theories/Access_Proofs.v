From Coq Require Import List ZArith Lia Bool.
From Verif Require Import Prelude PreludeFacts Strides_Model Strides_Spec Strides_Proofs Access_Model Access_Spec.
Import ListNotations.
Open Scope Z_scope.

Lemma to_size_t_cmp d a : 0 <= d < 2 ^ 63 -> fits a ->
  (to_size_t d <=? to_size_t a) = negb ((0 <=? a) && (a <? d)).
Proof.
  unfold to_size_t, fits. intros Hd Ha.
  rewrite (Z.mod_small d) by lia.
  destruct (0 <=? a) eqn:E0.
  - apply Z.leb_le in E0. rewrite Z.mod_small by lia. simpl.
    rewrite Z.leb_antisym. reflexivity.
  - apply Z.leb_gt in E0. simpl. apply Z.leb_le.
    replace (a mod 2 ^ 64) with (a + 2 ^ 64); [lia|].
    symmetry. rewrite <- (Z.mod_add a 1 (2 ^ 64)) by lia. apply Z.mod_small. lia.
Qed.

Definition acc_ok (d a : Z) : bool := (d =? 1) || ((0 <=? a) && (a <? d)).

Lemma check_index_impl_ok dim shape args :
  Forall (fun d => 0 <= d < 2 ^ 63) shape -> Forall fits args ->
  (dim + length args <= length shape)%nat ->
  check_index_impl dim shape args =
  if forallb (fun '(d, a) => acc_ok d a) (combine (skipn dim shape) args) then Ok tt else Throw out_of_range.
Proof.
  intros Hs Ha. revert dim. induction Ha; intros dim Hl.
  - simpl. destruct (skipn dim shape); reflexivity.
  - simpl in Hl. destruct (nth_error_lt_ex shape dim) as (d & Hd); [lia|].
    cbn [check_index_impl]. rewrite (rd_ok _ _ _ Hd). bok.
    rewrite (skipn_cons_nth _ _ _ Hd). cbn [combine forallb].
    assert (Hd2 : 0 <= d < 2 ^ 63).
    { rewrite Forall_forall in Hs. apply Hs. eapply nth_error_In; eauto. }
    rewrite to_size_t_cmp by auto. rewrite IHHa by lia.
    unfold acc_ok at 2. destruct (d =? 1); simpl.
    + rewrite andb_false_r. reflexivity.
    + rewrite andb_true_r. destruct ((0 <=? x) && (x <? d)); reflexivity.
Qed.

Lemma forallb_combine_Forall2 {A B} (f : A -> B -> bool) (R : A -> B -> Prop) l1 l2 :
  (forall a b, f a b = true <-> R a b) -> length l1 = length l2 ->
  (forallb (fun '(a, b) => f a b) (combine l1 l2) = true <-> Forall2 R l1 l2).
Proof.
  intros HR. revert l2. induction l1; intros [|b l2] HL; simpl in *; try discriminate.
  - split; auto.
  - rewrite andb_true_iff, HR, IHl1 by lia. split.
    + intros [H1 H2]; constructor; auto.
    + intros H; inversion H; auto.
Qed.

Lemma acc_ok_iff d a : acc_ok d a = true <-> d = 1 \/ 0 <= a < d.
Proof.
  unfold acc_ok. rewrite orb_true_iff, andb_true_iff, Z.eqb_eq, Z.leb_le, Z.ltb_lt. tauto.
Qed.

Lemma check_access_full sh args :
  Forall (fun d => 0 <= d < 2 ^ 63) sh -> Forall fits args -> length args = length sh ->
  check_access sh args false =
  if forallb (fun '(d, a) => acc_ok d a) (combine sh args) then Ok tt else Throw out_of_range.
Proof.
  intros Hs Ha HL. unfold check_access, check_dimension, nargs.
  rewrite Nat.add_0_r, HL, Nat.ltb_irrefl. bok.
  destruct args as [|a args].
  - destruct sh; [reflexivity|discriminate].
  - cbn [check_index]. unfold nargs. rewrite Nat.add_0_r, HL, Nat.eqb_refl.
    rewrite check_index_impl_ok by (auto; lia). reflexivity.
Qed.

Fixpoint squash (sh ix : list Z) : list Z :=
  match sh, ix with
  | d :: sh', i :: ix' => (if d =? 1 then 0 else i) :: squash sh' ix'
  | _, _ => []
  end.

Lemma squash_in_bounds sh ix : acceptable sh ix -> in_bounds sh (squash sh ix).
Proof.
  induction 1; simpl; constructor; auto. destruct (x =? 1) eqn:E.
  - apply Z.eqb_eq in E. lia.
  - apply Z.eqb_neq in E. lia.
Qed.

Lemma squash_length sh ix : length ix = length sh -> length (squash sh ix) = length sh.
Proof. revert ix; induction sh; intros [|i ix] H; simpl in *; try discriminate; auto. Qed.

Lemma squash_same sh ix : length ix = length sh -> same_index sh ix (squash sh ix).
Proof.
  intros H. split; [auto|]. split; [apply squash_length; auto|].
  revert ix H. induction sh; intros [|i ix] H k Hk; simpl in *; try lia; try discriminate.
  destruct k as [|k].
  - destruct (a =? 1) eqn:E; auto. apply Z.eqb_eq in E; auto.
  - apply IHsh; lia.
Qed.

Lemma dot_squash sh ix st :
  length ix = length sh -> length st = length sh ->
  (forall k, (k < length sh)%nat -> nth k sh 0 = 1 -> nth k st 0 = 0) ->
  dot (squash sh ix) st = dot ix st.
Proof.
  revert ix st. induction sh; intros [|i ix] [|s st] H1 H2 H3; simpl in *; try discriminate; auto.
  rewrite (IHsh ix st) by (try lia; intros k Hk; apply (H3 (S k)); lia).
  destruct (a =? 1) eqn:E; auto. apply Z.eqb_eq in E.
  specialize (H3 0%nat ltac:(lia) E). simpl in H3. subst. lia.
Qed.

Lemma spec_stride_one L l sh st0 st bs ds :
  length st0 = length sh -> compute_strides L sh l st0 None = Ok (st, bs, ds) ->
  length st = length sh /\ (forall k, (k < length sh)%nat -> nth k sh 0 = 1 -> nth k st 0 = 0).
Proof.
  intros H0 H. rewrite compute_strides_ok in H by (simpl; auto). simpl in H.
  destruct (layout_eqb L row_major || layout_eqb l row_major); inversion H; subst.
  - split; [apply row_strides_length|]. intros k Hk Hone. rewrite row_strides_nth by auto.
    unfold row_stride. rewrite Hone. reflexivity.
  - split; [apply col_strides_length|]. intros k Hk Hone. rewrite col_strides_nth by auto.
    unfold col_stride. rewrite Hone. reflexivity.
Qed.

Lemma at_checked_lemma L l sh st0 st bs ds args :
  Forall (fun d => 0 <= d < 2 ^ 63) sh -> Forall fits args ->
  length st0 = length sh -> compute_strides L sh l st0 None = Ok (st, bs, ds) ->
  (length args = length sh ->
     (acceptable sh args -> exists ix, in_bounds sh ix /\ same_index sh args ix /\
                                       at_offset sh st args false = Ok (element_offset st ix)) /\
     (~ acceptable sh args -> at_offset sh st args false = Throw out_of_range)) /\
  (forall miss, (length sh < length args)%nat -> at_offset sh st args miss = Throw out_of_range).
Proof.
  intros Hs Ha H0 Hc. destruct (spec_stride_one _ _ _ _ _ _ _ H0 Hc) as (Hl & Hone). split.
  - intros HL.
    assert (HE : forallb (fun '(d, a) => acc_ok d a) (combine sh args) = true <-> acceptable sh args).
    { apply forallb_combine_Forall2; auto using acc_ok_iff. }
    split; intros HA; unfold at_offset; rewrite check_access_full by auto.
    + exists (squash sh args). split; [apply squash_in_bounds; auto|]. split; [apply squash_same; auto|].
      rewrite (proj2 HE HA). bok.
      rewrite data_offset_ok, pad_args_full by lia. f_equal.
      rewrite element_offset_same by (rewrite squash_length; lia).
      symmetry. apply dot_squash; auto.
    + destruct (forallb _ _); [exfalso; apply HA, HE; auto|reflexivity].
  - intros miss Hlt. unfold at_offset, check_access, check_dimension, nargs.
    destruct (length sh <? length args + (if miss then 1 else 0))%nat eqn:E; [reflexivity|].
    apply Nat.ltb_ge in E. lia.
Qed.

(** in_bounds *)
Lemma check_in_bounds_impl_ok dim shape args :
  (dim + length args <= length shape)%nat ->
  check_in_bounds_impl dim shape args false =
  Ok (forallb (fun '(d, a) => (0 <=? a) && (a <? d)) (combine (skipn dim shape) args)).
Proof.
  revert dim. induction args as [|a args IH]; intros dim Hl.
  - destruct (skipn dim shape); reflexivity.
  - simpl in Hl. destruct (nth_error_lt_ex shape dim) as (d & Hd); [lia|].
    cbn [check_in_bounds_impl]. unfold nargs. cbn [length].
    destruct (length shape <? S (length args) + 0)%nat eqn:E; [apply Nat.ltb_lt in E; lia|].
    rewrite (rd_ok _ _ _ Hd). bok. rewrite (skipn_cons_nth _ _ _ Hd). cbn [combine forallb].
    rewrite IH by lia. destruct ((0 <=? a) && (a <? d)); reflexivity.
Qed.

Lemma check_in_bounds_drop dim shape extra args :
  length args = length shape ->
  check_in_bounds_impl dim shape (extra ++ args) false = check_in_bounds_impl dim shape args false.
Proof.
  intros HL. induction extra as [|e extra IH]; auto.
  cbn [app check_in_bounds_impl]. unfold nargs. cbn [length]. rewrite app_length.
  destruct (length shape <? S (length extra + length args) + 0)%nat eqn:E; auto.
  apply Nat.ltb_ge in E. lia.
Qed.

Lemma in_bounds_decides_lemma sh extra args :
  length args = length sh ->
  exists b, check_in_bounds sh (extra ++ args) false = Ok b /\ (b = true <-> in_bounds sh args).
Proof.
  intros HL. unfold check_in_bounds. rewrite check_in_bounds_drop by auto.
  rewrite check_in_bounds_impl_ok by lia. eexists; split; [reflexivity|].
  apply (forallb_combine_Forall2 (fun d a => (0 <=? a) && (a <? d))); auto.
  intros d a. rewrite andb_true_iff, Z.leb_le, Z.ltb_lt. tauto.
Qed.

Lemma check_in_bounds_miss dim shape args :
  (dim + length args < length shape)%nat ->
  check_in_bounds_impl dim shape args true =
  Ok (forallb (fun '(d, a) => (0 <=? a) && (a <? d)) (combine (skipn dim shape) args)).
Proof.
  revert dim. induction args as [|a args IH]; intros dim Hl.
  - destruct (skipn dim shape); reflexivity.
  - simpl in Hl. destruct (nth_error_lt_ex shape dim) as (d & Hd); [lia|].
    cbn [check_in_bounds_impl]. unfold nargs. cbn [length].
    destruct (length shape <? S (length args) + 1)%nat eqn:E; [apply Nat.ltb_lt in E; lia|].
    rewrite (rd_ok _ _ _ Hd). bok. rewrite (skipn_cons_nth _ _ _ Hd). cbn [combine forallb].
    rewrite IH by lia. destruct ((0 <=? a) && (a <? d)); reflexivity.
Qed.

Lemma in_bounds_missing_lemma sh args :
  (length args < length sh)%nat ->
  exists b, check_in_bounds sh args true = Ok b /\
            (b = true <-> in_bounds (firstn (length args) sh) args).
Proof.
  intros HL. unfold check_in_bounds. rewrite check_in_bounds_miss by lia. simpl skipn.
  eexists; split; [reflexivity|].
  assert (HC : combine sh args = combine (firstn (length args) sh) args).
  { clear. revert sh. induction args; intros [|d sh]; simpl; auto. f_equal. auto. }
  rewrite HC.
  apply (forallb_combine_Forall2 (fun d a => (0 <=? a) && (a <? d))).
  - intros d a. rewrite andb_true_iff, Z.leb_le, Z.ltb_lt. tauto.
  - rewrite firstn_length. lia.
Qed.

(** periodic *)
Lemma periodic_index_mod d a : 0 < d -> Z.rem (d + Z.rem a d) d = a mod d.
Proof.
  intros Hd. assert (Hr : - d < Z.rem a d < d).
  { pose proof (Z.rem_bound_abs a d ltac:(lia)). lia. }
  rewrite Z.rem_mod_nonneg by lia.
  rewrite <- (Z.mul_1_l d) at 1. rewrite Z.add_comm, Z.mod_add by lia.
  rewrite Z.rem_eq by lia.
  replace (a - d * (a ÷ d)) with (a + (- (a ÷ d)) * d) by ring.
  apply Z.mod_add. lia.
Qed.

Lemma normalize_periodic_ok dim shape args miss :
  Forall (fun d => 0 < d) shape ->
  (dim + nargs args miss <= length shape)%nat ->
  normalize_periodic_impl dim shape args miss = Ok (wrap_index (skipn dim shape) args).
Proof.
  intros Hs. revert dim. induction args as [|a args IH]; intros dim Hl.
  - destruct (skipn dim shape); reflexivity.
  - unfold nargs in *. simpl in Hl. destruct (nth_error_lt_ex shape dim) as (d & Hd); [lia|].
    cbn [normalize_periodic_impl]. unfold nargs. cbn [length].
    destruct (length shape <? S (length args) + (if miss then 1 else 0))%nat eqn:E;
      [apply Nat.ltb_lt in E; lia|].
    assert (0 < d). { rewrite Forall_forall in Hs. apply Hs. eapply nth_error_In; eauto. }
    rewrite (rd_ok _ _ _ Hd). bok. rewrite (skipn_cons_nth _ _ _ Hd). cbn [wrap_index].
    unfold crem. destruct (d =? 0) eqn:E0; [apply Z.eqb_eq in E0; lia|]. bok.
    rewrite IH by lia. bok. rewrite periodic_index_mod by auto. reflexivity.
Qed.

Lemma wrap_index_length sh ix : (length ix <= length sh)%nat -> length (wrap_index sh ix) = length ix.
Proof. revert ix; induction sh; intros [|i ix] H; simpl in *; try lia. rewrite IHsh; lia. Qed.

Lemma wrap_index_in_bounds sh ix :
  Forall (fun d => 0 < d) sh -> length ix = length sh -> in_bounds sh (wrap_index sh ix).
Proof.
  intros Hs. revert ix. induction Hs; intros [|i ix] H1; simpl in *; try discriminate; constructor.
  - apply Z.mod_pos_bound; auto.
  - apply IHHs; lia.
Qed.

Lemma wrap_index_id sh ix : in_bounds sh ix -> wrap_index sh ix = ix.
Proof. induction 1; simpl; auto. rewrite Z.mod_small by auto. f_equal; auto. Qed.

Lemma periodic_lemma sh st args :
  Forall (fun d => 0 < d) sh -> length st = length sh ->
  (length args = length sh ->
     in_bounds sh (wrap_index sh args) /\
     periodic_offset sh st args false = Ok (element_offset st (wrap_index sh args)) /\
     (in_bounds sh args -> periodic_offset sh st args false = data_offset st args false)) /\
  (forall n, (length args + n = length sh)%nat -> (0 < n)%nat ->
     periodic_offset sh st args true = Ok (element_offset st (wrap_index sh args ++ repeat 0 n))) /\
  ((length sh < length args)%nat -> periodic_offset sh st args false = Throw out_of_range).
Proof.
  intros Hs Hl. repeat split.
  - apply wrap_index_in_bounds; auto.
  - unfold periodic_offset, normalize_periodic, check_dimension, nargs.
    rewrite Nat.add_0_r, H, Nat.ltb_irrefl. bok.
    rewrite normalize_periodic_ok by (auto; unfold nargs; lia). bok. simpl skipn.
    rewrite data_offset_ok, pad_args_full by (rewrite wrap_index_length; lia).
    rewrite element_offset_same by (rewrite wrap_index_length; lia). reflexivity.
  - intros Hb. unfold periodic_offset, normalize_periodic, check_dimension, nargs.
    rewrite Nat.add_0_r, H, Nat.ltb_irrefl. bok.
    rewrite normalize_periodic_ok by (auto; unfold nargs; lia). bok. simpl skipn.
    rewrite wrap_index_id by auto. reflexivity.
  - intros n Hn Hpos. unfold periodic_offset, normalize_periodic, check_dimension, nargs.
    destruct (length sh <? length args + 1)%nat eqn:E; [apply Nat.ltb_lt in E; lia|]. bok.
    rewrite normalize_periodic_ok by (auto; unfold nargs; lia). bok. simpl skipn.
    destruct (short_long_access_lemma st) as (_ & _ & _ & Hm).
    rewrite (Hm _ n) by (rewrite ?wrap_index_length; lia).
    rewrite data_offset_ok, pad_args_full by (rewrite app_length, wrap_index_length, repeat_length; lia).
    rewrite element_offset_same by (rewrite app_length, wrap_index_length, repeat_length; lia).
    reflexivity.
  - intros Hlt. unfold periodic_offset, normalize_periodic, check_dimension, nargs.
    destruct (length sh <? length args + 0)%nat eqn:E; [reflexivity|apply Nat.ltb_ge in E; lia].
Qed.

Lemma in_bounds_short_refuted_lemma :
  exists sh, is_shape sh /\
  (exists i, check_in_bounds sh [i] false = Ok false /\ in_bounds sh [0; i]) /\
  (exists sh2 i, is_shape sh2 /\ check_in_bounds sh2 [i] false = Ok true /\ ~ in_bounds sh2 [0; i]).
Proof.
  exists [2;5]. split; [repeat constructor; lia|]. split.
  - exists 4. split; [reflexivity|]. repeat constructor; lia.
  - exists [5;2], 4. split; [repeat constructor; lia|]. split; [reflexivity|].
    intros H. inversion H; subst. inversion H5; subst. lia.
Qed.

Lemma periodic_short_refuted_lemma :
  exists sh st bs i off,
    is_shape sh /\
    compute_strides dynamic sh column_major [0;0] (Some [0;0]) = Ok (st, bs, prod sh) /\
    periodic_offset sh st [i] false = Ok off /\ prod sh <= off.
Proof.
  exists [5;2], [1;5], (Some [4;5]), 4, 20. split; [repeat constructor; lia|].
  vm_compute. repeat split; discriminate.
Qed.

Lemma at_refuted_lemma :
  (exists sh st i off, compute_strides row_major sh row_major [0] None = Ok (st, None, prod sh) /\
     ~ in_bounds sh [i] /\ at_offset sh st [i] false = Ok off) /\
  (exists sh st i off, compute_strides row_major sh row_major [0;0] None = Ok (st, None, prod sh) /\
     at_offset sh st [i] false = Ok off /\ prod sh <= off).
Proof.
  split.
  - exists [1], [0], 5, 0. split; [reflexivity|]. split; [|reflexivity].
    intros H. inversion H; subst. lia.
  - exists [0;3], [3;1], 0, 0. split; [reflexivity|]. split; [reflexivity|]. discriminate.
Qed.

Lemma at_short_lemma L l lead sh st0 st bs ds args :
  Forall (fun d => 0 < d < 2 ^ 63) lead -> Forall (fun d => 0 <= d < 2 ^ 63) sh -> Forall fits args ->
  length st0 = length (lead ++ sh) ->
  compute_strides L (lead ++ sh) l st0 None = Ok (st, bs, ds) ->
  length args = length sh -> args <> [] ->
  (acceptable sh args -> exists ix, in_bounds (lead ++ sh) (repeat 0 (length lead) ++ ix) /\
       same_index sh args ix /\
       at_offset (lead ++ sh) st args false = Ok (element_offset st (repeat 0 (length lead) ++ ix))) /\
  (~ acceptable sh args -> at_offset (lead ++ sh) st args false = Throw out_of_range).
Proof.
  intros Hlead Hs Ha H0 Hc HL Hne.
  destruct (spec_stride_one _ _ _ _ _ _ _ H0 Hc) as (Hl & Hone).
  rewrite app_length in Hl.
  assert (HCA : check_access (lead ++ sh) args false =
    if forallb (fun '(d, a) => acc_ok d a) (combine sh args) then Ok tt else Throw out_of_range).
  { unfold check_access, check_dimension, nargs. rewrite app_length.
    destruct (length lead + length sh <? length args + 0)%nat eqn:E; [apply Nat.ltb_lt in E; lia|]. bok.
    destruct args as [|a args]; [congruence|]. cbn [check_index]. unfold nargs. rewrite app_length.
    rewrite E. rewrite Nat.add_0_r. destruct (length (a :: args) =? length lead + length sh)%nat eqn:E2.
    - apply Nat.eqb_eq in E2. destruct lead; [|simpl in *; lia].
      cbn [app]. rewrite check_index_impl_ok by (auto; lia). reflexivity.
    - replace (length lead + length sh - length (a :: args))%nat with (length lead) by lia.
      rewrite skipn_app, skipn_all, Nat.sub_diag. simpl app. simpl skipn.
      rewrite check_index_impl_ok by (auto; lia). reflexivity. }
  assert (HE : forallb (fun '(d, a) => acc_ok d a) (combine sh args) = true <-> acceptable sh args).
  { apply forallb_combine_Forall2; auto using acc_ok_iff. }
  unfold at_offset. rewrite HCA. split; intros HA.
  - exists (squash sh args). repeat split.
    + apply in_bounds_app; [|apply squash_in_bounds; auto].
      clear - Hlead. induction Hlead; simpl; constructor; auto; lia.
    + auto.
    + apply squash_length; auto.
    + apply squash_same; auto.
    + rewrite (proj2 HE HA). bok.
      destruct (short_long_access_lemma st) as (_ & _ & Hm & _).
      destruct (Hm args (length lead)) as (-> & _); [lia|].
      rewrite data_offset_ok, pad_args_full by (rewrite app_length, repeat_length; lia). f_equal.
      rewrite element_offset_same by (rewrite app_length, repeat_length, squash_length; lia).
      rewrite <- (firstn_skipn (length lead) st).
      rewrite !dot_app by (rewrite repeat_length, firstn_length; lia). f_equal.
      symmetry. apply dot_squash; auto.
      * rewrite skipn_length. lia.
      * intros k Hk H1. rewrite nth_skipn.
        apply Hone; [rewrite app_length; lia|]. rewrite app_nth2 by lia.
        rewrite <- H1. f_equal. lia.
  - destruct (forallb _ _); [exfalso; apply HA, HE; auto|reflexivity].
Qed.
