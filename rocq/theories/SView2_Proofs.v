(** Proofs about strided views: fill_args. *)
From Coq Require Import List ZArith Bool Lia.
From Verif Require Import Prelude PreludeFacts Strides_Model Strides_Spec Strides_Proofs Slice_Model Slice_Spec Slice_Proofs
  View_Spec SView_Model SView_Spec SView_Proofs.
Import ListNotations.
Open Scope Z_scope.

(** The result of fill_args: offset increment, new axes, axes left over. *)
Inductive filled : list user_slice -> list Z -> list Z -> Z -> list Z -> list Z -> list Z -> list Z -> Prop :=
| f_nil sh st : filled [] sh st 0 [] [] sh st
| f_int i n s ss sh st d v w sh' st' : filled ss sh st d v w sh' st' ->
    filled (UInt i :: ss) (n :: sh) (s :: st) (i * s + d) v w sh' st'
| f_new j ss sh st d v w sh' st' : filled ss sh st d v w sh' st' ->
    filled (UNewaxis :: ss) sh st d (1 :: v) (j :: w) sh' st'
| f_all n s ss sh st d v w sh' st' : filled ss sh st d v w sh' st' ->
    filled (UAll :: ss) (n :: sh) (s :: st) d (n :: v) (s :: w) sh' st'
| f_range a b c sl f t n s ss sh st d v w sh' st' :
    range_get a b c n = Ok sl -> slice_at sl 0 = Ok f -> slice_step sl 0 1 = Ok t ->
    filled ss sh st d v w sh' st' ->
    filled (URange a b c :: ss) (n :: sh) (s :: st) (f * s + d) (slice_size sl :: v) (t * s :: w) sh' st'.

Definition ex (m : nat) (it : item) : list user_slice :=
  match it with Pick u => [u] | Ellipsis => repeat UAll m end.
Definition vaxes (us : list user_slice) : nat :=
  length (filter (fun u => match u with UInt _ => false | _ => true end) us).

Lemma vaxes_app a b : vaxes (a ++ b) = (vaxes a + vaxes b)%nat.
Proof. unfold vaxes. rewrite filter_app, app_length. reflexivity. Qed.
Lemma vaxes_all m : vaxes (repeat UAll m) = m.
Proof. unfold vaxes. induction m; simpl; auto. Qed.

Lemma filled_all m : forall ss sh st d v w sh' st',
  (m <= length sh)%nat -> length st = length sh ->
  filled ss (skipn m sh) (skipn m st) d v w sh' st' ->
  filled (repeat UAll m ++ ss) sh st d (firstn m sh ++ v) (firstn m st ++ w) sh' st'.
Proof.
  induction m; intros ss [|n sh] [|s st] d v w sh' st' Hm Hl H; simpl in *; try lia; auto.
  constructor. apply IHm; auto; lia.
Qed.

Lemma valid_all full m : forall ss sh, valid full (repeat UAll m ++ ss) sh ->
  (m <= length sh)%nat /\ valid full ss (skipn m sh).
Proof.
  induction m; intros ss sh H; simpl in *.
  - split; [lia|auto].
  - inversion H; subst. destruct (IHm _ _ H1). split; [simpl; lia|auto].
Qed.

Lemma filled_lens ss sh st d v w sh' st' : filled ss sh st d v w sh' st' ->
  length v = vaxes ss /\ length w = vaxes ss.
Proof. induction 1; unfold vaxes in *; simpl in *; intuition lia. Qed.

(** The copying loop. *)
Lemma copy_loop shape strides m : forall i idx A B C D,
  length strides = length shape -> (i + m <= length shape)%nat ->
  length A = idx -> length C = idx -> (m <= length B)%nat -> (m <= length D)%nat ->
  for_up (fun j '(sh, st) => copy_axis shape strides (i + j) (idx + j) sh st) 0 m (A ++ B, C ++ D) =
  Ok (A ++ firstn m (skipn i shape) ++ skipn m B, C ++ firstn m (skipn i strides) ++ skipn m D).
Proof.
  induction m; intros i idx A B C D Hl Hi HA HC HB HD.
  - reflexivity.
  - destruct B as [|b B]; [simpl in HB; lia|]. destruct D as [|e D]; [simpl in HD; lia|].
    cbn [for_up]. rewrite !Nat.add_0_r.
    destruct (nth_error_lt_ex shape i ltac:(lia)) as (n & Hn).
    destruct (nth_error_lt_ex strides i ltac:(lia)) as (s & Hs).
    unfold copy_axis at 1. rewrite (rd_ok _ _ _ Hn). cbn [bind].
    rewrite wr_ok by (rewrite app_length; simpl; lia). cbn [bind].
    rewrite (rd_ok _ _ _ Hs). cbn [bind]. rewrite wr_ok by (rewrite app_length; simpl; lia). cbn [bind].
    rewrite !upd_app_r by lia. rewrite !HA, !HC, !Nat.sub_diag. cbn [upd].
    replace (A ++ n :: B) with ((A ++ [n]) ++ B) by (rewrite <- app_assoc; reflexivity).
    replace (C ++ s :: D) with ((C ++ [s]) ++ D) by (rewrite <- app_assoc; reflexivity).
    rewrite for_up_shift.
    rewrite (for_up_ext _ (fun j '(sh, st) => copy_axis shape strides (S i + j) (S idx + j) sh st)).
    2:{ intros j [x y] Hj. replace (i + (1 + j))%nat with (S i + j)%nat by lia.
        replace (idx + (1 + j))%nat with (S idx + j)%nat by lia. reflexivity. }
    rewrite IHm; try (rewrite ?app_length; simpl in *; lia); auto.
    rewrite (skipn_cons_nth _ _ _ Hn), (skipn_cons_nth _ _ _ Hs). cbn [firstn skipn].
    rewrite <- !app_assoc. reflexivity.
Qed.

Lemma skipn_add {A} (l : list A) a b : skipn a (skipn b l) = skipn (b + a) l.
Proof. revert l; induction b; intros l; simpl; auto. destruct l; auto. apply skipn_nil. Qed.

(** A range is an arithmetic progression of the position. *)
Lemma range_linear a b s n sl : range_get a b s n = Ok sl ->
  exists f t, slice_at sl 0 = Ok f /\ slice_step sl 0 1 = Ok t /\ forall k, slice_at sl k = Ok (f + k * t).
Proof.
  assert (G : forall x y z r, mk_stepped x y z = Ok r -> exists f t, slice_at r 0 = Ok f /\ slice_step r 0 1 = Ok t /\
             forall k, slice_at r k = Ok (f + k * t)).
  { intros x y z r H. unfold mk_stepped in H. apply bind_ok in H. destruct H as (q & _ & H).
    apply bind_ok in H. destruct H as (q' & _ & H). injection H as <-. cbn [slice_at slice_step].
    exists x, z. repeat split; try (intros; f_equal; lia). }
  assert (G2 : forall x y z m r, get_stepped_range x y z m = Ok r -> exists f t, slice_at r 0 = Ok f /\ slice_step r 0 1 = Ok t /\
             forall k, slice_at r k = Ok (f + k * t)).
  { intros x y z m r. unfold get_stepped_range. destruct (0 <? z); apply G. }
  unfold range_get. destruct a as [a|], b as [b|], s as [s|]; intros H; eauto;
    injection H as <-; unfold mk_range; cbn [slice_at slice_step].
  - exists (normalize a n), 1. repeat split; intros; f_equal; lia.
  - exists (normalize a n), 1. repeat split; intros; f_equal; lia.
  - exists 0, 1. repeat split; intros; f_equal; lia.
  - exists 0, 1. repeat split; intros; f_equal; lia.
Qed.

Lemma range_getter n a b s : py_step s <> 0 ->
  exists sl f t, range_get a b s n = Ok sl /\ slice_at sl 0 = Ok f /\ slice_step sl 0 1 = Ok t /\
    forall k, slice_at sl k = Ok (f + k * t).
Proof.
  intros Hs.
  assert (H : exists sl, range_get a b s n = Ok sl).
  { assert (G : forall x y z, z <> 0 -> exists r, mk_stepped x y z = Ok r).
    { intros x y z Hz. unfold mk_stepped, cdiv, crem. destruct (z =? 0) eqn:E; [apply Z.eqb_eq in E; lia|]. cbn [bind]. eauto. }
    assert (G2 : forall x y z m, z <> 0 -> exists r, get_stepped_range x y z m = Ok r).
    { intros x y z m Hz. unfold get_stepped_range. destruct (0 <? z); auto. }
    unfold range_get. destruct a as [a|], b as [b|], s as [s|]; simpl in Hs; eauto. }
  destruct H as (sl & H). destruct (range_linear _ _ _ _ _ H) as (f & t & H1 & H2 & H3). exists sl, f, t. auto.
Qed.

Lemma fill_loop m slices shape strides : length strides = length shape ->
  forall rem done c idx off A B C D,
  slices = done ++ rem ->
  valid false (flat_map (ex m) rem) (skipn c shape) ->
  (c <= length shape)%nat -> length A = idx -> length C = idx -> length B = length D ->
  (vaxes (flat_map (ex m) rem) <= length B)%nat ->
  exists c' d v w,
    for_up (fill_body shape strides m slices) (length done) (length rem)
      (Z.of_nat (length done) - Z.of_nat c, idx, off, A ++ B, C ++ D) =
    Ok (Z.of_nat (length slices) - Z.of_nat c', (idx + length v)%nat, off + d,
        A ++ v ++ skipn (length v) B, C ++ w ++ skipn (length v) D) /\
    filled (flat_map (ex m) rem) (skipn c shape) (skipn c strides) d v w (skipn c' shape) (skipn c' strides) /\
    (c' <= length shape)%nat.
Proof.
  intros Hst. induction rem as [|it rem IH]; intros done c idx off A B C D Hs Hv Hc HA HC HBD HB.
  - exists c, 0, [], []. cbn [for_up length flat_map]. rewrite app_nil_r in Hs. subst slices.
    rewrite Nat.add_0_r, Z.add_0_r. repeat split; auto. constructor.
  - assert (Hit : rd slices (length done) = Ok it).
    { apply rd_ok. rewrite Hs, nth_error_app2, Nat.sub_diag by lia. reflexivity. }
    assert (Hs' : slices = (done ++ [it]) ++ rem) by (rewrite <- app_assoc; exact Hs).
    assert (Hld : length (done ++ [it]) = S (length done)) by (rewrite app_length; simpl; lia).
    assert (Hax : Z.to_nat (Z.of_nat (length done) - (Z.of_nat (length done) - Z.of_nat c)) = c) by lia.
    cbn [for_up length]. unfold fill_body at 1. rewrite Hit. cbn [bind]. rewrite Hax.
    destruct it as [u|].
    2:{ (* ellipsis *)
      cbn [flat_map ex] in Hv, HB. destruct (valid_all _ _ _ _ Hv) as (Hm & Hv').
      rewrite skipn_length in Hm. rewrite skipn_add in Hv'. rewrite vaxes_app, vaxes_all in HB.
      rewrite copy_loop by (auto; lia). cbn [bind].
      destruct (IH (done ++ [Ellipsis]) (c + m)%nat (idx + m)%nat off (A ++ firstn m (skipn c shape)) (skipn m B)
                  (C ++ firstn m (skipn c strides)) (skipn m D)) as (c' & d & v & w & E & F & Hc'); auto.
      { lia. }
      { rewrite app_length, firstn_length, skipn_length. lia. }
      { rewrite app_length, firstn_length, skipn_length. lia. }
      { rewrite !skipn_length. lia. }
      { rewrite skipn_length. lia. }
      exists c', d, (firstn m (skipn c shape) ++ v), (firstn m (skipn c strides) ++ w). split; [|split]; auto.
      - rewrite Hld in E. rewrite !app_assoc.
        replace (Z.of_nat (length done) - Z.of_nat c - Z.of_nat m + 1) with (Z.of_nat (S (length done)) - Z.of_nat (c + m)) by lia.
        rewrite !app_assoc in E. rewrite E.
        rewrite app_length, firstn_length, skipn_length.
        replace (Nat.min m (length shape - c)) with m by lia. rewrite !skipn_add.
        rewrite Nat.add_assoc. reflexivity.
      - apply filled_all; rewrite ?skipn_length; try lia. rewrite !skipn_add. exact F. }
    cbn [flat_map ex app] in Hv, HB.
    destruct (skipn c shape) as [|n shr] eqn:Esh.
    { (* no axis left: only newaxis is possible *)
      inversion Hv; subst.
      destruct B as [|b B]; [unfold vaxes in HB; simpl in HB; lia|].
      destruct D as [|b' D]; [simpl in HBD; lia|].
      rewrite wr_ok by (rewrite app_length; simpl; lia). cbn [bind].
      rewrite upd_app_r, Nat.sub_diag by lia. cbn [upd].
      destruct (IH (done ++ [Pick UNewaxis]) c (S (length A)) off (A ++ [1]) B (C ++ [b']) D) as (c' & d & v & w & E & F & Hc'); auto.
      { rewrite Esh; auto. } { rewrite app_length; simpl; lia. } { rewrite app_length; simpl; lia. }
      { unfold vaxes in *; simpl in HB; lia. }
      exists c', d, (1 :: v), (b' :: w). split; [|split]; auto.
      - rewrite Hld in E. replace (Z.of_nat (length done) - Z.of_nat c + 1) with (Z.of_nat (S (length done)) - Z.of_nat c) by lia.
        rewrite <- !app_assoc in E. cbn [app] in E. rewrite E. cbn [length app skipn]. rewrite Nat.add_succ_r. reflexivity.
      - constructor. rewrite Esh in F. exact F. }
    assert (Hclt : (c < length shape)%nat).
    { destruct (Nat.lt_ge_cases c (length shape)); auto. rewrite skipn_all2 in Esh by lia. discriminate. }
    assert (Hn : nth_error shape c = Some n).
    { rewrite <- (Nat.add_0_r c), <- nth_error_skipn, Esh. reflexivity. }
    assert (Eshr : skipn (S c) shape = shr).
    { rewrite (skipn_cons_nth _ _ _ Hn) in Esh. injection Esh as Esh. exact Esh. }
    destruct (nth_error_lt_ex strides c ltac:(lia)) as (s & Hsn).
    assert (Est : skipn c strides = s :: skipn (S c) strides) by (apply skipn_cons_nth; auto).
    rewrite Est.
    destruct u as [a b t| | |i|raw|raw].
    + (* range *)
      inversion Hv as [| | | |a' b' s' n' ss' sh' Hz Hfw Hv' | |]; subst a' b' s' n' ss' sh'.
      destruct B as [|b0 B]; [unfold vaxes in HB; simpl in HB; lia|].
      destruct D as [|b1 D]; [simpl in HBD; lia|].
      rewrite (rd_ok _ _ _ Hn). cbn [bind].
      destruct (range_getter n a b t) as (sl & f & st & R1 & R2 & R3 & R4); auto.
      unfold slice_getter. rewrite R1. cbn [bind]. rewrite R2. cbn [bind]. rewrite R3. cbn [bind].
      rewrite (rd_ok _ _ _ Hsn). cbn [bind].
      rewrite wr_ok by (rewrite app_length; simpl; lia). cbn [bind].
      rewrite wr_ok by (rewrite app_length; simpl; lia). cbn [bind].
      rewrite !upd_app_r by lia. rewrite HA, HC, !Nat.sub_diag. cbn [upd].
      destruct (IH (done ++ [Pick (URange a b t)]) (S c) (S idx) (off + f * s) (A ++ [slice_size sl]) B (C ++ [st * s]) D)
        as (c' & d & v & w & E & F & Hc'); auto.
      { rewrite Eshr; auto. } { rewrite app_length; simpl; lia. } { rewrite app_length; simpl; lia. }
      { unfold vaxes in *; simpl in HB; lia. }
      exists c', (f * s + d), (slice_size sl :: v), (st * s :: w). split; [|split]; auto.
      * rewrite Hld in E. replace (Z.of_nat (length done) - Z.of_nat c) with (Z.of_nat (S (length done)) - Z.of_nat (S c)) by lia.
        rewrite <- !app_assoc in E. cbn [app] in E. rewrite E. cbn [length app skipn]. rewrite Nat.add_succ_r, Z.add_assoc. reflexivity.
      * rewrite Eshr in F. econstructor; eauto.
    + (* all *)
      inversion Hv as [| | | n' ss' sh' Hv' | | |]; subst n' ss' sh'.
      destruct B as [|b0 B]; [unfold vaxes in HB; simpl in HB; lia|].
      destruct D as [|b1 D]; [simpl in HBD; lia|].
      unfold copy_axis. rewrite (rd_ok _ _ _ Hn). cbn [bind].
      rewrite wr_ok by (rewrite app_length; simpl; lia). cbn [bind].
      rewrite (rd_ok _ _ _ Hsn). cbn [bind].
      rewrite wr_ok by (rewrite app_length; simpl; lia). cbn [bind].
      rewrite !upd_app_r by lia. rewrite HA, HC, !Nat.sub_diag. cbn [upd].
      destruct (IH (done ++ [Pick UAll]) (S c) (S idx) off (A ++ [n]) B (C ++ [s]) D)
        as (c' & d & v & w & E & F & Hc'); auto.
      { rewrite Eshr; auto. } { rewrite app_length; simpl; lia. } { rewrite app_length; simpl; lia. }
      { unfold vaxes in *; simpl in HB; lia. }
      exists c', d, (n :: v), (s :: w). split; [|split]; auto.
      * rewrite Hld in E. replace (Z.of_nat (length done) - Z.of_nat c) with (Z.of_nat (S (length done)) - Z.of_nat (S c)) by lia.
        rewrite <- !app_assoc in E. cbn [app] in E. rewrite E. cbn [length app skipn]. rewrite Nat.add_succ_r. reflexivity.
      * rewrite Eshr in F. econstructor; eauto.
    + (* newaxis *)
      inversion Hv as [| | ss' sh' Hv' | | | |]; subst ss' sh'.
      destruct B as [|b0 B]; [unfold vaxes in HB; simpl in HB; lia|].
      destruct D as [|b1 D]; [simpl in HBD; lia|].
      rewrite wr_ok by (rewrite app_length; simpl; lia). cbn [bind].
      rewrite !upd_app_r by lia. rewrite HA, !Nat.sub_diag. cbn [upd].
      destruct (IH (done ++ [Pick UNewaxis]) c (S idx) off (A ++ [1]) B (C ++ [b1]) D)
        as (c' & d & v & w & E & F & Hc'); auto.
      { rewrite Esh; auto. } { rewrite app_length; simpl; lia. } { rewrite app_length; simpl; lia. }
      { unfold vaxes in *; simpl in HB; lia. }
      exists c', d, (1 :: v), (b1 :: w). split; [|split]; auto.
      * rewrite Hld in E. replace (Z.of_nat (length done) - Z.of_nat c + 1) with (Z.of_nat (S (length done)) - Z.of_nat c) by lia.
        rewrite <- !app_assoc in E. cbn [app] in E. rewrite E. cbn [length app skipn]. rewrite Nat.add_succ_r. reflexivity.
      * rewrite Esh, Est in F. econstructor; eauto.
    + (* integer *)
      inversion Hv as [|i' n' ss' sh' Hi Hv' | | | | |]; subst i' n' ss' sh'.
      rewrite (rd_ok _ _ _ Hsn). cbn [bind].
      destruct (IH (done ++ [Pick (UInt i)]) (S c) idx (off + i * s) A B C D)
        as (c' & d & v & w & E & F & Hc'); auto.
      { rewrite Eshr; auto. }
      exists c', (i * s + d), v, w. split; [|split]; auto.
      * rewrite Hld in E. replace (Z.of_nat (length done) - Z.of_nat c) with (Z.of_nat (S (length done)) - Z.of_nat (S c)) by lia.
        rewrite E. rewrite Z.add_assoc. reflexivity.
      * rewrite Eshr in F. econstructor; eauto.
    + inversion Hv; discriminate.
    + inversion Hv; discriminate.
Qed.
