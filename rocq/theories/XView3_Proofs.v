(** Proofs about xview: strides, offset and layout. *)
From Coq Require Import List ZArith Bool Lia.
From Verif Require Import Prelude PreludeFacts Strides_Model Strides_Spec Strides_Proofs Slice_Model Slice_Spec Slice_Proofs
  Container_Model Container_Spec Container_Proofs Stepper_Proofs
  View_Spec SView_Model SView_Spec SView_Proofs SView2_Proofs SView3_Proofs SView4_Proofs Manip_Spec
  XView_Model XView_Spec XView_Proofs XView2_Proofs.
Import ListNotations.
Open Scope Z_scope.

(** First position and step of a slice that is not keep or drop. *)
Definition at0 (s : slice) : Z :=
  match s with SRange a _ | SStep a _ _ => a | SInt v => v | _ => 0 end.
Definition stp (s : slice) : Z :=
  match s with SRange _ _ | SAll _ => 1 | SStep _ _ t => t | _ => 0 end.

Lemma strided_at s i : is_strided_slice s = true -> slice_at s i = Ok (at0 s + i * stp s).
Proof. destruct s; cbn; intros H; try discriminate; f_equal; lia. Qed.
Lemma strided_step s : is_strided_slice s = true -> slice_step s 1 1 = Ok (stp s).
Proof. destruct s; cbn; intros H; try discriminate; f_equal; lia. Qed.

Fixpoint sstr (rs : list slice) (st : list Z) : list Z :=
  match rs with
  | [] => st
  | SNewaxis :: t => 0 :: sstr t st
  | SInt _ :: t => sstr t (tl st)
  | s :: t => stp s * hd 0 st :: sstr t (tl st)
  end.
Fixpoint off (rs : list slice) (st : list Z) : Z :=
  match rs with
  | [] => 0
  | SNewaxis :: t => off t st
  | s :: t => at0 s * hd 0 st + off t (tl st)
  end.

Lemma sstr_axis s t st : axis_slice s -> sstr (s :: t) st = stp s * hd 0 st :: sstr t (tl st).
Proof. intros [H1 H2]. destruct s; cbn in *; congruence || reflexivity. Qed.
Lemma off_other s t st : is_newaxis s = false -> off (s :: t) st = at0 s * hd 0 st + off t (tl st).
Proof. intros H. destruct s; cbn in *; congruence || reflexivity. Qed.

Lemma sstr_len rs : forall sh st, length st = length sh -> length (sstr rs st) = length (shp rs sh).
Proof.
  induction rs as [|s t IH]; intros sh st H; [auto|].
  destruct s; cbn [sstr shp length]; try (rewrite (IH (tl sh)); auto; destruct sh, st; cbn in *; lia).
  rewrite (IH sh); auto.
Qed.

Lemma dot_src rs : forall ix jx st, forallb is_strided_slice rs = true -> src rs ix = Ok jx -> length jx = length st ->
  dot jx st = off rs st + dot ix (sstr rs st).
Proof.
  induction rs as [|s t IH]; intros ix jx st F H L.
  - cbn in *. injection H as <-. lia.
  - cbn [forallb] in F. apply andb_true_iff in F as (F1 & F2).
    destruct (slice_cases s) as [A|[ -> |(v & ->)]].
    + destruct ix as [|i ix].
      { destruct A as [A1 A2]. destruct s; cbn in *; try discriminate; congruence. }
      rewrite src_axis in H by auto. rewrite sstr_axis by auto. rewrite off_other by (apply A).
      apply bind_ok in H as (x & Hx & H). apply bind_ok in H as (j & Hj & H). injection H as <-.
      rewrite strided_at in Hx by auto. injection Hx as <-.
      destruct st as [|a st]; [discriminate|]. cbn in L. cbn [dot hd tl]. rewrite (IH ix j st F2 Hj) by lia. ring.
    + destruct ix as [|i ix]; [discriminate|]. cbn [src] in H. cbn [sstr off dot]. rewrite (IH ix jx st F2 H L). ring.
    + cbn [src] in H. apply bind_ok in H as (j & Hj & H). injection H as <-.
      destruct st as [|a st]; [discriminate|]. cbn in L. cbn [dot sstr off hd tl at0]. rewrite (IH ix j st F2 Hj) by lia. ring.
Qed.

Lemma sstr_nth rs : forall st i w, (length rs - newaxis_count rs <= length st)%nat -> nth_error (sstr rs st) i = Some w ->
  (forall s, nth_error rs (integral_skip rs i) = Some s ->
     s = SNewaxis /\ w = 0 \/
     exists a, nth_error st (integral_skip rs i - newaxis_count_before rs (integral_skip rs i)) = Some a /\ w = stp s * a) /\
  ((length rs <= integral_skip rs i)%nat ->
    nth_error st (integral_skip rs i - newaxis_count_before rs (integral_skip rs i)) = Some w).
Proof.
  induction rs as [|s t IH]; intros st i w H Hn.
  - cbn in *. split; [intros s; destruct i; discriminate|]. intros _.
    destruct i; auto.
  - rewrite nc_cons in H. pose proof (ic_nc_len t).
    destruct (slice_cases s) as [A|[ -> |(v & ->)]].
    + rewrite sstr_axis in Hn by auto. destruct A as [A1 A2]. rewrite A2 in H. cbn [integral_skip]. rewrite A1.
      destruct st as [|m st]; cbn [length tl hd] in *; [lia|].
      destruct i as [|i]; cbn in Hn.
      * injection Hn as <-. cbn. split; [|lia]. intros s' E. injection E as <-. right. exists m. auto.
      * destruct (IH st i w ltac:(lia) Hn) as (I1 & I2).
        cbn [nth_error newaxis_count_before]. rewrite A2.
        pose proof (ncb_le t (integral_skip t i)).
        replace (S (integral_skip t i) - (newaxis_count_before t (integral_skip t i) + 0))%nat
          with (S (integral_skip t i - newaxis_count_before t (integral_skip t i)))%nat by lia.
        split; [exact I1|]. intros Hl. apply I2. lia.
    + cbn [sstr is_newaxis] in *. cbn [integral_skip is_integral]. destruct i as [|i]; cbn in Hn.
      * injection Hn as <-. cbn. split; [|lia]. intros s' E. injection E as <-. auto.
      * cbn [length] in *. destruct (IH st i w ltac:(lia) Hn) as (I1 & I2).
        cbn [nth_error newaxis_count_before is_newaxis].
        replace (S (integral_skip t i) - (newaxis_count_before t (integral_skip t i) + 1))%nat
          with (integral_skip t i - newaxis_count_before t (integral_skip t i))%nat by lia.
        split; [exact I1|]. intros Hl. apply I2. lia.
    + cbn [sstr is_newaxis length] in *. cbn [integral_skip is_integral]. destruct st as [|m st]; cbn [length tl] in *; [lia|].
      destruct (IH st i w ltac:(lia) Hn) as (I1 & I2).
      cbn [nth_error newaxis_count_before is_newaxis].
      pose proof (ncb_le t (integral_skip t i)).
      replace (S (integral_skip t i) - (newaxis_count_before t (integral_skip t i) + 0))%nat
          with (S (integral_skip t i - newaxis_count_before t (integral_skip t i)))%nat by lia.
      split; [exact I1|]. intros Hl. apply I2. lia.
Qed.

Section Data.
Variables (e : xexp) (us : list user_slice) (rs : list slice).
Hypothesis R : rr us (x_shape e) rs.
Hypothesis F : forallb is_strided_slice rs = true.
Hypothesis Hst : length (x_strides e) = length (x_shape e).

Let v := mk_xview e rs (shp rs (x_shape e)).
Let Hc : (length rs - newaxis_count rs <= length (x_strides e))%nat.
Proof. rewrite Hst. eapply rr_count; eauto. Qed.

Lemma raw_strides_ok : tabulate (raw_stride v) 0 (length (shp rs (x_shape e))) = Ok (sstr rs (x_strides e)).
Proof.
  apply tabulate_len; [apply sstr_len; auto|]. intros i w Hw.
  destruct (sstr_nth rs (x_strides e) i w Hc Hw) as (S1 & S2).
  unfold raw_stride, v. cbn [v_e v_slices].
  destruct (i <? length rs - integral_count rs)%nat eqn:E.
  - apply Nat.ltb_lt in E. apply iskip_lt in E. destruct (nth_error_lt_ex rs _ E) as (s & Hs).
    unfold slice_stride. cbn [v_e v_slices]. rewrite (rd_ok _ _ _ Hs). cbn [bind].
    rewrite strided_step by (apply (proj1 (forallb_forall _ _) F), nth_error_In with (1 := Hs)). cbn [bind].
    destruct (S1 s Hs) as [( -> & -> )|(a & A1 & -> )].
    + cbn [stp]. destruct (_ <? _)%nat eqn:E2; [|reflexivity]. apply Nat.ltb_lt in E2. rewrite <- Hst in E2.
      destruct (nth_error_lt_ex (x_strides e) _ E2) as (a & Ha). rewrite (rd_ok _ _ _ Ha). reflexivity.
    + assert (E2 : (integral_skip rs i - newaxis_count_before rs (integral_skip rs i) < length (x_strides e))%nat)
        by (apply nth_error_Some; congruence).
      rewrite <- Hst. apply Nat.ltb_lt in E2. rewrite E2. rewrite (rd_ok _ _ _ A1). reflexivity.
  - apply Nat.ltb_ge in E.
    assert (E' : (length rs <= integral_skip rs i)%nat).
    { destruct (Nat.le_gt_cases (length rs) (integral_skip rs i)) as [L|L]; auto. apply iskip_lt in L. lia. }
    specialize (S2 E'). rewrite (ncb_all rs _ E'), (iskip_past rs i E') in S2. apply rd_ok. exact S2.
Qed.

Lemma computed_ok : computed_strides v = Ok (adapted (shp rs (x_shape e)) (sstr rs (x_strides e))).
Proof.
  unfold computed_strides. unfold v at 2 3 4. cbn [v_shape]. rewrite raw_strides_ok. cbn [bind].
  rewrite adapt_strides_ok; [reflexivity|apply sstr_len; auto|apply repeat_length].
Qed.

Lemma off_suffix : forall i s, nth_error rs i = Some s ->
  off (skipn i rs) (skipn (i - newaxis_count_before rs i) (x_strides e)) =
  (if is_newaxis s then 0 else at0 s * nth (i - newaxis_count_before rs i) (x_strides e) 0) +
  off (skipn (S i) rs) (skipn (S i - newaxis_count_before rs (S i)) (x_strides e)) /\
  newaxis_count_before rs (S i) = (newaxis_count_before rs i + if is_newaxis s then 1 else 0)%nat.
Proof.
  intros i s Hs.
  assert (N : newaxis_count_before rs (S i) = (newaxis_count_before rs i + if is_newaxis s then 1 else 0)%nat).
  { clear - Hs. revert i Hs. induction rs as [|a t IH]; intros i Hs; [destruct i; discriminate|].
    destruct i as [|i]; cbn in Hs.
    - injection Hs as ->. cbn. destruct t; cbn; lia.
    - specialize (IH i Hs). cbn [newaxis_count_before] in *. lia. }
  split; [|exact N]. rewrite (skipn_cons_nth rs i s Hs). rewrite N. pose proof (ncb_le rs i) as L.
  destruct (is_newaxis s) eqn:E.
  - destruct s; try discriminate. cbn [off].
    replace (S i - (newaxis_count_before rs i + 1))%nat with (i - newaxis_count_before rs i)%nat by lia. lia.
  - rewrite off_other by auto.
    replace (S i - (newaxis_count_before rs i + 0))%nat with (S (i - newaxis_count_before rs i))%nat by lia.
    set (p := (i - newaxis_count_before rs i)%nat).
    assert (G : forall (l : list Z) p, hd 0 (skipn p l) = nth p l 0 /\ tl (skipn p l) = skipn (S p) l).
    { clear. induction l as [|x l IH]; intros [|p]; cbn; auto. apply IH. }
    destruct (G (x_strides e) p) as (G1 & G2). rewrite G1, G2. reflexivity.
Qed.

Lemma data_offset_ok : (length rs <= length (x_shape e))%nat ->
  v_data_offset v = Ok (off rs (x_strides e) + x_offset e).
Proof.
  intros Hd. unfold v_data_offset, v. cbn [v_slices v_e].
  destruct (for_up_inv (fun i acc => acc + off (skipn i rs) (skipn (i - newaxis_count_before rs i) (x_strides e))
                                     = off rs (x_strides e))
    (offset_term (mk_xview e rs (shp rs (x_shape e)))) 0 (length rs) 0) as (o & E & Ho).
  - cbn. destruct rs; reflexivity.
  - intros i acc [_ Hi] H. cbn in Hi. destruct (nth_error_lt_ex rs i Hi) as (s & Hs).
    unfold offset_term. cbn [v_slices v_e]. rewrite (rd_ok _ _ _ Hs). cbn [bind].
    rewrite strided_at by (apply (proj1 (forallb_forall _ _) F), nth_error_In with (1 := Hs)). cbn [bind].
    replace (i <? Nat.min (length rs) (length (x_strides e)))%nat with true by (symmetry; apply Nat.ltb_lt; lia).
    rewrite (rd_nth 0) by lia. cbn [bind]. eexists. split; [reflexivity|].
    destruct (off_suffix i s Hs) as (O1 & _). rewrite O1 in H.
    destruct (is_newaxis s) eqn:E; [destruct s; try discriminate; cbn [at0 stp]|]; lia.
  - cbn in Ho. rewrite skipn_all in Ho. cbn in Ho. rewrite E. cbn [bind]. f_equal. lia.
Qed.
End Data.

(** ** Contiguous views *)
Lemma row_false ss : forall a r, contiguous_row false a r ss = false.
Proof. induction ss as [|s t IH]; intros; cbn; auto. Qed.
Lemma col_false ss : forall a r, contiguous_col false a r ss = false.
Proof. induction ss as [|s t IH]; intros; cbn; auto. Qed.

Lemma row_alls ss : forall a r, a || r = true -> contiguous_row true a r ss = true -> Forall (fun s => is_xall s = true) ss.
Proof.
  induction ss as [|s t IH]; intros a r H E; [constructor|]. cbn in E.
  destruct (is_xall s) eqn:Es.
  - rewrite orb_true_r in E. constructor; auto. eapply IH; [|exact E]. reflexivity.
  - rewrite orb_false_r in E. destruct a; [rewrite row_false in E; discriminate|]. cbn in H. subst r.
    cbn in E. rewrite row_false in E. discriminate.
Qed.

(** Integers, then at most one range, then whole axes. *)
Inductive crow : list slice -> Prop :=
| cr_int v ss : crow ss -> crow (SInt v :: ss)
| cr_range a n ss : Forall (fun s => is_xall s = true) ss -> crow (SRange a n :: ss)
| cr_all ss : Forall (fun s => is_xall s = true) ss -> crow ss.

Lemma row_crow ss : contiguous_row true false false ss = true -> crow ss.
Proof.
  induction ss as [|s t IH]; intros E; [apply cr_all; constructor|]. destruct s; cbn in E;
    try (rewrite row_false in E; discriminate).
  - apply cr_range. apply (row_alls t false true); auto.
  - apply cr_all. constructor; auto. apply (row_alls t true false); auto.
  - apply cr_int. auto.
Qed.

Lemma col_ints ss : forall r, contiguous_col true true r ss = true -> Forall (fun s => is_integral s = true) ss.
Proof.
  induction ss as [|s t IH]; intros r E; [constructor|]. cbn in E. destruct (is_integral s) eqn:Es.
  - constructor; eauto.
  - rewrite col_false in E. discriminate.
Qed.
Lemma col_ints' ss : contiguous_col true false true ss = true -> Forall (fun s => is_integral s = true) ss.
Proof.
  destruct ss as [|s t]; intros E; [constructor|]. cbn in E. destruct (is_integral s) eqn:Es.
  - constructor; auto. eapply col_ints; eauto.
  - rewrite col_false in E. discriminate.
Qed.

(** Whole axes, then at most one range, then integers. *)
Inductive ccol : list slice -> Prop :=
| cc_all n ss : ccol ss -> ccol (SAll n :: ss)
| cc_range a n ss : Forall (fun s => is_integral s = true) ss -> ccol (SRange a n :: ss)
| cc_int ss : Forall (fun s => is_integral s = true) ss -> ccol ss.

Lemma col_ccol ss : contiguous_col true false false ss = true -> ccol ss.
Proof.
  induction ss as [|s t IH]; intros E; [apply cc_int; constructor|]. destruct s; cbn in E;
    try (rewrite col_false in E; discriminate).
  - apply cc_range. apply col_ints'; auto.
  - apply cc_all. auto.
  - apply cc_int. constructor; auto. eapply col_ints; eauto.
Qed.

Lemma rr_all_size us sh rs : rr us sh rs -> forall n, nth_error rs 0 = Some (SAll n) -> exists m t, sh = m :: t /\ n = m.
Proof.
  intros R n H. inversion R; subst; cbn in H; try discriminate. injection H as ->.
  exists n0, sh0. split; [reflexivity|].
  destruct u; cbn in H1; unfold drop_normalize in H1; try congruence.
  destruct start, stop, step; cbn in H1; unfold get_stepped_range, mk_stepped, cdiv, crem in H1;
    repeat match type of H1 with context [if ?b then _ else _] => destruct b end; cbn in H1; try discriminate;
    unfold mk_range in H1; congruence.
Qed.

Lemma alls_shape us sh rs : rr us sh rs -> Forall (fun s => is_xall s = true) rs ->
  shp rs sh = sh /\ (forall ix, length ix = length sh -> src rs ix = Ok ix) /\ (forall st, length st = length sh -> sstr rs st = st).
Proof.
  intros R. induction R; intros Fa.
  - repeat split; reflexivity.
  - inversion Fa; subst. discriminate.
  - inversion Fa; subst. destruct s; try discriminate. destruct (IHR H4) as (I1 & I2 & I3).
    destruct (rr_all_size (u :: us) (n :: sh) (SAll size :: rs) ltac:(constructor; auto) size eq_refl) as (m & t & E & ->).
    injection E as -> ->. cbn [shp slice_size tl]. rewrite I1. split; [reflexivity|]. split.
    + intros [|i ix] L; [discriminate|]. cbn in L. cbn [src slice_at bind]. rewrite I2 by lia. reflexivity.
    + intros [|i ix] L; [discriminate|]. cbn in L. cbn [sstr stp hd tl]. rewrite I3 by lia. f_equal. lia.
Qed.

Lemma ints_shape us sh rs : rr us sh rs -> Forall (fun s => is_integral s = true) rs ->
  shp rs sh = skipn (length rs) sh /\ (forall st, length st = length sh -> sstr rs st = skipn (length rs) st) /\
  integral_count rs = length rs.
Proof.
  intros R. induction R; intros Fa.
  - repeat split; reflexivity.
  - inversion Fa; subst. discriminate.
  - inversion Fa; subst. destruct s; try discriminate. destruct (IHR H4) as (I1 & I2 & I3).
    cbn [shp tl length skipn]. split; [auto|]. rewrite ic_cons, I3. cbn [is_integral]. split; [|lia].
    intros [|a st] L; [discriminate|]. cbn in L. cbn [sstr tl]. apply I2. lia.
Qed.

(** Positions in a row major expression are those in the view plus a constant. *)
Lemma crow_pos us sh rs : rr us sh rs -> crow rs ->
  exists c, forall ix jx, src rs ix = Ok jx -> length ix = length (shp rs sh) -> row_pos sh jx = c + row_pos (shp rs sh) ix.
Proof.
  intros R. induction R; intros C.
  - exists 0. intros ix jx E _. cbn in *. injection E as <-. lia.
  - exfalso. inversion C; subst. inversion H; subst. discriminate.
  - inversion C; subst.
    + destruct (IHR H2) as (c & I). exists (v * prod sh + c). intros ix jx E L. cbn [src] in E.
      apply bind_ok in E as (j & Hj & E). injection E as <-. cbn [shp tl row_pos] in *.
      rewrite (I ix j Hj L). lia.
    + destruct (alls_shape _ _ _ R H2) as (A1 & A2 & _). exists (a * prod sh).
      intros ix jx E L. cbn [shp slice_size tl] in *. rewrite A1 in *. destruct ix as [|i ix]; [discriminate|]. cbn in L.
      cbn [src slice_at bind] in E. rewrite A2 in E by lia. cbn [bind] in E. injection E as <-. cbn [row_pos]. lia.
    + destruct (alls_shape (u :: us) (n :: sh) (s :: rs) ltac:(constructor; auto) H1) as (A1 & A2 & _).
      exists 0. intros ix jx E L. rewrite A1 in *. rewrite A2 in E by auto. injection E as <-. lia.
Qed.

Lemma ints_all_shape us sh rs : rr us sh rs -> Forall (fun s => is_integral s = true) rs -> length rs = length sh ->
  shp rs sh = [] /\ exists j, forall ix, ix = [] -> src rs ix = Ok j.
Proof.
  intros R. induction R; intros Fa L.
  - destruct sh; [|discriminate]. split; [reflexivity|]. exists []. intros ix ->. reflexivity.
  - inversion Fa; subst. discriminate.
  - inversion Fa; subst. destruct s; try discriminate. destruct (IHR H4 ltac:(cbn in L; lia)) as (I1 & j & I2).
    cbn [shp tl]. split; [auto|]. exists (i :: j). intros ix ->. cbn [src]. rewrite I2 by auto. reflexivity.
Qed.

Lemma ccol_pos us sh rs : rr us sh rs -> ccol rs -> length rs = length sh ->
  exists c, forall ix jx, src rs ix = Ok jx -> length ix = length (shp rs sh) -> col_pos sh jx = c + col_pos (shp rs sh) ix.
Proof.
  intros R. induction R; intros C L.
  - destruct sh; [|discriminate]. exists 0. intros ix jx E _. cbn in *. lia.
  - exfalso. inversion C; subst. inversion H; subst. discriminate.
  - cbn in L. inversion C; subst.
    + destruct (IHR H2 ltac:(lia)) as (c & I).
      destruct (rr_all_size (u :: us) (n :: sh) (SAll n0 :: rs) ltac:(constructor; auto) n0 eq_refl) as (m & t & E & ->).
      injection E as -> ->. exists (m * c). intros ix jx E L'. cbn [shp slice_size tl] in *.
      destruct ix as [|i ix]; [discriminate|]. cbn in L'. cbn [src slice_at bind] in E.
      apply bind_ok in E as (j & Hj & E). injection E as <-. cbn [col_pos]. rewrite (I ix j Hj) by lia. lia.
    + destruct (ints_all_shape _ _ _ R H2 ltac:(lia)) as (A1 & j & A2). exists (a + n * col_pos sh j).
      intros ix jx E L'. cbn [shp slice_size tl] in *. rewrite A1 in *. destruct ix as [|i [|i' ix]]; try discriminate.
      cbn [src slice_at bind] in E. rewrite A2 in E by auto. cbn [bind] in E. injection E as <-. cbn [col_pos]. lia.
    + destruct (ints_all_shape (u :: us) (n :: sh) (s :: rs) ltac:(constructor; auto) H1 ltac:(cbn; lia)) as (A1 & j & A2).
      exists (col_pos (n :: sh) j). intros ix jx E L'. rewrite A1 in *. destruct ix; [|discriminate].
      rewrite A2 in E by auto. injection E as <-. cbn [col_pos]. lia.
Qed.

(** Strides of views with trivial strides. *)
Lemma crow_trivial us sh rs st : rr us sh rs -> crow rs -> existsb is_xrange rs = false -> length st = length sh ->
  sstr rs st = skipn (integral_count rs) st.
Proof.
  intros R. revert st. induction R; intros st C X L.
  - reflexivity.
  - exfalso. inversion C; subst. inversion H; subst. discriminate.
  - cbn [existsb] in X. apply orb_false_iff in X as (X1 & X2). inversion C; subst; try discriminate.
    + destruct st as [|a st]; [discriminate|]. rewrite ic_cons. cbn [is_integral]. rewrite Nat.add_1_r.
      cbn [sstr tl skipn]. cbn in L. apply IHR; auto.
    + destruct (alls_shape (u :: us) (n :: sh) (s :: rs) ltac:(constructor; auto) H1) as (_ & _ & A3).
      rewrite A3 by auto. replace (integral_count (s :: rs)) with 0%nat; [reflexivity|]. clear - H1.
      induction H1; [reflexivity|]. rewrite ic_cons, <- IHForall. destruct x; try discriminate; reflexivity.
Qed.

Lemma ccol_trivial us sh rs st : rr us sh rs -> ccol rs -> existsb is_xrange rs = false -> length st = length sh ->
  length rs = length sh -> sstr rs st = firstn (length st - integral_count rs) st.
Proof.
  intros R. revert st. induction R; intros st C X L Lr.
  - destruct sh; [|discriminate]. destruct st; [|discriminate]. reflexivity.
  - exfalso. inversion C; subst. inversion H; subst. discriminate.
  - cbn [existsb] in X. apply orb_false_iff in X as (X1 & X2). inversion C; subst; try discriminate.
    + destruct st as [|a st]; [discriminate|]. rewrite ic_cons. cbn [is_integral]. cbn in L, Lr.
      cbn [sstr tl hd stp length]. pose proof (ic_nc_len rs).
      replace (S (length st) - (integral_count rs + 0))%nat with (S (length st - integral_count rs))%nat by lia.
      cbn [firstn]. rewrite IHR by (auto; lia). f_equal. lia.
    + destruct (ints_shape (u :: us) (n :: sh) (s :: rs) ltac:(constructor; auto) H1) as (_ & A2 & A3).
      rewrite A2 by auto. rewrite A3. rewrite Lr, L. rewrite <- L, skipn_all. rewrite Nat.sub_diag. reflexivity.
Qed.
