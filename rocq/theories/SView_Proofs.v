(** Proofs about strided views: addressing. *)
From Coq Require Import List ZArith Bool Lia.
From Verif Require Import Prelude PreludeFacts Strides_Model Strides_Spec Strides_Proofs Slice_Model SView_Model SView_Spec.
Import ListNotations.
Open Scope Z_scope.

(** ** adapt_strides *)
Definition adapted (sh st : list Z) : list Z :=
  map (fun k => if nth k sh 0 =? 1 then 0 else nth k st 0) (seq 0 (length sh)).

Lemma adapted_length sh st : length (adapted sh st) = length sh.
Proof. unfold adapted. rewrite map_length, seq_length. reflexivity. Qed.

Lemma adapted_nth sh st k : (k < length sh)%nat ->
  nth k (adapted sh st) 0 = if nth k sh 0 =? 1 then 0 else nth k st 0.
Proof.
  intros H. unfold adapted.
  set (f := fun k => if nth k sh 0 =? 1 then 0 else nth k st 0).
  rewrite (nth_indep _ 0 (f 0%nat)) by (rewrite map_length, seq_length; lia).
  rewrite map_nth, seq_nth by lia. reflexivity.
Qed.

Lemma adapted_cons n s sh st : adapted (n :: sh) (s :: st) = (if n =? 1 then 0 else s) :: adapted sh st.
Proof.
  unfold adapted. cbn [length seq map]. cbn [nth]. f_equal. rewrite <- seq_shift, map_map. reflexivity.
Qed.

Lemma adapt_strides_ok sh st b :
  length st = length sh -> length b = length sh ->
  adapt_strides sh st (Some b) = Ok (adapted sh st, Some (spec_backstrides (adapted sh st) sh)).
Proof.
  intros Hst Hb. unfold adapt_strides.
  destruct (for_up_inv
    (fun i '(s, o) => exists c, o = Some c /\ length s = length sh /\ length c = length sh /\
       (forall j, (j < length sh)%nat -> nth j s 0 = if (j <? i)%nat then nth j (adapted sh st) 0 else nth j st 0) /\
       (forall j, (j < i)%nat -> nth j c 0 = nth j (adapted sh st) 0 * (nth j sh 0 - 1)))
    (fun i '(st, b) => adapt_strides_at sh st b i) 0 (length sh) (st, Some b)) as ([s o] & E & c & -> & Hs & Hc & H1 & H2).
  - exists b. repeat split; auto. intros; lia.
  - intros i [s o] [_ Hi] (c & -> & Hs & Hc & H1 & H2). simpl in Hi.
    rewrite adapt_at_ok by auto. cbv zeta.
    eexists. split; [reflexivity|]. eexists. split; [reflexivity|].
    rewrite !upd_length. split; [auto|]. split; [auto|].
    assert (Ev : (if nth i sh 0 =? 1 then 0 else nth i s 0) = nth i (adapted sh st) 0).
    { rewrite adapted_nth, H1 by auto. rewrite Nat.ltb_irrefl. reflexivity. }
    rewrite Ev. split.
    + intros j Hj. destruct (Nat.eq_dec i j) as [->|Hne].
      * rewrite nth_upd_same by lia. replace (j <? S j)%nat with true by (symmetry; apply Nat.ltb_lt; lia). reflexivity.
      * rewrite nth_upd_other by auto. rewrite H1 by auto.
        destruct (j <? i)%nat eqn:E1, (j <? S i)%nat eqn:E2; auto;
          rewrite ?Nat.ltb_lt, ?Nat.ltb_ge in *; lia.
    + intros j Hj. destruct (Nat.eq_dec i j) as [->|Hne].
      * apply nth_upd_same; lia.
      * rewrite nth_upd_other by auto. apply H2. lia.
  - rewrite E. cbn [Nat.add] in *. do 2 f_equal.
    + apply nth_ext with (d := 0) (d' := 0). rewrite adapted_length; auto.
      intros j Hj. rewrite H1 by lia. replace (j <? length sh)%nat with true by (symmetry; apply Nat.ltb_lt; lia). reflexivity.
    + f_equal. unfold spec_backstrides.
      set (f := fun k => nth k (adapted sh st) 0 * (nth k sh 0 - 1)).
      apply nth_ext with (d := 0) (d' := f 0%nat). rewrite map_length, seq_length; auto.
      intros j Hj. rewrite H2 by lia. rewrite map_nth, seq_nth by lia. reflexivity.
Qed.

Lemma dot_adapted sh st ix : in_bounds sh ix -> length st = length sh -> dot ix (adapted sh st) = dot ix st.
Proof.
  intros H Hl. apply (dot_congr sh); auto using adapted_length.
  intros k Hk. rewrite adapted_nth by auto. destruct (nth k sh 0 =? 1) eqn:E; auto. left. apply Z.eqb_eq. auto.
Qed.

Definition src_strides (T : layout) (e : xexp) : list Z :=
  if x_direct e then x_strides e
  else match T with row_major => row_strides (x_shape e) | _ => col_strides (x_shape e) end.

Lemma flat_strides_ok T e : flat_strides T e =
  Ok (match T with row_major => row_strides (x_shape e) | _ => col_strides (x_shape e) end).
Proof.
  unfold flat_strides. rewrite compute_strides_ok by (simpl; rewrite ?repeat_length; auto). simpl.
  destruct T; reflexivity.
Qed.

Lemma get_strides_ok T e : get_strides T e = Ok (src_strides T e).
Proof. unfold get_strides, src_strides. destruct (x_direct e); [reflexivity|apply flat_strides_ok]. Qed.

Lemma src_strides_length T e : wf_exp e -> length (src_strides T e) = length (x_shape e).
Proof.
  intros [_ H]. unfold src_strides. destruct (x_direct e); [auto|].
  destruct T; auto using row_strides_length, col_strides_length.
Qed.

Lemma unravel_row sh p : is_shape sh -> 0 <= p < prod sh ->
  unravel_noexcept p (row_strides sh) row_major = Ok (row_unpos sh p).
Proof.
  intros Hs Hp. pose proof (unravel_index_row sh p Hs Hp) as H. unfold unravel_index in H.
  rewrite compute_strides_ok in H by (simpl; rewrite ?repeat_length; auto). simpl in H. exact H.
Qed.

Lemma unravel_col sh p : is_shape sh -> 0 <= p < prod sh ->
  unravel_noexcept p (col_strides sh) column_major = Ok (col_unpos sh p).
Proof.
  intros Hs Hp. pose proof (unravel_index_col sh p Hs Hp) as H. unfold unravel_index in H.
  rewrite compute_strides_ok in H by (simpl; rewrite ?repeat_length; auto). simpl in H. exact H.
Qed.

Lemma row_unpos_pos sh ix : in_bounds sh ix -> row_unpos sh (row_pos sh ix) = ix.
Proof.
  intros H. assert (Hs : is_shape sh) by (apply pos_is_shape; eapply in_bounds_pos; eauto).
  destruct (row_unpos_spec sh (row_pos sh ix) Hs (row_pos_bound _ _ H)) as (H1 & H2).
  eapply row_pos_inj; eauto.
Qed.
Lemma col_unpos_pos sh ix : in_bounds sh ix -> col_unpos sh (col_pos sh ix) = ix.
Proof.
  intros H. assert (Hs : is_shape sh) by (apply pos_is_shape; eapply in_bounds_pos; eauto).
  destruct (col_unpos_spec sh (col_pos sh ix) Hs (col_pos_bound _ _ H)) as (H1 & H2).
  eapply col_pos_inj; eauto.
Qed.

(** The storage position of an element of the expression is that element. *)
Lemma storage_elem T e jx p :
  wf_exp e -> T = row_major \/ T = column_major -> in_bounds (x_shape e) jx ->
  p = get_offset e + dot jx (src_strides T e) ->
  storage_at T e p = Ok (x_elem e jx).
Proof.
  intros [Hs Hl] HT Hj ->. unfold storage_at, x_elem, get_offset, src_strides.
  destruct (x_direct e).
  - rewrite element_offset_same; [reflexivity|]. rewrite Hl by auto. apply in_bounds_length; auto.
  - rewrite flat_strides_ok. cbn [bind]. destruct HT; subst.
    + rewrite dot_row by auto. rewrite Z.add_0_l, unravel_row; auto using row_pos_bound.
      cbn [bind]. rewrite row_unpos_pos; auto.
    + rewrite dot_col by auto. rewrite Z.add_0_l, unravel_col; auto using col_pos_bound.
      cbn [bind]. rewrite col_unpos_pos; auto.
Qed.

Lemma make_view_ok L e sh st off l : length st = length sh ->
  make_view L e sh st off l =
  Ok (mk_sview e L sh (adapted sh st) (spec_backstrides (adapted sh st) sh) off l).
Proof.
  intros H. unfold make_view. rewrite adapt_strides_ok; [reflexivity|auto|apply repeat_length].
Qed.

Lemma raw_full st ix : length ix = length st -> raw_data_offset 0 st ix = Ok (dot ix st).
Proof. intros H. rewrite raw_data_offset_ok by lia. reflexivity. Qed.

Lemma reads_of T e v ix jx :
  wf_exp e -> T = row_major \/ T = column_major ->
  w_base v = e -> w_flat v = T ->
  length (w_strides v) = length ix -> in_bounds (x_shape e) jx ->
  w_offset v + dot ix (w_strides v) = get_offset e + dot jx (src_strides T e) ->
  reads v ix (x_elem e jx).
Proof.
  intros He HT Hb Hf Hl Hj E. unfold reads, w_call, w_element, w_unchecked. rewrite Hb, Hf.
  assert (HS : storage_at T e (w_offset v + dot ix (w_strides v)) = Ok (x_elem e jx))
    by (eapply storage_elem; eauto).
  split; [|split].
  - rewrite data_offset_ok. cbn [bind]. rewrite pad_args_full by auto. exact HS.
  - rewrite element_offset_same by auto. exact HS.
  - unfold unchecked_data_offset. rewrite layout_offset_dyn by (auto; lia). exact HS.
Qed.

Lemma view_reads T e sh st off l v ix jx :
  wf_exp e -> T = row_major \/ T = column_major -> length st = length sh ->
  make_view T e sh st off l = Ok v ->
  in_bounds sh ix -> in_bounds (x_shape e) jx ->
  off + dot ix st = get_offset e + dot jx (src_strides T e) ->
  reads v ix (x_elem e jx).
Proof.
  intros He HT Hl Hv Hi Hj E. rewrite make_view_ok in Hv by auto. injection Hv as <-.
  eapply reads_of; eauto; cbn [w_strides w_offset].
  - rewrite adapted_length. symmetry. apply in_bounds_length; auto.
  - rewrite dot_adapted by auto. exact E.
Qed.

(** A view of an expression with data is again an expression with data, whose
    elements are the cells of the view. *)
Lemma as_exp_elem v ix c : x_direct (w_base v) = true -> length ix = length (w_strides v) ->
  reads v ix c -> x_elem (as_exp v) ix = c.
Proof.
  intros Hd Hl (_ & H & _). unfold w_element, storage_at in H. rewrite Hd in H. injection H as <-.
  unfold as_exp, x_elem. rewrite Hd. reflexivity.
Qed.

Lemma make_view_wf T e sh st off l v : is_shape sh -> length st = length sh ->
  make_view T e sh st off l = Ok v -> wf_exp (as_exp v) /\ x_shape (as_exp v) = sh /\ length (w_strides v) = length sh.
Proof.
  intros Hs Hl H. rewrite make_view_ok in H by auto. injection H as <-.
  unfold as_exp, wf_exp. cbn [w_base]. destruct (x_direct e); cbn; rewrite adapted_length; repeat split; auto; discriminate.
Qed.
