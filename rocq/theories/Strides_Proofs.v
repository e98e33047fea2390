From Coq Require Import List ZArith Lia Bool Permutation.
From Verif Require Import Prelude PreludeFacts Strides_Model Strides_Spec.
Import ListNotations.
Open Scope Z_scope.

(** ** prod *)
Arguments prod : simpl never.
Lemma prod_cons a l : prod (a :: l) = a * prod l.
Proof. reflexivity. Qed.

Lemma prod_nil : prod [] = 1.
Proof. reflexivity. Qed.

Lemma prod_app l1 l2 : prod (l1 ++ l2) = prod l1 * prod l2.
Proof. induction l1; cbn [app]; rewrite ?prod_nil, ?prod_cons, ?IHl1; ring. Qed.

Lemma prod_nonneg l : is_shape l -> 0 <= prod l.
Proof. induction 1; rewrite ?prod_nil, ?prod_cons; nia. Qed.

Lemma prod_pos l : Forall (fun d => 0 < d) l -> 0 < prod l.
Proof. induction 1; rewrite ?prod_nil, ?prod_cons; nia. Qed.

Lemma fold_left_mul l a : fold_left Z.mul l a = a * prod l.
Proof.
  revert a; induction l; intros; simpl; rewrite ?IHl, ?prod_nil, ?prod_cons; ring.
Qed.

Lemma compute_size_prod l : compute_size l = prod l.
Proof. unfold compute_size. rewrite fold_left_mul. ring. Qed.

Lemma prod_skipn_firstn n l : prod (firstn n l) * prod (skipn n l) = prod l.
Proof. rewrite <- prod_app, firstn_skipn. reflexivity. Qed.

Lemma prod_perm l l' : Permutation l l' -> prod l = prod l'.
Proof.
  induction 1; rewrite ?prod_cons, ?IHPermutation; try ring; try congruence.
Qed.

Lemma prod_zero_in l : In 0 l -> prod l = 0.
Proof.
  induction l; intros []; rewrite ?prod_cons.
  - subst; ring.
  - rewrite IHl; auto; ring.
Qed.

Lemma prod_zero_inv l : prod l = 0 -> In 0 l.
Proof.
  induction l; [discriminate|]. rewrite ?prod_cons. intros H.
  apply Z.mul_eq_0 in H. destruct H; [left; auto|right; auto].
Qed.

Lemma prod_rev l : prod (rev l) = prod l.
Proof. apply prod_perm. apply Permutation_sym, Permutation_rev. Qed.

(** ** in_bounds *)
Lemma in_bounds_length sh ix : in_bounds sh ix -> length ix = length sh.
Proof. intros H. symmetry. eapply Forall2_length; eauto. Qed.

Lemma in_bounds_pos sh ix : in_bounds sh ix -> Forall (fun d => 0 < d) sh.
Proof. induction 1; constructor; auto; lia. Qed.

Lemma pos_is_shape sh : Forall (fun d => 0 < d) sh -> is_shape sh.
Proof. apply Forall_impl; intros; lia. Qed.

Lemma in_bounds_nth sh ix k :
  in_bounds sh ix -> (k < length sh)%nat -> 0 <= nth k ix 0 < nth k sh 0.
Proof.
  intros H. revert k. induction H; intros [|k]; simpl; intros; try lia; auto.
  apply IHForall2; lia.
Qed.

Lemma in_bounds_intro sh ix :
  length ix = length sh ->
  (forall k, (k < length sh)%nat -> 0 <= nth k ix 0 < nth k sh 0) -> in_bounds sh ix.
Proof.
  revert ix; induction sh; intros [|i ix] HL H; simpl in *; try discriminate; constructor.
  - apply (H 0%nat); lia.
  - apply IHsh; [lia|]. intros k Hk. apply (H (S k)); lia.
Qed.

Lemma in_bounds_app s1 s2 i1 i2 :
  in_bounds s1 i1 -> in_bounds s2 i2 -> in_bounds (s1 ++ s2) (i1 ++ i2).
Proof. intros; apply Forall2_app; auto. Qed.

(** ** positions *)
Lemma row_pos_bound sh ix : in_bounds sh ix -> 0 <= row_pos sh ix < prod sh.
Proof.
  induction 1; simpl; [rewrite ?prod_nil; lia|]. rewrite ?prod_cons.
  nia.
Qed.

Lemma col_pos_bound sh ix : in_bounds sh ix -> 0 <= col_pos sh ix < prod sh.
Proof.
  induction 1; simpl; [rewrite ?prod_nil; lia|]. rewrite ?prod_cons. nia.
Qed.

Lemma row_pos_inj sh i j :
  in_bounds sh i -> in_bounds sh j -> row_pos sh i = row_pos sh j -> i = j.
Proof.
  intros Hi. revert j. induction Hi; intros j Hj E; inversion Hj; subst; auto.
  simpl in E.
  pose proof (row_pos_bound _ _ Hi). pose proof (row_pos_bound _ _ H4).
  assert (y = y0) by nia. subst. f_equal. apply IHHi; auto. nia.
Qed.

Lemma col_pos_inj sh i j :
  in_bounds sh i -> in_bounds sh j -> col_pos sh i = col_pos sh j -> i = j.
Proof.
  intros Hi. revert j. induction Hi; intros j Hj E; inversion Hj; subst; auto.
  simpl in E.
  assert (col_pos l l' = col_pos l l'0) by nia.
  f_equal; [nia|]. apply IHHi; auto.
Qed.

Fixpoint row_unpos (sh : list Z) (p : Z) : list Z :=
  match sh with
  | [] => []
  | _ :: sh' => (p / prod sh') :: row_unpos sh' (p mod prod sh')
  end.
Fixpoint col_unpos (sh : list Z) (p : Z) : list Z :=
  match sh with
  | [] => []
  | d :: sh' => (p mod d) :: col_unpos sh' (p / d)
  end.

Lemma row_unpos_spec sh p :
  is_shape sh -> 0 <= p < prod sh -> in_bounds sh (row_unpos sh p) /\ row_pos sh (row_unpos sh p) = p.
Proof.
  intros Hs. revert p. induction Hs; simpl; intros p Hp.
  - rewrite ?prod_cons in *. split; [constructor|]. unfold prod in Hp; simpl in Hp; lia.
  - rewrite ?prod_cons in Hp.
    pose proof (prod_nonneg _ Hs).
    assert (0 < prod l) by nia.
    destruct (IHHs (p mod prod l)) as (H2 & H3).
    { apply Z.mod_pos_bound; auto. }
    split.
    + constructor; auto. split.
      * apply Z.div_pos; lia.
      * apply Z.div_lt_upper_bound; lia.
    + rewrite H3. rewrite (Z.div_mod p (prod l)) at 3 by lia. ring.
Qed.

Lemma col_unpos_spec sh p :
  is_shape sh -> 0 <= p < prod sh -> in_bounds sh (col_unpos sh p) /\ col_pos sh (col_unpos sh p) = p.
Proof.
  intros Hs. revert p. induction Hs; simpl; intros p Hp.
  - split; [constructor|]. unfold prod in Hp; simpl in Hp; lia.
  - rewrite ?prod_cons in Hp.
    pose proof (prod_nonneg _ Hs).
    assert (0 < x) by nia.
    destruct (IHHs (p / x)) as (H2 & H3).
    { split. apply Z.div_pos; lia. apply Z.div_lt_upper_bound; lia. }
    split.
    + constructor; auto. apply Z.mod_pos_bound; auto.
    + rewrite H3. rewrite (Z.div_mod p x) at 3 by lia. ring.
Qed.

(** ** compute_strides *)
Definition row_strides (sh : list Z) : list Z := map (row_stride sh) (seq 0 (length sh)).
Definition col_strides (sh : list Z) : list Z := map (col_stride sh) (seq 0 (length sh)).
Arguments row_strides : simpl never.
Arguments col_strides : simpl never.
Definition spec_strides (l : layout) (sh : list Z) : list Z :=
  match l with row_major => row_strides sh | _ => col_strides sh end.
Definition spec_backstrides (st sh : list Z) : list Z :=
  map (fun k => nth k st 0 * (nth k sh 0 - 1)) (seq 0 (length sh)).

Lemma adapt_at_ok sh st bs i :
  (i < length sh)%nat -> length st = length sh ->
  (match bs with None => True | Some b => length b = length sh end) ->
  adapt_strides_at sh st bs i =
  let v := if nth i sh 0 =? 1 then 0 else nth i st 0 in
  Ok (upd st i v, match bs with None => None | Some b => Some (upd b i (v * (nth i sh 0 - 1))) end).
Proof.
  intros Hi Hst Hb. unfold adapt_strides_at.
  rewrite (rd_nth 0) by auto. simpl.
  assert (Hself : upd st i (nth i st 0) = st).
  { apply upd_nth_self. apply nth_error_nth'. lia. }
  destruct (nth i sh 0 =? 1) eqn:E.
  - rewrite wr_ok by lia. simpl. destruct bs as [b|]; auto.
    rewrite (rd_nth 0) by (rewrite upd_length; lia). simpl. rewrite nth_upd_same by lia.
    rewrite wr_ok by lia. simpl. reflexivity.
  - simpl. rewrite Hself. destruct bs as [b|]; auto.
    rewrite (rd_nth 0) by lia. simpl. rewrite wr_ok by lia. reflexivity.
Qed.

Definition cs_inv (spec : nat -> Z) (sh : list Z) (done : nat -> Prop)
  (st : list Z) (bs : option (list Z)) (hasbs : bool) : Prop :=
  length st = length sh /\
  (forall j, (j < length sh)%nat -> done j -> nth j st 0 = spec j) /\
  match bs with
  | None => hasbs = false
  | Some b => hasbs = true /\ length b = length sh /\
      (forall j, (j < length sh)%nat -> done j -> nth j b 0 = spec j * (nth j sh 0 - 1))
  end.

Lemma cs_inv_final spec sh st bs hasbs :
  cs_inv spec sh (fun _ => True) st bs hasbs ->
  st = map spec (seq 0 (length sh)) /\
  bs = if hasbs then Some (map (fun k => spec k * (nth k sh 0 - 1)) (seq 0 (length sh))) else None.
Proof.
  intros (H1 & H2 & H3). split.
  - apply nth_ext with (d := 0) (d' := spec 0%nat).
    + rewrite map_length, seq_length; auto.
    + intros n Hn. rewrite H2 by (auto; lia). rewrite map_nth, seq_nth by lia. reflexivity.
  - destruct bs as [b|]; [|subst; auto]. destruct H3 as (-> & H4 & H5). f_equal.
    set (f := fun k => spec k * (nth k sh 0 - 1)).
    apply nth_ext with (d := 0) (d' := f 0%nat).
    + rewrite map_length, seq_length; auto.
    + intros n Hn. rewrite H5 by (auto; lia). rewrite (map_nth f), seq_nth by lia. reflexivity.
Qed.

Lemma cs_body_ok spec sh done st bs hasbs i ds :
  (i < length sh)%nat ->
  cs_inv spec sh done st bs hasbs ->
  spec i = (if nth i sh 0 =? 1 then 0 else ds) ->
  exists st' bs',
    compute_strides_body sh i (st, bs, ds) = Ok (st', bs', ds * nth i sh 0) /\
    cs_inv spec sh (fun j => done j \/ j = i) st' bs' hasbs.
Proof.
  intros Hi (H1 & H2 & H3) Hs. unfold compute_strides_body.
  rewrite wr_ok by lia. simpl. rewrite (rd_nth 0) by (rewrite upd_length; lia).
  simpl. rewrite nth_upd_same by lia. rewrite (rd_nth 0) by auto. simpl.
  rewrite adapt_at_ok; [|auto|rewrite upd_length; auto|destruct bs; auto; tauto].
  cbv zeta. rewrite nth_upd_same by lia. rewrite upd_upd_same. rewrite <- Hs. simpl.
  eexists _, _. split; [reflexivity|]. split; [|split].
  - rewrite upd_length; auto.
  - intros j Hj Hd. destruct (Nat.eq_dec i j) as [->|Hne].
    + apply nth_upd_same; lia.
    + rewrite nth_upd_other by auto. apply H2; auto. destruct Hd; [auto|congruence].
  - destruct bs as [b|]; auto. destruct H3 as (-> & H4 & H5). split; [auto|split].
    + rewrite upd_length; auto.
    + intros j Hj Hd. destruct (Nat.eq_dec i j) as [->|Hne].
      * apply nth_upd_same; lia.
      * rewrite nth_upd_other by auto. apply H5; auto. destruct Hd; [auto|congruence].
Qed.

Lemma cs_inv_weaken spec sh (d1 d2 : nat -> Prop) st bs h :
  (forall j, (j < length sh)%nat -> d2 j -> d1 j) -> cs_inv spec sh d1 st bs h -> cs_inv spec sh d2 st bs h.
Proof.
  intros Hd (H1 & H2 & H3). split; [auto|split]; [intros; apply H2; auto|].
  destruct bs; auto. destruct H3 as (? & ? & H5). repeat split; auto.
Qed.

Definition some_bs (bs : option (list Z)) : bool := match bs with Some _ => true | None => false end.
Definition len_bs (n : nat) (bs : option (list Z)) : Prop :=
  match bs with Some b => length b = n | None => True end.

Theorem compute_strides_ok L sh l st bs :
  length st = length sh -> len_bs (length sh) bs ->
  compute_strides L sh l st bs =
  Ok (let ss := if layout_eqb L row_major || layout_eqb l row_major then row_strides sh else col_strides sh in
      (ss, if some_bs bs then Some (spec_backstrides ss sh) else None, prod sh)).
Proof.
  intros Hst Hbs. unfold compute_strides.
  assert (Hbk : forall f, map (fun k => f k * (nth k sh 0 - 1)) (seq 0 (length sh)) =
                 spec_backstrides (map f (seq 0 (length sh))) sh).
  { intros f. unfold spec_backstrides. apply map_ext_in. intros a Ha. apply in_seq in Ha.
    rewrite (nth_indep (map f _) 0 (f 0%nat)) by (rewrite map_length, seq_length; lia).
    rewrite map_nth, seq_nth by lia. reflexivity. }
  destruct (layout_eqb L row_major || layout_eqb l row_major).
  - destruct (for_down_inv
      (fun i '(s, b, ds) => cs_inv (row_stride sh) sh (fun j => (i <= j)%nat) s b (some_bs bs) /\
                            ds = prod (skipn i sh))
      (compute_strides_body sh) (length sh) (st, bs, 1)) as ([[s b] ds] & E & I & D).
    + split; [|rewrite skipn_all; reflexivity].
      split; [auto|split]; [intros; lia|]. destruct bs; simpl in *; auto.
      repeat split; auto. intros; lia.
    + intros i [[s b] ds] Hi [HI HD].
      destruct (cs_body_ok (row_stride sh) sh _ s b (some_bs bs) i ds Hi HI) as (s' & b' & E & I).
      { unfold row_stride. rewrite HD. reflexivity. }
      rewrite E. eexists; split; [reflexivity|]. split.
      * eapply cs_inv_weaken; [|exact I]. simpl. intros. lia.
      * rewrite HD. destruct (nth_error_lt_ex _ _ Hi) as (a & Ha).
        rewrite (skipn_cons_nth _ _ _ Ha), prod_cons. rewrite (nth_error_nth _ _ 0 Ha). ring.
    + rewrite E. simpl in D. f_equal.
      destruct (cs_inv_final (row_stride sh) sh s b (some_bs bs)) as (-> & ->).
      { eapply cs_inv_weaken; [|exact I]. simpl; intros; lia. }
      rewrite D. unfold row_strides, col_strides. rewrite <- Hbk. reflexivity.
  - destruct (for_up_inv
      (fun i '(s, b, ds) => cs_inv (col_stride sh) sh (fun j => (j < i)%nat) s b (some_bs bs) /\
                            ds = prod (firstn i sh))
      (compute_strides_body sh) 0 (length sh) (st, bs, 1)) as ([[s b] ds] & E & I & D).
    + split; [|reflexivity].
      split; [auto|split]; [intros; lia|]. destruct bs; simpl in *; auto.
      repeat split; auto. intros; lia.
    + intros i [[s b] ds] [_ Hi] [HI HD]. simpl in Hi.
      destruct (cs_body_ok (col_stride sh) sh _ s b (some_bs bs) i ds Hi HI) as (s' & b' & E & I).
      { unfold col_stride. rewrite HD. reflexivity. }
      rewrite E. eexists; split; [reflexivity|]. split.
      * eapply cs_inv_weaken; [|exact I]. simpl. intros. lia.
      * rewrite HD. destruct (nth_error_lt_ex _ _ Hi) as (a & Ha).
        rewrite (firstn_snoc_nth _ _ _ Ha), prod_app. rewrite (nth_error_nth _ _ 0 Ha). rewrite prod_cons, prod_nil. ring.
    + rewrite E. simpl in D. f_equal. rewrite firstn_all in D.
      destruct (cs_inv_final (col_stride sh) sh s b (some_bs bs)) as (-> & ->).
      { eapply cs_inv_weaken; [|exact I]. simpl; intros; lia. }
      rewrite D. unfold row_strides, col_strides. rewrite <- Hbk. reflexivity.
Qed.

Lemma row_strides_length sh : length (row_strides sh) = length sh.
Proof. unfold row_strides. rewrite map_length, seq_length. reflexivity. Qed.
Lemma col_strides_length sh : length (col_strides sh) = length sh.
Proof. unfold col_strides. rewrite map_length, seq_length. reflexivity. Qed.
Lemma spec_strides_length l sh : length (spec_strides l sh) = length sh.
Proof. destruct l; simpl; auto using row_strides_length, col_strides_length. Qed.

Lemma row_strides_cons d sh :
  row_strides (d :: sh) = (if d =? 1 then 0 else prod sh) :: row_strides sh.
Proof.
  unfold row_strides. simpl. f_equal. rewrite <- seq_shift, map_map. reflexivity.
Qed.

Lemma col_strides_cons d sh :
  col_strides (d :: sh) = (if d =? 1 then 0 else 1) :: map (Z.mul d) (col_strides sh).
Proof.
  unfold col_strides. simpl. f_equal. rewrite <- seq_shift, !map_map. apply map_ext.
  intros k. unfold col_stride. simpl. destruct (nth k sh 0 =? 1); [ring|reflexivity].
Qed.

Lemma row_strides_nth sh k : (k < length sh)%nat -> nth k (row_strides sh) 0 = row_stride sh k.
Proof.
  intros H. unfold row_strides.
  rewrite (nth_indep (map _ _) 0 (row_stride sh 0)) by (rewrite map_length, seq_length; lia).
  rewrite map_nth, seq_nth by lia. reflexivity.
Qed.
Lemma col_strides_nth sh k : (k < length sh)%nat -> nth k (col_strides sh) 0 = col_stride sh k.
Proof.
  intros H. unfold col_strides.
  rewrite (nth_indep (map _ _) 0 (col_stride sh 0)) by (rewrite map_length, seq_length; lia).
  rewrite map_nth, seq_nth by lia. reflexivity.
Qed.

(** ** offsets *)
Lemma dot_scale c ix st : dot ix (map (Z.mul c) st) = c * dot ix st.
Proof. revert st; induction ix; intros [|s st]; simpl; try lia. rewrite IHix. ring. Qed.

Lemma dot_row sh ix : in_bounds sh ix -> dot ix (row_strides sh) = row_pos sh ix.
Proof.
  induction 1; auto. rewrite row_strides_cons. simpl. rewrite IHForall2.
  destruct (x =? 1) eqn:E; auto. apply Z.eqb_eq in E. assert (y = 0) by lia. subst. ring.
Qed.

Lemma dot_col sh ix : in_bounds sh ix -> dot ix (col_strides sh) = col_pos sh ix.
Proof.
  induction 1; auto. rewrite col_strides_cons. simpl. rewrite dot_scale, IHForall2.
  destruct (x =? 1) eqn:E; [|ring]. apply Z.eqb_eq in E. assert (y = 0) by lia. subst. ring.
Qed.

Lemma inner_product_dot l1 l2 a : inner_product l1 l2 a = a + dot l1 l2.
Proof. revert l2 a; induction l1; intros [|b l2] c; simpl; try lia. rewrite IHl1. ring. Qed.

Lemma element_offset_same st ix : length ix = length st -> element_offset st ix = dot ix st.
Proof.
  intros H. unfold element_offset. rewrite H, Nat.min_id, Nat.sub_diag. simpl.
  rewrite inner_product_dot. ring.
Qed.

Lemma element_offset_gen st ix :
  element_offset st ix =
  dot (skipn (length ix - Nat.min (length ix) (length st)) ix)
      (skipn (length st - Nat.min (length ix) (length st)) st).
Proof. unfold element_offset. rewrite inner_product_dot. ring. Qed.

Lemma dot_nil_r l : dot l [] = 0.
Proof. destruct l; reflexivity. Qed.

Lemma dot_app l1 l2 m1 m2 : length l1 = length m1 -> dot (l1 ++ l2) (m1 ++ m2) = dot l1 m1 + dot l2 m2.
Proof.
  revert m1; induction l1; intros [|b m1] H; simpl in *; try discriminate; try lia.
  rewrite IHl1 by lia. ring.
Qed.

Lemma dot_repeat0 n st : dot (repeat 0 n) st = 0.
Proof. revert st; induction n; intros [|s st]; simpl; rewrite ?IHn; auto. Qed.

Lemma dot_pad_r l k st : dot (l ++ repeat 0 k) st = dot l st.
Proof.
  revert st; induction l; intros [|s st]; simpl; auto using dot_repeat0.
  rewrite IHl. reflexivity.
Qed.

Lemma dot_pad_l l st :
  (length l <= length st)%nat ->
  dot (repeat 0 (length st - length l) ++ l) st = dot l (skipn (length st - length l) st).
Proof.
  intros H. rewrite <- (firstn_skipn (length st - length l) st) at 2.
  rewrite dot_app by (rewrite repeat_length, firstn_length; lia).
  rewrite dot_repeat0. lia.
Qed.

Lemma raw_data_offset_ok dim st args :
  (dim + length args <= length st)%nat -> raw_data_offset dim st args = Ok (dot args (skipn dim st)).
Proof.
  revert dim; induction args; intros dim H; simpl in *.
  - reflexivity.
  - rewrite (rd_nth 0) by lia. simpl. rewrite IHargs by lia. simpl.
    destruct (nth_error_lt_ex st dim) as (s & Hs); [lia|].
    rewrite (skipn_cons_nth _ _ _ Hs). rewrite (nth_error_nth _ _ 0 Hs). reflexivity.
Qed.

(** The full index denoted by an argument pack. *)
Definition pad_args (n : nat) (args : list Z) (miss : bool) : list Z :=
  let k := (length args + if miss then 1 else 0)%nat in
  if (n <? k)%nat then
    let a := skipn (k - n) args in a ++ repeat 0 (n - length a)
  else if miss then args ++ repeat 0 (n - length args)
  else repeat 0 (n - length args) ++ args.

Lemma data_offset_ok st args miss :
  data_offset st args miss = Ok (dot (pad_args (length st) args miss) st).
Proof.
  induction args as [|a args IH].
  - simpl. unfold pad_args. simpl.
    destruct miss; simpl.
    + destruct (length st <? 1)%nat eqn:E.
      * rewrite skipn_nil. simpl. rewrite dot_repeat0; reflexivity.
      * rewrite dot_repeat0; reflexivity.
    + destruct (length st <? 0)%nat eqn:E; [apply Nat.ltb_lt in E; lia|].
      rewrite app_nil_r, dot_repeat0. reflexivity.
  - set (nargs := (length (a :: args) + (if miss then 1 else 0))%nat).
    change (data_offset st (a :: args) miss) with
      (if (nargs =? length st)%nat then raw_data_offset 0 st (a :: args)
      else if (length st <? nargs)%nat then data_offset st args miss
      else if miss then raw_data_offset 0 st (a :: args)
      else raw_data_offset 0 (skipn (length st - nargs) st) (a :: args)).
    destruct (nargs =? length st)%nat eqn:E1.
    { apply Nat.eqb_eq in E1. subst nargs.
      rewrite raw_data_offset_ok by lia. simpl skipn.
      unfold pad_args. rewrite E1. rewrite Nat.ltb_irrefl.
      destruct miss.
      - rewrite dot_pad_r. reflexivity.
      - replace (length st - length (a :: args))%nat with 0%nat by lia. reflexivity. }
    apply Nat.eqb_neq in E1.
    destruct (length st <? nargs)%nat eqn:E2.
    { rewrite IH. f_equal. f_equal. unfold pad_args. fold nargs. rewrite E2.
      apply Nat.ltb_lt in E2.
      assert (Hn : nargs = S (length args + (if miss then 1 else 0))) by (subst nargs; simpl; lia).
      replace (nargs - length st)%nat with (S (length args + (if miss then 1 else 0) - length st))%nat by lia.
      simpl skipn.
      destruct (length st <? length args + (if miss then 1 else 0))%nat eqn:E3; [reflexivity|].
      apply Nat.ltb_ge in E3.
      replace (length args + (if miss then 1 else 0) - length st)%nat with 0%nat by lia. simpl skipn.
      destruct miss; auto.
      replace (length st - length args)%nat with 0%nat by lia. simpl. rewrite app_nil_r; reflexivity. }
    apply Nat.ltb_ge in E2.
    assert (Hn : nargs = S (length args + (if miss then 1 else 0))) by (subst nargs; simpl; lia).
    unfold pad_args. fold nargs. destruct (length st <? nargs)%nat eqn:E3; [apply Nat.ltb_lt in E3; lia|].
    destruct miss.
    + rewrite raw_data_offset_ok by (simpl; lia). simpl skipn. f_equal.
      rewrite dot_pad_r. reflexivity.
    + rewrite raw_data_offset_ok by (rewrite skipn_length; simpl in *; lia).
      change (skipn 0 (skipn (length st - nargs) st)) with (skipn (length st - nargs) st). f_equal.
      assert (Hq : nargs = length (a :: args)) by (simpl; lia).
      rewrite Hq. rewrite dot_pad_l by lia. reflexivity.
Qed.

Lemma element_offset_pad st ix : element_offset st ix = dot (pad_args (length st) ix false) st.
Proof.
  rewrite element_offset_gen. unfold pad_args. rewrite Nat.add_0_r.
  destruct (length st <? length ix)%nat eqn:E.
  - apply Nat.ltb_lt in E. rewrite Nat.min_r by lia. rewrite Nat.sub_diag. simpl.
    rewrite skipn_length. replace (length st - (length ix - (length ix - length st)))%nat with 0%nat by lia.
    simpl. rewrite app_nil_r. reflexivity.
  - apply Nat.ltb_ge in E. rewrite Nat.min_l by lia. rewrite Nat.sub_diag. simpl.
    rewrite <- (firstn_skipn (length st - length ix) st) at 4.
    rewrite dot_app by (rewrite repeat_length, firstn_length; lia). rewrite dot_repeat0. ring.
Qed.

Lemma pad_args_length n args miss : length (pad_args n args miss) = n.
Proof.
  unfold pad_args. destruct miss.
  - destruct (n <? length args + 1)%nat eqn:E; rewrite app_length, repeat_length.
    + apply Nat.ltb_lt in E. rewrite skipn_length. lia.
    + apply Nat.ltb_ge in E. lia.
  - destruct (n <? length args + 0)%nat eqn:E; rewrite app_length, repeat_length.
    + apply Nat.ltb_lt in E. rewrite skipn_length. lia.
    + apply Nat.ltb_ge in E. lia.
Qed.

Lemma pad_args_full n args : length args = n -> pad_args n args false = args.
Proof.
  intros H. unfold pad_args. rewrite Nat.add_0_r, H, Nat.ltb_irrefl, Nat.sub_diag. reflexivity.
Qed.

(** ** static layout shortcut *)
Lemma layout_offset_row sd dim st args :
  args <> [] -> (dim + length args <= length st)%nat ->
  layout_data_offset row_major sd dim st args =
  Ok (dot args (skipn dim st) +
      if Z.of_nat (dim + length args) =? sd then last args 0 * (1 - nth (dim + length args - 1) st 0) else 0).
Proof.
  intros Hne. revert dim. induction args as [|a args IH]; intros dim H; [congruence|].
  simpl in H. destruct (nth_error_lt_ex st dim) as (s & Hs); [lia|].
  rewrite (skipn_cons_nth _ _ _ Hs).
  destruct args as [|b args].
  - simpl. simpl in H. replace (Z.of_nat (dim + 1)) with (Z.of_nat dim + 1) by lia.
    replace (dim + 1 - 1)%nat with dim by lia. rewrite (nth_error_nth _ _ 0 Hs).
    destruct (Z.of_nat dim + 1 =? sd).
    + f_equal. lia.
    + rewrite (rd_ok _ _ _ Hs). simpl. f_equal. lia.
  - change (layout_data_offset row_major sd dim st (a :: b :: args)) with
      (let* st0 := rd st dim in
       let* rest := layout_data_offset row_major sd (S dim) st (b :: args) in Ok (a * st0 + rest)).
    rewrite (rd_ok _ _ _ Hs). bok. rewrite IH; [|discriminate|simpl in *; lia].
    bok. f_equal.
    replace (S dim + length (b :: args))%nat with (dim + length (a :: b :: args))%nat by (simpl; lia).
    change (last (a :: b :: args) 0) with (last (b :: args) 0).
    change (dot (a :: b :: args) (s :: skipn (S dim) st)) with (a * s + dot (b :: args) (skipn (S dim) st)).
    ring.
Qed.

Lemma layout_offset_col_pos sd dim st args :
  (0 < dim)%nat -> (dim + length args <= length st)%nat ->
  layout_data_offset column_major sd dim st args = Ok (dot args (skipn dim st)).
Proof.
  revert dim. induction args as [|a args IH]; intros dim Hd H; [reflexivity|].
  simpl in H. destruct (nth_error_lt_ex st dim) as (s & Hs); [lia|].
  rewrite (skipn_cons_nth _ _ _ Hs).
  assert (Hz : (dim =? 0)%nat = false) by (apply Nat.eqb_neq; lia).
  destruct args as [|b args].
  - simpl. rewrite Hz, (rd_ok _ _ _ Hs). simpl. f_equal; lia.
  - change (layout_data_offset column_major sd dim st (a :: b :: args)) with
      (if (dim =? 0)%nat then
            let* rest := layout_data_offset column_major sd (S dim) st (b :: args) in
            Ok (a + rest)
          else let* st0 := rd st dim in
       let* rest := layout_data_offset column_major sd (S dim) st (b :: args) in Ok (a * st0 + rest)).
    rewrite Hz, (rd_ok _ _ _ Hs). bok. rewrite IH by (simpl in *; lia). reflexivity.
Qed.

Lemma layout_offset_col0 sd st a args s st' :
  st = s :: st' -> (length args <= length st')%nat ->
  layout_data_offset column_major sd 0 st (a :: args) = Ok (a + dot args st').
Proof.
  intros -> H. destruct args as [|b args].
  - simpl. f_equal; lia.
  - change (layout_data_offset column_major sd 0 (s :: st') (a :: b :: args)) with
      (let* rest := layout_data_offset column_major sd 1 (s :: st') (b :: args) in Ok (a + rest)).
    rewrite layout_offset_col_pos by (simpl in *; lia). reflexivity.
Qed.

Lemma layout_offset_dyn L sd dim st args :
  L = dynamic \/ L = any -> (dim + length args <= length st)%nat ->
  layout_data_offset L sd dim st args = Ok (dot args (skipn dim st)).
Proof.
  intros HL H. rewrite <- raw_data_offset_ok by auto.
  destruct args; [reflexivity|]. destruct HL; subst; reflexivity.
Qed.

Lemma last_nth {A} (l : list A) d : last l d = nth (length l - 1) l d.
Proof.
  induction l as [|a l IH]; auto. destruct l as [|b l]; auto.
  change (last (a :: b :: l) d) with (last (b :: l) d). rewrite IH.
  replace (length (a :: b :: l) - 1)%nat with (S (length (b :: l) - 1))%nat by (simpl; lia).
  reflexivity.
Qed.

(** ** unravel *)
Lemma unravel_row_ok_aux sh p st_all pre i res0 :
  is_shape sh -> 0 <= p < prod sh ->
  st_all = pre ++ row_strides sh -> length pre = i ->
  length res0 = length st_all ->
  exists q, for_up (unravel_body st_all) i (length sh) (p, res0) =
      Ok (q, firstn i res0 ++ row_unpos sh p).
Proof.
  revert p st_all pre i res0. induction sh as [|d sh IH]; intros p st_all pre i res0 Hs Hp -> Hi Hl.
  - simpl. exists p. rewrite app_nil_r. rewrite app_length in Hl. simpl in Hl.
    rewrite firstn_all2 by lia. reflexivity.
  - inversion Hs; subst. rewrite ?prod_cons in Hp.
    pose proof (prod_nonneg _ H2).
    assert (0 < prod sh) by nia. assert (0 < d) by nia.
    rewrite row_strides_cons in *.
    cbn [length for_up].
    assert (Hb : unravel_body (pre ++ (if d =? 1 then 0 else prod sh) :: row_strides sh) (length pre) (p, res0)
       = Ok (p mod prod sh, upd res0 (length pre) (p / prod sh))).
    { unfold unravel_body.
      rewrite (rd_ok _ _ (if d =? 1 then 0 else prod sh)).
      2:{ rewrite nth_error_app2 by lia. rewrite Nat.sub_diag. reflexivity. }
      bok. rewrite app_length in Hl; simpl in Hl.
      destruct (d =? 1) eqn:E.
      - apply Z.eqb_eq in E. subst d. simpl. rewrite wr_ok by lia. simpl.
        rewrite Z.mod_small, Z.div_small by lia. reflexivity.
      - destruct (prod sh =? 0) eqn:E0; [apply Z.eqb_eq in E0; lia|].
        unfold cdiv, crem. rewrite E0. simpl. rewrite wr_ok by lia. simpl.
        rewrite Z.quot_div_nonneg, Z.rem_mod_nonneg by lia. reflexivity. }
    rewrite Hb. bok.
    destruct (IH (p mod prod sh) ((pre ++ [if d =? 1 then 0 else prod sh]) ++ row_strides sh) (pre ++ [if d =? 1 then 0 else prod sh]) (S (length pre))
       (upd res0 (length pre) (p / prod sh))) as (q & Hq); auto.
    { apply Z.mod_pos_bound; auto. }
    { rewrite app_length. simpl. lia. }
    { rewrite upd_length, Hl, <- app_assoc. reflexivity. }
    rewrite <- app_assoc in Hq. cbn [app] in Hq. rewrite Hq. exists q. f_equal. f_equal.
    rewrite app_length in Hl; simpl in Hl.
    rewrite (firstn_snoc_nth _ _ (p / prod sh)).
    2:{ apply nth_error_upd_same. lia. }
    rewrite <- app_assoc. simpl. f_equal.
    clear -Hl. assert (length pre <= length res0)%nat by lia. clear Hl.
    revert H. generalize (p / prod sh). generalize (length pre). intros n z. revert n.
    induction res0; intros [|n] H; simpl in *; auto; try lia. f_equal. apply IHres0. lia.
Qed.

Lemma unravel_col_ok_aux sh : forall pre rest p st_all res0,
  (* sh processed from its end; st_all starts with the strides of sh (scaled by nothing) *)
  is_shape sh -> 0 <= p < prod sh ->
  st_all = col_strides sh ++ rest -> length res0 = length st_all -> pre = length sh ->
  exists q, for_down (unravel_body st_all) pre (p, res0) =
      Ok (q, col_unpos sh p ++ skipn pre res0).
Proof.
  induction sh as [|d sh IH] using rev_ind; intros pre rest p st_all res0 Hs Hp -> Hl ->.
  - simpl. exists p. reflexivity.
  - apply Forall_app in Hs. destruct Hs as [Hs Hd]. inversion Hd; subst.
    rewrite prod_app in Hp. replace (prod [d]) with d in Hp by (unfold prod; simpl; ring).
    pose proof (prod_nonneg _ Hs).
    assert (0 < prod sh) by nia. assert (0 < d) by nia.
    assert (Hcs : col_strides (sh ++ [d]) = col_strides sh ++ [if d =? 1 then 0 else prod sh]).
    { unfold col_strides. rewrite app_length. simpl.
      replace (length sh + 1)%nat with (S (length sh)) by lia. rewrite seq_S, map_app. f_equal.
      - apply map_ext_in. intros k Hk. apply in_seq in Hk. unfold col_stride.
        rewrite app_nth1 by lia. rewrite firstn_app.
        replace (k - length sh)%nat with 0%nat by lia. simpl. rewrite app_nil_r. reflexivity.
      - simpl. unfold col_stride. rewrite app_nth2 by lia. rewrite Nat.sub_diag. simpl.
        rewrite firstn_app, Nat.sub_diag, firstn_all. simpl. rewrite app_nil_r. reflexivity. }
    rewrite Hcs in *. rewrite app_length. simpl length.
    replace (length sh + 1)%nat with (S (length sh)) by lia. cbn [for_down].
    set (v := if d =? 1 then 0 else prod sh) in *.
    rewrite !app_length, col_strides_length in Hl. simpl in Hl.
    assert (Hb : unravel_body ((col_strides sh ++ [v]) ++ rest) (length sh) (p, res0)
       = Ok (p mod prod sh, upd res0 (length sh) (p / prod sh))).
    { unfold unravel_body.
      rewrite (rd_ok _ _ v).
      2:{ rewrite nth_error_app1 by (rewrite app_length, col_strides_length; simpl; lia).
          rewrite nth_error_app2 by (rewrite col_strides_length; lia).
          rewrite col_strides_length, Nat.sub_diag. reflexivity. }
      bok. subst v.
      destruct (d =? 1) eqn:E.
      - apply Z.eqb_eq in E. subst d. simpl. rewrite wr_ok by lia. simpl.
        rewrite Z.mod_small, Z.div_small by lia. reflexivity.
      - destruct (prod sh =? 0) eqn:E0; [apply Z.eqb_eq in E0; lia|].
        unfold cdiv, crem. rewrite E0. simpl. rewrite wr_ok by lia. simpl.
        rewrite Z.quot_div_nonneg, Z.rem_mod_nonneg by lia. reflexivity. }
    rewrite Hb. bok.
    destruct (IH (length sh) (v :: rest) (p mod prod sh) ((col_strides sh ++ [v]) ++ rest)
       (upd res0 (length sh) (p / prod sh))) as (q & Hq); auto.
    { apply Z.mod_pos_bound; auto. }
    { rewrite <- app_assoc. reflexivity. }
    { rewrite upd_length. rewrite !app_length, col_strides_length. simpl. lia. }
    rewrite Hq. exists q. f_equal. f_equal.
    assert (Hsk : skipn (length sh) (upd res0 (length sh) (p / prod sh)) =
                  (p / prod sh) :: skipn (S (length sh)) res0).
    { assert (Hlt : (length sh < length res0)%nat) by lia. clear -Hlt.
      revert Hlt. generalize (p / prod sh). generalize (length sh). intros n z; revert n.
      induction res0; intros [|n] H; simpl in *; auto; try lia. apply IHres0. lia. }
    rewrite Hsk.
    (* col_unpos of a snoc *)
    assert (Hun : forall p, 0 <= p -> col_unpos (sh ++ [d]) p = col_unpos sh (p mod prod sh) ++ [(p / prod sh) mod d]).
    { clear -H0 Hs. revert H0. induction Hs as [|x l Hx Hl IHl]; intros Hpp p Hp.
      - simpl. unfold prod. simpl. rewrite Z.div_1_r. reflexivity.
      - rewrite ?prod_cons in Hpp. assert (0 < prod l) by (pose proof (prod_nonneg _ Hl); nia).
        assert (0 < x) by nia. simpl. rewrite IHl; auto; [|apply Z.div_pos; lia].
        rewrite ?prod_cons. f_equal.
        + rewrite Z.rem_mul_r by lia. rewrite Z.mul_comm, Z.mod_add, Z.mod_mod by lia. reflexivity.
        + f_equal.
          * f_equal. rewrite Z.rem_mul_r by lia. rewrite Z.add_comm, Z.mul_comm, Z.div_add_l by lia.
            rewrite (Z.div_small (p mod x) x) by (apply Z.mod_pos_bound; lia). lia.
          * rewrite Z.div_div by lia. reflexivity. }
    rewrite Hun by lia.
    rewrite (Z.mod_small (p / prod sh) d).
    2:{ split. apply Z.div_pos; lia. apply Z.div_lt_upper_bound; lia. }
    rewrite <- app_assoc. reflexivity.
Qed.

Lemma unravel_index_row sh p :
  is_shape sh -> 0 <= p < prod sh -> unravel_index p sh row_major = Ok (row_unpos sh p).
Proof.
  intros Hs Hp. unfold unravel_index.
  rewrite compute_strides_ok by (simpl; rewrite ?repeat_length; auto).
  simpl. unfold unravel_noexcept.
  rewrite row_strides_length.
  destruct (unravel_row_ok_aux sh p (row_strides sh) [] 0 (repeat 0 (length sh))) as (q & Hq); auto.
  { rewrite repeat_length, row_strides_length. reflexivity. }
  rewrite Hq. reflexivity.
Qed.

Lemma unravel_index_col sh p :
  is_shape sh -> 0 <= p < prod sh -> unravel_index p sh column_major = Ok (col_unpos sh p).
Proof.
  intros Hs Hp. unfold unravel_index.
  rewrite compute_strides_ok by (simpl; rewrite ?repeat_length; auto).
  simpl. unfold unravel_noexcept.
  rewrite col_strides_length.
  destruct (unravel_col_ok_aux sh (length sh) [] p (col_strides sh) (repeat 0 (length sh))) as (q & Hq); auto.
  { rewrite app_nil_r. reflexivity. }
  { rewrite repeat_length, col_strides_length. reflexivity. }
  rewrite Hq. simpl. rewrite skipn_all2 by (rewrite repeat_length; lia).
  rewrite app_nil_r. reflexivity.
Qed.

Lemma ravel_index_row sh ix : in_bounds sh ix -> ravel_index ix sh row_major = Ok (row_pos sh ix).
Proof.
  intros H. unfold ravel_index.
  rewrite compute_strides_ok by (simpl; rewrite ?repeat_length; auto). simpl.
  unfold ravel_from_strides. rewrite element_offset_same.
  - rewrite dot_row by auto. reflexivity.
  - rewrite row_strides_length. apply in_bounds_length; auto.
Qed.

Lemma ravel_index_col sh ix : in_bounds sh ix -> ravel_index ix sh column_major = Ok (col_pos sh ix).
Proof.
  intros H. unfold ravel_index.
  rewrite compute_strides_ok by (simpl; rewrite ?repeat_length; auto). simpl.
  unfold ravel_from_strides. rewrite element_offset_same.
  - rewrite dot_col by auto. reflexivity.
  - rewrite col_strides_length. apply in_bounds_length; auto.
Qed.

(** ** Property lemmas *)
Lemma dense_addressing_lemma L l sh st0 bs0 :
  is_shape sh -> length st0 = length sh -> length bs0 = length sh ->
  exists st bs,
    compute_strides L sh l st0 (Some bs0) = Ok (st, Some bs, prod sh) /\
    (forall ix, in_bounds sh ix -> 0 <= element_offset st ix < prod sh) /\
    (forall i j, in_bounds sh i -> in_bounds sh j -> element_offset st i = element_offset st j -> i = j) /\
    (forall p, 0 <= p < prod sh -> exists ix, in_bounds sh ix /\ element_offset st ix = p).
Proof.
  intros Hs H1 H2. rewrite compute_strides_ok by auto. simpl.
  eexists _, _. split; [reflexivity|].
  destruct (layout_eqb L row_major || layout_eqb l row_major).
  - assert (HE : forall ix, in_bounds sh ix -> element_offset (row_strides sh) ix = row_pos sh ix).
    { intros ix Hix. rewrite element_offset_same, dot_row; auto.
      rewrite row_strides_length. apply in_bounds_length; auto. }
    split; [|split].
    + intros ix Hix. rewrite HE by auto. apply row_pos_bound; auto.
    + intros i j Hi Hj. rewrite !HE by auto. apply row_pos_inj; auto.
    + intros p Hp. destruct (row_unpos_spec sh p Hs Hp) as (Hb & He).
      exists (row_unpos sh p). rewrite HE by auto. auto.
  - assert (HE : forall ix, in_bounds sh ix -> element_offset (col_strides sh) ix = col_pos sh ix).
    { intros ix Hix. rewrite element_offset_same, dot_col; auto.
      rewrite col_strides_length. apply in_bounds_length; auto. }
    split; [|split].
    + intros ix Hix. rewrite HE by auto. apply col_pos_bound; auto.
    + intros i j Hi Hj. rewrite !HE by auto. apply col_pos_inj; auto.
    + intros p Hp. destruct (col_unpos_spec sh p Hs Hp) as (Hb & He).
      exists (col_unpos sh p). rewrite HE by auto. auto.
Qed.

Lemma nth_spec_backstrides st sh k :
  (k < length sh)%nat -> nth k (spec_backstrides st sh) 0 = nth k st 0 * (nth k sh 0 - 1).
Proof.
  intros H. unfold spec_backstrides.
  set (f := fun k => nth k st 0 * (nth k sh 0 - 1)).
  rewrite (nth_indep (map f _) 0 (f 0%nat)) by (rewrite map_length, seq_length; lia).
  rewrite map_nth, seq_nth by lia. reflexivity.
Qed.

Lemma documented_strides_lemma l sh st0 bs0 :
  l = row_major \/ l = column_major ->
  length st0 = length sh -> length bs0 = length sh ->
  exists st bs,
    compute_strides l sh l st0 (Some bs0) = Ok (st, Some bs, prod sh) /\
    compute_strides dynamic sh l st0 (Some bs0) = Ok (st, Some bs, prod sh) /\
    compute_size sh = prod sh /\
    length st = length sh /\ length bs = length sh /\
    (forall k, (k < length sh)%nat ->
       nth k st 0 = (if nth k sh 0 =? 1 then 0
                     else match l with row_major => prod (skipn (S k) sh) | _ => prod (firstn k sh) end) /\
       nth k bs 0 = nth k st 0 * (nth k sh 0 - 1)).
Proof.
  intros Hl H1 H2. rewrite !compute_strides_ok by auto. simpl.
  exists (spec_strides l sh), (spec_backstrides (spec_strides l sh) sh).
  split; [|split]; [destruct Hl; subst; reflexivity|destruct Hl; subst; reflexivity|].
  split; [apply compute_size_prod|]. split; [apply spec_strides_length|]. split.
  { unfold spec_backstrides. rewrite map_length, seq_length. reflexivity. }
  intros k Hk. split.
  - destruct Hl; subst; simpl; rewrite ?row_strides_nth, ?col_strides_nth by auto; reflexivity.
  - apply nth_spec_backstrides; auto.
Qed.

Lemma ravel_unravel_lemma l sh :
  l = row_major \/ l = column_major -> is_shape sh ->
  (forall p, 0 <= p < prod sh ->
     exists ix, unravel_index p sh l = Ok ix /\ in_bounds sh ix /\ ravel_index ix sh l = Ok p) /\
  (forall ix, in_bounds sh ix ->
     exists p, ravel_index ix sh l = Ok p /\ 0 <= p < prod sh /\ unravel_index p sh l = Ok ix).
Proof.
  intros Hl Hs. destruct Hl; subst; split.
  - intros p Hp. destruct (row_unpos_spec sh p Hs Hp) as (Hb & He).
    exists (row_unpos sh p). rewrite unravel_index_row, ravel_index_row, He by auto. auto.
  - intros ix Hix. exists (row_pos sh ix).
    pose proof (row_pos_bound _ _ Hix) as HB.
    rewrite ravel_index_row, unravel_index_row by auto. repeat split; try lia; auto.
    f_equal. destruct (row_unpos_spec sh _ Hs HB) as (Hb & He).
    eapply row_pos_inj; eauto.
  - intros p Hp. destruct (col_unpos_spec sh p Hs Hp) as (Hb & He).
    exists (col_unpos sh p). rewrite unravel_index_col, ravel_index_col, He by auto. auto.
  - intros ix Hix. exists (col_pos sh ix).
    pose proof (col_pos_bound _ _ Hix) as HB.
    rewrite ravel_index_col, unravel_index_col by auto. repeat split; try lia; auto.
    f_equal. destruct (col_unpos_spec sh _ Hs HB) as (Hb & He).
    eapply col_pos_inj; eauto.
Qed.

Lemma ravel_order_lemma sh ix :
  in_bounds sh ix ->
  ravel_index ix sh row_major = Ok (row_pos sh ix) /\ ravel_index ix sh column_major = Ok (col_pos sh ix).
Proof. intros; split; [apply ravel_index_row|apply ravel_index_col]; auto. Qed.

Lemma unravel_throws_lemma l sh p :
  l = dynamic \/ l = any -> unravel_index p sh l = Throw runtime_error.
Proof.
  intros Hl. unfold unravel_index.
  rewrite compute_strides_ok by (simpl; rewrite ?repeat_length; auto). simpl.
  destruct Hl; subst; reflexivity.
Qed.

Lemma for_each_app_map {A B} (f : A -> res B) (g : A -> B) l acc :
  (forall a, In a l -> f a = Ok (g a)) ->
  for_each (fun i out => let* x := f i in Ok (out ++ [x])) l acc = Ok (acc ++ map g l).
Proof.
  revert acc; induction l; intros acc H; simpl.
  - rewrite app_nil_r; reflexivity.
  - rewrite H by (left; auto). simpl. rewrite IHl by (intros; apply H; right; auto).
    rewrite <- app_assoc. reflexivity.
Qed.

Lemma unravel_indices_lemma l sh ps :
  l = row_major \/ l = column_major -> is_shape sh ->
  Forall (fun p => 0 <= p < prod sh) ps ->
  exists ixs, unravel_indices ps sh l = Ok ixs /\
    Forall2 (fun p ix => unravel_index p sh l = Ok ix) ps ixs.
Proof.
  intros Hl Hs Hp. set (g := match l with row_major => row_unpos sh | _ => col_unpos sh end).
  assert (Hg : forall p, 0 <= p < prod sh -> unravel_index p sh l = Ok (g p)).
  { intros p Hb. destruct Hl; subst l g; [apply unravel_index_row|apply unravel_index_col]; auto. }
  exists (map g ps). split.
  - unfold unravel_indices. unfold unravel_index in Hg.
    rewrite compute_strides_ok in * by (simpl; rewrite ?repeat_length; auto).
    rewrite bind_Ok. cbv beta iota zeta.
    rewrite (for_each_app_map _ g); auto.
    intros a Ha. rewrite Forall_forall in Hp. specialize (Hg a (Hp a Ha)).
    exact Hg.
  - clear -Hg Hp. induction Hp; simpl; constructor; auto.
Qed.

Lemma short_long_access_lemma st :
  (forall ix, length ix = length st ->
     data_offset st ix false = Ok (dot ix st) /\ element_offset st ix = dot ix st) /\
  (forall extra ix, length ix = length st ->
     data_offset st (extra ++ ix) false = data_offset st ix false /\
     element_offset st (extra ++ ix) = element_offset st ix) /\
  (forall ix n, (length ix + n = length st)%nat ->
     data_offset st ix false = data_offset st (repeat 0 n ++ ix) false /\
     element_offset st ix = element_offset st (repeat 0 n ++ ix)) /\
  (forall ix n, (length ix + n = length st)%nat -> (0 < n)%nat ->
     data_offset st ix true = data_offset st (ix ++ repeat 0 n) false).
Proof.
  repeat split.
  - rewrite data_offset_ok, pad_args_full by auto. reflexivity.
  - rewrite element_offset_pad, pad_args_full by auto. reflexivity.
  - rewrite !data_offset_ok. f_equal. f_equal. rewrite (pad_args_full _ ix) by auto.
    unfold pad_args. rewrite app_length. rewrite H.
    destruct (length st <? length extra + length st + 0)%nat eqn:E.
    + replace (length extra + length st + 0 - length st)%nat with (length extra) by lia.
      rewrite skipn_app, skipn_all, Nat.sub_diag. cbn [app skipn].
      replace (length st - length ix)%nat with 0%nat by lia. simpl. apply app_nil_r.
    + apply Nat.ltb_ge in E. assert (length extra = 0)%nat by lia.
      destruct extra; [|discriminate]. simpl. rewrite Nat.sub_diag. reflexivity.
  - rewrite !element_offset_pad. f_equal. rewrite (pad_args_full _ ix) by auto.
    unfold pad_args. rewrite app_length. rewrite H.
    destruct (length st <? length extra + length st + 0)%nat eqn:E.
    + replace (length extra + length st + 0 - length st)%nat with (length extra) by lia.
      rewrite skipn_app, skipn_all, Nat.sub_diag. cbn [app skipn].
      replace (length st - length ix)%nat with 0%nat by lia. simpl. apply app_nil_r.
    + apply Nat.ltb_ge in E. assert (length extra = 0)%nat by lia.
      destruct extra; [|discriminate]. simpl. rewrite Nat.sub_diag. reflexivity.
  - rewrite !data_offset_ok. f_equal. f_equal.
    rewrite (pad_args_full _ (repeat 0 n ++ ix)) by (rewrite app_length, repeat_length; lia).
    unfold pad_args. destruct (length st <? length ix + 0)%nat eqn:E; [apply Nat.ltb_lt in E; lia|].
    replace (length st - length ix)%nat with n by lia. reflexivity.
  - rewrite !element_offset_pad. f_equal.
    rewrite (pad_args_full _ (repeat 0 n ++ ix)) by (rewrite app_length, repeat_length; lia).
    unfold pad_args. destruct (length st <? length ix + 0)%nat eqn:E; [apply Nat.ltb_lt in E; lia|].
    replace (length st - length ix)%nat with n by lia. reflexivity.
  - intros ix n H Hn. rewrite !data_offset_ok. f_equal. f_equal.
    rewrite (pad_args_full _ (ix ++ repeat 0 n)) by (rewrite app_length, repeat_length; lia).
    unfold pad_args. destruct (length st <? length ix + 1)%nat eqn:E; [apply Nat.ltb_lt in E; lia|].
    replace (length st - length ix)%nat with n by lia. reflexivity.
Qed.

Lemma row_stride_last sh n :
  length sh = S n -> row_stride sh n = if nth n sh 0 =? 1 then 0 else 1.
Proof.
  intros H. unfold row_stride. destruct (nth n sh 0 =? 1); auto.
  rewrite skipn_all2 by lia. reflexivity.
Qed.

Lemma in_bounds_firstn_nth sh ix k :
  in_bounds (firstn (length ix) sh) ix -> (k < length ix)%nat -> 0 <= nth k ix 0 < nth k sh 0.
Proof.
  intros H Hk. pose proof (in_bounds_length _ _ H) as HL.
  pose proof (in_bounds_nth _ _ k H) as HB. rewrite <- HL in HB. specialize (HB Hk).
  rewrite <- (firstn_skipn (length ix) sh). rewrite app_nth1 by lia. exact HB.
Qed.

Lemma unchecked_agrees_lemma L sh st0 st bs ds sd ix :
  L = row_major \/ L = column_major \/ L = dynamic ->
  length st0 = length sh ->
  (L = dynamic -> st = st0) ->
  (L <> dynamic -> compute_strides L sh L st0 None = Ok (st, bs, ds)) ->
  sd = -1 \/ sd = Z.of_nat (length sh) ->
  ix <> [] -> (length ix <= length sh)%nat ->
  in_bounds (firstn (length ix) sh) ix ->
  unchecked_data_offset L sd st ix =
    Ok (element_offset st (ix ++ repeat 0 (length sh - length ix))).
Proof.
  intros HL H0 Hdyn Hst Hsd Hne Hlen Hb.
  assert (Hl2 : length st = length sh).
  { destruct HL as [->|[->| ->]].
    - rewrite compute_strides_ok in Hst by (simpl; auto). simpl in Hst.
      assert (E : row_strides sh = st) by (specialize (Hst ltac:(discriminate)); congruence). subst. apply row_strides_length.
    - rewrite compute_strides_ok in Hst by (simpl; auto). simpl in Hst.
      assert (E : col_strides sh = st) by (specialize (Hst ltac:(discriminate)); congruence). subst. apply col_strides_length.
    - rewrite Hdyn; auto. }
  rewrite element_offset_same by (rewrite app_length, repeat_length; lia).
  rewrite dot_pad_r. unfold unchecked_data_offset.
  destruct HL as [->|[->| ->]].
  - rewrite compute_strides_ok in Hst by (simpl; auto). simpl in Hst.
    assert (E : row_strides sh = st) by (specialize (Hst ltac:(discriminate)); congruence). subst st.
    rewrite layout_offset_row by (auto; simpl; lia). simpl skipn. f_equal.
    destruct (Z.of_nat (0 + length ix) =? sd) eqn:E1; [|lia].
    apply Z.eqb_eq in E1. destruct ix as [|i0 ix0]; [congruence|].
    assert (Hfull : length (i0 :: ix0) = length sh).
    { destruct Hsd; subst sd; lia. }
    rewrite last_nth. cbn [Nat.add].
    rewrite row_strides_nth by (simpl in *; lia).
    set (n := (length (i0 :: ix0) - 1)%nat).
    assert (Hn : length sh = S n) by (subst n; rewrite <- Hfull; simpl; lia).
    rewrite (row_stride_last sh n Hn).
    pose proof (in_bounds_firstn_nth _ _ n Hb ltac:(lia)).
    destruct (nth n sh 0 =? 1) eqn:E2; [|lia].
    apply Z.eqb_eq in E2. assert (nth n (i0 :: ix0) 0 = 0) by lia. lia.
  - rewrite compute_strides_ok in Hst by (simpl; auto). simpl in Hst.
    assert (E : col_strides sh = st) by (specialize (Hst ltac:(discriminate)); congruence). subst st.
    destruct ix as [|i0 ix0]; [congruence|]. destruct sh as [|d sh]; [simpl in Hlen; lia|].
    rewrite col_strides_cons.
    erewrite layout_offset_col0; [|reflexivity|rewrite map_length, col_strides_length; simpl in *; lia].
    f_equal. cbn [dot]. pose proof (in_bounds_firstn_nth _ _ 0 Hb ltac:(simpl; lia)) as HB. simpl in HB.
    destruct (d =? 1) eqn:E2; [|lia]. apply Z.eqb_eq in E2. assert (i0 = 0) by lia. subst. lia.
  - rewrite layout_offset_dyn by (auto; lia). reflexivity.
Qed.

(** do_strides_match *)
Lemma dsm_row sh st z : length st = length sh -> forall n s,
  (n <= length sh)%nat ->
  s = (if forallb (fun k => stride_match_condition (nth k st 0) (nth k sh 0) (prod (skipn (S k) sh)) z)
         (seq n (length sh - n)) then Some (prod (skipn n sh)) else None) ->
  for_down (do_strides_match_body sh st z) n s =
  Ok (if forallb (fun k => stride_match_condition (nth k st 0) (nth k sh 0) (prod (skipn (S k) sh)) z)
         (seq 0 (length sh)) then Some (prod sh) else None).
Proof.
  intros Hl. induction n; intros s Hn Hs.
  - simpl. rewrite Hs, Nat.sub_0_r. reflexivity.
  - cbn [for_down].
    set (f := fun k => stride_match_condition (nth k st 0) (nth k sh 0) (prod (skipn (S k) sh)) z) in *.
    assert (Hb : do_strides_match_body sh st z n s =
      Ok (if forallb f (seq n (length sh - n)) then Some (prod (skipn n sh)) else None)).
    { replace (length sh - n)%nat with (S (length sh - S n)) by lia. cbn [seq forallb].
      rewrite Hs. destruct (forallb f (seq (S n) (length sh - S n))).
      - unfold do_strides_match_body. rewrite !(rd_nth 0) by lia. bok.
        fold (f n). destruct (nth_error_lt_ex sh n) as (a & Ha); [lia|].
        change (stride_match_condition (nth n st 0) (nth n sh 0) (prod (skipn (S n) sh)) z) with (f n).
        rewrite (skipn_cons_nth _ _ _ Ha), prod_cons. rewrite (nth_error_nth _ _ 0 Ha).
        destruct (f n); simpl; [|reflexivity]. do 2 f_equal. ring.
      - rewrite andb_false_r. reflexivity. }
    rewrite Hb. bok. apply IHn; auto. lia.
Qed.

Lemma dsm_col sh st z : length st = length sh -> forall m n s,
  (n + m = length sh)%nat ->
  s = (if forallb (fun k => stride_match_condition (nth k st 0) (nth k sh 0) (prod (firstn k sh)) z)
         (seq 0 n) then Some (prod (firstn n sh)) else None) ->
  for_up (do_strides_match_body sh st z) n m s =
  Ok (if forallb (fun k => stride_match_condition (nth k st 0) (nth k sh 0) (prod (firstn k sh)) z)
         (seq 0 (length sh)) then Some (prod sh) else None).
Proof.
  intros Hl. induction m; intros n s Hn Hs.
  - simpl. rewrite Hs. replace n with (length sh) by lia. rewrite firstn_all. reflexivity.
  - cbn [for_up].
    set (f := fun k => stride_match_condition (nth k st 0) (nth k sh 0) (prod (firstn k sh)) z) in *.
    assert (Hb : do_strides_match_body sh st z n s =
      Ok (if forallb f (seq 0 (S n)) then Some (prod (firstn (S n) sh)) else None)).
    { rewrite seq_S, forallb_app. rewrite Hs. destruct (forallb f (seq 0 n)).
      - unfold do_strides_match_body. rewrite !(rd_nth 0) by lia. bok.
        destruct (nth_error_lt_ex sh n) as (a & Ha); [lia|].
        change (stride_match_condition (nth n st 0) (nth n sh 0) (prod (firstn n sh)) z) with (f n).
        rewrite (firstn_snoc_nth _ _ _ Ha), prod_app, prod_cons, prod_nil. rewrite (nth_error_nth _ _ 0 Ha).
        cbn [forallb Nat.add]. rewrite andb_true_r.
        destruct (f n); simpl; [|reflexivity]. do 2 f_equal. ring.
      - reflexivity. }
    rewrite Hb. bok. apply IHm; auto. lia.
Qed.

Lemma dot_congr sh ix st st' :
  in_bounds sh ix -> length st = length sh -> length st' = length sh ->
  (forall k, (k < length sh)%nat -> nth k sh 0 = 1 \/ nth k st 0 = nth k st' 0) ->
  dot ix st = dot ix st'.
Proof.
  intros H. revert st st'. induction H; intros [|s st] [|s' st'] H1 H2 HH; simpl in *; try discriminate; auto.
  rewrite (IHForall2 st st') by (try lia; intros k Hk; apply (HH (S k)); lia).
  destruct (HH 0%nat ltac:(lia)); simpl in *; [|subst; auto].
  assert (y = 0) by lia. subst. lia.
Qed.

Lemma strides_match_sound_lemma l sh st z :
  length st = length sh ->
  do_strides_match sh st l z = Ok true ->
  (l = row_major \/ l = column_major) /\
  forall ix, in_bounds sh ix ->
    element_offset st ix = match l with row_major => row_pos sh ix | _ => col_pos sh ix end.
Proof.
  intros Hl H. destruct l; try discriminate; (split; [auto|]); intros ix Hix;
    rewrite element_offset_same by (rewrite Hl; apply in_bounds_length; auto).
  - rewrite <- dot_row by auto. simpl in H. rewrite (dsm_row sh) in H;
      [|auto|lia|].
    2:{ rewrite Hl, Nat.sub_diag, skipn_all. reflexivity. }
    simpl in H.
    match goal with H : context [forallb ?f _] |- _ => destruct (forallb f (seq 0 (length sh))) eqn:E end; [|discriminate].
    rewrite forallb_forall in E. eapply dot_congr; eauto using row_strides_length.
    intros k Hk. specialize (E k ltac:(apply in_seq; lia)).
    rewrite row_strides_nth by auto. unfold row_stride, stride_match_condition in *.
    destruct (nth k sh 0 =? 1) eqn:E1; [left; apply Z.eqb_eq; auto|right].
    simpl in E. apply Z.eqb_eq in E. auto.
  - rewrite <- dot_col by auto. simpl in H. rewrite (dsm_col sh) in H;
      [|auto|lia|reflexivity].
    simpl in H.
    match goal with H : context [forallb ?f _] |- _ => destruct (forallb f (seq 0 (length sh))) eqn:E end; [|discriminate].
    rewrite forallb_forall in E. eapply dot_congr; eauto using col_strides_length.
    intros k Hk. specialize (E k ltac:(apply in_seq; lia)).
    rewrite col_strides_nth by auto. unfold col_stride, stride_match_condition in *.
    destruct (nth k sh 0 =? 1) eqn:E1; [left; apply Z.eqb_eq; auto|right].
    simpl in E. apply Z.eqb_eq in E. auto.
Qed.

Lemma strides_match_complete_lemma l sh st0 :
  l = row_major \/ l = column_major -> length st0 = length sh ->
  exists st, compute_strides l sh l st0 None = Ok (st, None, prod sh) /\
             do_strides_match sh st l true = Ok true.
Proof.
  intros Hl H0. rewrite compute_strides_ok by (simpl; auto). simpl.
  destruct Hl; subst; simpl; (eexists; split; [reflexivity|]).
  - rewrite (dsm_row sh); [|apply row_strides_length|rewrite row_strides_length; auto|].
    2:{ rewrite row_strides_length, Nat.sub_diag, skipn_all. reflexivity. }
    simpl. match goal with |- context [forallb ?f ?l] => assert (E : forallb f l = true) end; [|rewrite E; reflexivity].
    apply forallb_forall. intros k Hk. apply in_seq in Hk. rewrite row_strides_nth by lia.
    unfold stride_match_condition, row_stride. destruct (nth k sh 0 =? 1); simpl; auto. apply Z.eqb_refl.
  - rewrite (dsm_col sh); [|apply col_strides_length|rewrite col_strides_length; auto|reflexivity].
    simpl. match goal with |- context [forallb ?f ?l] => assert (E : forallb f l = true) end; [|rewrite E; reflexivity].
    apply forallb_forall. intros k Hk. apply in_seq in Hk. rewrite col_strides_nth by lia.
    unfold stride_match_condition, col_stride. destruct (nth k sh 0 =? 1); simpl; auto. apply Z.eqb_refl.
Qed.

(** strides(e, ...) *)
Lemma strides_normal_lemma l sh st0 esz :
  l = row_major \/ l = column_major -> length st0 = length sh ->
  exists st, compute_strides l sh l st0 None = Ok (st, None, prod sh) /\
    let full := map (fun k => match l with row_major => prod (skipn (S k) sh) | _ => prod (firstn k sh) end)
                    (seq 0 (length sh)) in
    strides_of sh st l st_internal esz = Ok st /\
    strides_of sh st l st_normal esz = Ok full /\
    strides_of sh st l st_bytes esz = Ok (map (fun c => c * esz) full) /\
    (forall k, (k < length sh)%nat ->
       strides_of_axis sh st l k st_internal esz = Ok (nth k st 0) /\
       strides_of_axis sh st l k st_normal esz = Ok (nth k full 0) /\
       strides_of_axis sh st l k st_bytes esz = Ok (nth k full 0 * esz)).
Proof.
  intros Hl H0. rewrite compute_strides_ok by (simpl; auto). simpl.
  set (F := fun k : nat => match l with row_major => prod (skipn (S k) sh) | _ => prod (firstn k sh) end).
  set (ST := if layout_eqb l row_major || layout_eqb l row_major then row_strides sh else col_strides sh).
  assert (HST : forall k, (k < length sh)%nat -> nth k ST 0 = if nth k sh 0 =? 1 then 0 else F k).
  { intros k Hk. subst ST F. destruct Hl; subst l; simpl; rewrite ?row_strides_nth, ?col_strides_nth; auto. }
  assert (HL : length ST = length sh).
  { subst ST. destruct (_ || _); auto using row_strides_length, col_strides_length. }
  assert (HC : forall k d, compute_stride_impl l sh k d = F k).
  { intros k d. subst F. destruct Hl; subst l; simpl; rewrite fold_left_mul, Z.mul_1_l; auto.
    rewrite Nat.add_1_r. reflexivity. }
  assert (HF : forall k, (k < length sh)%nat -> nth k (map F (seq 0 (length sh))) 0 = F k).
  { intros k Hk. rewrite (nth_indep (map F _) 0 (F 0%nat)) by (rewrite map_length, seq_length; lia).
    rewrite map_nth, seq_nth by lia. reflexivity. }
  assert (HLoop : for_up (fun i ret =>
                    let* sh0 := rd sh i in
                    if sh0 =? 1 then
                      let* d := rd ret i in
                      wr ret i (compute_stride_impl l sh i d)
                    else Ok ret) 0 (length ST) ST = Ok (map F (seq 0 (length sh)))).
  { match goal with |- for_up ?b _ _ _ = _ => destruct (for_up_inv (fun i r => length r = length sh /\
      forall k, (k < length sh)%nat -> nth k r 0 = if (k <? i)%nat then F k else nth k ST 0)
      b 0 (length ST) ST) as (r & E & HI1 & HI2) end.
    - split; [auto|]. intros; reflexivity.
    - intros i r Hi [HR1 HR2]. rewrite (rd_nth 0) by lia. bok.
      destruct (nth i sh 0 =? 1) eqn:E1.
      + rewrite (rd_nth 0) by lia. bok. rewrite wr_ok by lia. rewrite HC. eexists; split; [reflexivity|].
        split; [rewrite upd_length; auto|]. intros k Hk.
        destruct (Nat.eq_dec i k) as [->|Hne].
        * rewrite nth_upd_same by lia. replace (k <? S k)%nat with true; auto.
          symmetry; apply Nat.ltb_lt; lia.
        * rewrite nth_upd_other by auto. rewrite HR2 by auto.
          destruct (k <? i)%nat eqn:E2; destruct (k <? S i)%nat eqn:E3; auto.
          -- apply Nat.ltb_lt in E2. apply Nat.ltb_ge in E3. lia.
          -- apply Nat.ltb_ge in E2. apply Nat.ltb_lt in E3. lia.
      + eexists; split; [reflexivity|]. split; auto. intros k Hk. rewrite HR2 by auto.
        destruct (k <? i)%nat eqn:E2; destruct (k <? S i)%nat eqn:E3; auto.
        * apply Nat.ltb_lt in E2. apply Nat.ltb_ge in E3. lia.
        * apply Nat.ltb_ge in E2. apply Nat.ltb_lt in E3. assert (k = i) by lia. subst k.
          rewrite HST by auto. rewrite E1. reflexivity.
    - rewrite E. f_equal. apply nth_ext with (d := 0) (d' := 0).
      + rewrite map_length, seq_length; auto.
      + intros n Hn. rewrite HF by lia. rewrite HI2 by lia.
        replace (n <? 0 + length ST)%nat with true; auto. symmetry; apply Nat.ltb_lt; lia. }
  exists ST. split; [reflexivity|]. split; [reflexivity|].
  split; [unfold strides_of; rewrite HLoop; reflexivity|].
  split; [unfold strides_of; rewrite HLoop; reflexivity|].
  intros k Hk. rewrite HF by auto. unfold strides_of_axis.
  rewrite !(rd_nth 0 ST) by lia. bok. split; [reflexivity|].
  assert (HX : (if nth k ST 0 =? 0 then let* sh0 := rd sh k in if sh0 =? 1 then Ok (compute_stride_impl l sh k (nth k ST 0)) else Ok (nth k ST 0) else Ok (nth k ST 0)) = Ok (F k)).
  { rewrite (rd_nth 0) by auto. rewrite HST by auto. destruct (nth k sh 0 =? 1) eqn:E1.
    - simpl. rewrite E1, HC. reflexivity.
    - destruct (F k =? 0); auto. bok. rewrite E1. reflexivity. }
  rewrite HX. bok. split; reflexivity.
Qed.

Lemma smc_true a b c z : stride_match_condition a b c z = true <-> a = c \/ (z = true /\ b = 1 /\ a = 0).
Proof.
  unfold stride_match_condition. rewrite orb_true_iff, !andb_true_iff, !Z.eqb_eq. tauto.
Qed.

Lemma strides_match_exact_lemma l sh st z :
  length st = length sh ->
  exists b, do_strides_match sh st l z = Ok b /\
  (b = true <->
   (l = row_major \/ l = column_major) /\
   forall k, (k < length sh)%nat ->
     nth k st 0 = match l with row_major => prod (skipn (S k) sh) | _ => prod (firstn k sh) end \/
     (z = true /\ nth k sh 0 = 1 /\ nth k st 0 = 0)).
Proof.
  intros Hl. destruct l; cbn [do_strides_match].
  - exists false. split; [reflexivity|]. split; [discriminate|]. intros [[H|H] _]; discriminate.
  - exists false. split; [reflexivity|]. split; [discriminate|]. intros [[H|H] _]; discriminate.
  - rewrite (dsm_row sh); [|auto|lia|rewrite Hl, Nat.sub_diag, skipn_all; reflexivity]. bok. eexists. split; [reflexivity|].
    match goal with |- context [forallb ?f ?l] => pose proof (forallb_forall f l) as E; destruct (forallb f l) end.
    + split; [|reflexivity]. intros _. split; [auto|]. intros k Hk. apply smc_true. apply E; [reflexivity|]. apply in_seq. lia.
    + split; [discriminate|]. intros [_ H]. apply E. intros k Hk. apply in_seq in Hk. apply smc_true. apply H. lia.
  - rewrite (dsm_col sh); [|auto|lia|reflexivity]. bok. eexists. split; [reflexivity|].
    match goal with |- context [forallb ?f ?l] => pose proof (forallb_forall f l) as E; destruct (forallb f l) end.
    + split; [|reflexivity]. intros _. split; [auto|]. intros k Hk. apply smc_true. apply E; [reflexivity|]. apply in_seq. lia.
    + split; [discriminate|]. intros [_ H]. apply E. intros k Hk. apply in_seq in Hk. apply smc_true. apply H. lia.
Qed.
