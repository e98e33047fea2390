(** Proofs about squeeze, expand_dims, atleast_Nd and split. *)
From Coq Require Import List ZArith Bool Lia Permutation.
From Verif Require Import Prelude PreludeFacts Strides_Model Strides_Spec Strides_Proofs Slice_Model Slice_Spec
  Container_Spec View_Spec SView_Model SView_Spec SView_Proofs SView2_Proofs SView3_Proofs SView4_Proofs
  Manip_Model Manip_Spec Manip_Proofs Manip2_Proofs Manip3_Proofs.
Import ListNotations.
Open Scope Z_scope.

(** ** squeeze(e) *)
Lemma drop_unit_shape sh : drop_unit sh sh = filter (fun i => negb (i =? 1)) sh.
Proof. induction sh as [|n sh IH]; cbn; auto. rewrite IH. destruct (n =? 1); reflexivity. Qed.

Lemma drop_unit_strides sh st : Forall2 (fun n s => n = 1 <-> s = 0) sh st ->
  drop_unit sh st = filter (fun i => negb (i =? 0)) st.
Proof.
  induction 1 as [|n s sh st H HF IH]; cbn; auto. rewrite IH.
  destruct (Z.eqb_spec n 1), (Z.eqb_spec s 0); cbn; auto; tauto.
Qed.

Lemma drop_unit_length sh l l' : length l = length sh -> length l' = length sh ->
  length (drop_unit sh l) = length (drop_unit sh l').
Proof.
  revert l l'; induction sh as [|n sh IH]; intros [|x l] [|y l'] H H'; cbn in *; try discriminate; auto.
  destruct (n =? 1); cbn; auto.
Qed.

Lemma drop_unit_dot sh jx st : in_bounds sh jx -> length st = length sh ->
  dot (drop_unit sh jx) (drop_unit sh st) = dot jx st.
Proof.
  intros H. revert st. induction H as [|n j sh jx Hb HF IH]; intros [|s st] Hl; cbn in *; try discriminate; auto.
  destruct (Z.eqb_spec n 1).
  - rewrite IH by lia. replace j with 0 by lia. lia.
  - cbn. rewrite IH by lia. reflexivity.
Qed.

Lemma drop_unit_bounds sh jx : in_bounds sh jx -> in_bounds (drop_unit sh sh) (drop_unit sh jx).
Proof.
  induction 1 as [|n j sh jx Hb HF IH]; cbn; [constructor|]. destruct (n =? 1); auto. constructor; auto.
Qed.

Lemma drop_unit_surj sh : forall ix, in_bounds (drop_unit sh sh) ix -> exists jx, in_bounds sh jx /\ ix = drop_unit sh jx.
Proof.
  induction sh as [|n sh IH]; intros ix H; cbn in H.
  - inversion H; subst. exists []. split; [constructor|reflexivity].
  - destruct (Z.eqb_spec n 1) as [->|E].
    + destruct (IH ix H) as (jx & J1 & J2). exists (0 :: jx). split; [constructor; auto; lia|]. cbn. auto.
    + inversion H as [|? i ? ix' Hb HF]; subst. destruct (IH ix' HF) as (jx & J1 & J2). exists (i :: jx).
      split; [constructor; auto|]. cbn. destruct (Z.eqb_spec n 1); [contradiction|]. f_equal. auto.
Qed.

Lemma drop_unit_rank l sh jx : is_order l -> in_bounds sh jx ->
  rank l (drop_unit sh sh) (drop_unit sh jx) = rank l sh jx.
Proof.
  intros [ -> | -> ] H; cbn [rank].
  - assert (G : prod (drop_unit sh sh) = prod sh).
    { clear H. induction sh as [|n sh IH]; cbn [drop_unit]; auto. destruct (Z.eqb_spec n 1) as [->|]; rewrite ?prod_cons, IH; lia. }
    revert G. induction H as [|n j sh jx Hb HF IH]; intros G; cbn [drop_unit] in *; auto.
    assert (G' : prod (drop_unit sh sh) = prod sh).
    { clear. induction sh as [|n sh IH]; cbn [drop_unit]; auto. destruct (Z.eqb_spec n 1) as [->|]; rewrite ?prod_cons, IH; lia. }
    destruct (Z.eqb_spec n 1) as [->|]; cbn [row_pos]; rewrite IH by auto; [replace j with 0 by lia; lia|rewrite G'; reflexivity].
  - induction H as [|n j sh jx Hb HF IH]; cbn [drop_unit]; auto.
    destruct (Z.eqb_spec n 1) as [->|]; cbn [col_pos]; rewrite IH; [replace j with 0 by lia; lia|reflexivity].
Qed.

Lemma src_get D T e : wf_exp e -> (x_direct e = false -> D = T) -> T = row_major \/ T = column_major ->
  get_strides D e = Ok (src_strides T e).
Proof.
  intros He HD HT. destruct (x_direct e) eqn:E.
  - unfold get_strides, src_strides. rewrite E. reflexivity.
  - rewrite HD by auto. apply get_strides_ok; auto.
Qed.

Lemma squeeze_lemma : forall (D T : layout) (e : xexp) (st : list Z),
  T = row_major \/ T = column_major -> wf_exp e -> (x_direct e = false -> D = T) ->
  (x_direct e = true -> x_offset e = 0) ->
  get_strides D e = Ok st -> Forall2 (fun n s => n = 1 <-> s = 0) (x_shape e) st ->
  exists v, squeeze D T e = Ok v /\
    rearranges e v (drop_unit (x_shape e) (x_shape e)) (drop_unit (x_shape e)) /\
    (x_direct e = true -> layout_true e -> view_layout_true v).
Proof.
  intros D T e st HT He HD Ho Hg HF. pose proof He as (Hs & Hl).
  rewrite (src_get D T e He HD HT) in Hg. injection Hg as <-.
  unfold squeeze. rewrite (src_get D T e He HD HT). cbn [bind].
  rewrite <- drop_unit_shape, <- (drop_unit_strides _ _ HF).
  pose proof (src_strides_length T e He) as Hsl.
  assert (HL : length (drop_unit (x_shape e) (src_strides T e)) = length (drop_unit (x_shape e) (x_shape e)))
    by (apply drop_unit_length; auto).
  pose proof (make_view_ok T e _ _ 0 (x_layout e) HL) as Hm.
  assert (Hoff : get_offset e = 0) by (unfold get_offset; destruct (x_direct e); auto).
  eexists. split; [exact Hm|]. split.
  - eapply rearranges_intro; eauto.
    + intros jx Hj. split; [apply drop_unit_bounds; auto|]. rewrite Hoff. rewrite drop_unit_dot by auto. reflexivity.
    + apply drop_unit_surj.
  - intros Hd HLT. eapply view_layout_intro; eauto. intros Hor ix Hi.
    destruct (drop_unit_surj _ _ Hi) as (jx & Hj & ->). rewrite drop_unit_dot by auto.
    rewrite drop_unit_rank by auto. rewrite src_strides_direct by auto. apply layout_true_dot; auto.
Qed.

(** ** squeeze(e, axes) *)
Lemma drop_axes_length axes l : forall l' k, length l = length l' -> length (drop_axes axes k l) = length (drop_axes axes k l').
Proof.
  induction l as [|x l IH]; intros [|y l'] k H; cbn in *; try discriminate; auto.
  destruct (existsb _ axes); cbn; auto.
Qed.

Lemma drop_axes_count axes l : forall k,
  (length (drop_axes axes k l) + length (filter (fun i => existsb (Z.eqb (Z.of_nat i)) axes) (seq k (length l))) = length l)%nat.
Proof.
  induction l as [|x l IH]; intros k; cbn [drop_axes seq length filter]; auto. specialize (IH (S k)).
  destruct (existsb (Z.eqb (Z.of_nat k)) axes); cbn [length]; lia.
Qed.

Lemma axes_count axes n : NoDup axes -> Forall (fun a => 0 <= a < Z.of_nat n) axes ->
  length (filter (fun i => existsb (Z.eqb (Z.of_nat i)) axes) (seq 0 n)) = length axes.
Proof.
  intros HN HF. rewrite <- (map_length Z.to_nat axes). apply Permutation_length.
  apply NoDup_Permutation.
  - apply NoDup_filter, seq_NoDup.
  - revert HF. induction HN as [|a axes Hin HN IH]; intros HF; cbn; [constructor|]. inversion HF; subst.
    constructor; auto. intros H. apply in_map_iff in H. destruct H as (b & E & Hb). apply Hin.
    rewrite Forall_forall in H2. specialize (H2 b Hb). assert (a = b) by lia. subst. auto.
  - intros x. rewrite filter_In, in_seq, existsb_exists, in_map_iff. rewrite Forall_forall in HF. split.
    + intros (_ & a & Ha & E). apply Z.eqb_eq in E. exists a. split; [lia|auto].
    + intros (a & E & Ha). specialize (HF a Ha). split; [lia|]. exists a. split; [auto|]. apply Z.eqb_eq. lia.
Qed.

Definition q_body (e : xexp) (old axes : list Z) (i : nat) (s : list Z * list Z * nat) : res (list Z * list Z * nat) :=
  let '(sh, st, ix) := s in
  if existsb (Z.eqb (Z.of_nat i)) axes then Ok (sh, st, ix)
  else
    let* a := rd (x_shape e) i in
    let* sh := wr sh ix a in
    let* b := rd old i in
    let* st := wr st ix b in
    Ok (sh, st, (ix + 1)%nat).

Lemma q_loop e old axes : length old = length (x_shape e) ->
  forall m i A C, (i + m = length (x_shape e))%nat -> length A = length C ->
  for_up (q_body e old axes) i m
    (A ++ repeat 0 (length (drop_axes axes i (skipn i (x_shape e)))),
     C ++ repeat 0 (length (drop_axes axes i (skipn i (x_shape e)))), length A) =
  Ok (A ++ drop_axes axes i (skipn i (x_shape e)), C ++ drop_axes axes i (skipn i old),
      length (A ++ drop_axes axes i (skipn i (x_shape e)))).
Proof.
  intros Ho. induction m; intros i A C Hi HAC.
  - cbn [for_up]. rewrite !skipn_all2 by lia. cbn. rewrite !app_nil_r. reflexivity.
  - cbn [for_up]. destruct (nth_error_lt_ex (x_shape e) i ltac:(lia)) as (a & Ha).
    destruct (nth_error_lt_ex old i ltac:(lia)) as (b & Hb).
    rewrite (skipn_cons_nth _ _ _ Ha), (skipn_cons_nth _ _ _ Hb). cbn [drop_axes]. unfold q_body at 1.
    destruct (existsb (Z.eqb (Z.of_nat i)) axes); cbn [bind].
    + apply IHm; auto; lia.
    + cbn [length repeat]. rewrite (rd_ok _ _ _ Ha). cbn [bind].
      rewrite wr_ok by (rewrite app_length; simpl; lia). cbn [bind].
      rewrite (rd_ok _ _ _ Hb). cbn [bind].
      rewrite wr_ok by (rewrite app_length; simpl; lia). cbn [bind].
      rewrite !upd_app_r by lia. rewrite HAC, Nat.sub_diag. cbn [upd].
      set (R := length (drop_axes axes (S i) (skipn (S i) (x_shape e)))).
      replace (A ++ a :: repeat 0 R) with ((A ++ [a]) ++ repeat 0 R) by (rewrite <- app_assoc; reflexivity).
      replace (C ++ b :: repeat 0 R) with ((C ++ [b]) ++ repeat 0 R) by (rewrite <- app_assoc; reflexivity).
      replace (length C + 1)%nat with (length (A ++ [a])) by (rewrite app_length; simpl; lia).
      unfold R. rewrite IHm by (rewrite ?app_length; simpl; lia).
      rewrite <- !app_assoc. reflexivity.
Qed.

(** Every axis of [sh] that is dropped has extent 1. *)
Lemma drop_axes_props axes sh jx : in_bounds sh jx -> forall k,
  (forall i, (i < length sh)%nat -> existsb (Z.eqb (Z.of_nat (k + i))) axes = true -> nth i sh 0 = 1) ->
  in_bounds (drop_axes axes k sh) (drop_axes axes k jx) /\
  (forall st, length st = length sh -> dot (drop_axes axes k jx) (drop_axes axes k st) = dot jx st) /\
  prod (drop_axes axes k sh) = prod sh /\
  row_pos (drop_axes axes k sh) (drop_axes axes k jx) = row_pos sh jx /\
  col_pos (drop_axes axes k sh) (drop_axes axes k jx) = col_pos sh jx.
Proof.
  induction 1 as [|n j sh jx Hb HF IH]; intros k Hk.
  - cbn. split; [constructor|]. split; [intros [|s st] Hl; [reflexivity|discriminate]|auto].
  - destruct (IH (S k)) as (I1 & I2 & I3 & I4 & I5).
    { intros i Hi E. apply (Hk (S i)); [simpl; lia|]. replace (k + S i)%nat with (S k + i)%nat by lia. exact E. }
    cbn [drop_axes]. destruct (existsb (Z.eqb (Z.of_nat k)) axes) eqn:E.
    + assert (n = 1) as ->. { apply (Hk 0%nat); [simpl; lia|]. rewrite Nat.add_0_r. exact E. }
      assert (j = 0) as -> by lia.
      split; [exact I1|]. split.
      { intros [|s st] Hl; [discriminate|]. cbn [drop_axes]. rewrite E. cbn [dot]. rewrite I2 by (simpl in Hl; lia). lia. }
      rewrite prod_cons. cbn [row_pos col_pos]. rewrite I3, I4, I5. lia.
    + split; [constructor; auto|]. split.
      { intros [|s st] Hl; [discriminate|]. cbn [drop_axes]. rewrite E. cbn [dot]. rewrite I2 by (simpl in Hl; lia). reflexivity. }
      cbn [row_pos col_pos]. rewrite !prod_cons, I3, I4, I5. auto.
Qed.

Lemma drop_axes_surj axes sh : forall k ix, 
  (forall i, (i < length sh)%nat -> existsb (Z.eqb (Z.of_nat (k + i))) axes = true -> nth i sh 0 = 1) ->
  in_bounds (drop_axes axes k sh) ix -> exists jx, in_bounds sh jx /\ ix = drop_axes axes k jx.
Proof.
  induction sh as [|n sh IH]; intros k ix Hk H; cbn [drop_axes] in H.
  - inversion H; subst. exists []. split; [constructor|reflexivity].
  - assert (Hk' : forall i, (i < length sh)%nat -> existsb (Z.eqb (Z.of_nat (S k + i))) axes = true -> nth i sh 0 = 1).
    { intros i Hi E. apply (Hk (S i)); [simpl; lia|]. replace (k + S i)%nat with (S k + i)%nat by lia. exact E. }
    destruct (existsb (Z.eqb (Z.of_nat k)) axes) eqn:E.
    + assert (n = 1) as ->. { apply (Hk 0%nat); [simpl; lia|]. rewrite Nat.add_0_r. exact E. }
      destruct (IH (S k) ix Hk' H) as (jx & J1 & J2). exists (0 :: jx). split; [constructor; auto; lia|].
      cbn [drop_axes]. rewrite E. auto.
    + inversion H as [|? i ? ix' Hb HF]; subst. destruct (IH (S k) ix' Hk' HF) as (jx & J1 & J2). exists (i :: jx).
      split; [constructor; auto|]. cbn [drop_axes]. rewrite E. f_equal. auto.
Qed.

Definition unit_axes (e : xexp) (axes : list Z) : Prop :=
  NoDup axes /\ Forall (fun a => 0 <= a < Z.of_nat (length (x_shape e)) /\ nth (Z.to_nat a) (x_shape e) 0 = 1) axes.

Lemma squeeze_none_lemma : forall (D T : layout) (e : xexp) (axes : list Z),
  T = row_major \/ T = column_major -> wf_exp e -> (x_direct e = false -> D = T) ->
  (x_direct e = true -> x_offset e = 0) -> unit_axes e axes ->
  exists v, squeeze_none D T e axes = Ok v /\
    rearranges e v (drop_axes axes 0 (x_shape e)) (drop_axes axes 0) /\
    (x_direct e = true -> layout_true e -> view_layout_true v).
Proof.
  intros D T e axes HT He HD Ho (HN & HF). pose proof He as (Hs & Hl).
  assert (HF' : Forall (fun a => 0 <= a < Z.of_nat (length (x_shape e))) axes).
  { eapply Forall_impl; [|exact HF]. cbn. tauto. }
  assert (Hu : forall i, (i < length (x_shape e))%nat -> existsb (Z.eqb (Z.of_nat (0 + i))) axes = true -> nth i (x_shape e) 0 = 1).
  { intros i Hi E. apply existsb_exists in E. destruct E as (a & Ha & E). apply Z.eqb_eq in E.
    rewrite Forall_forall in HF. specialize (HF a Ha). destruct HF as (_ & HF).
    replace i with (Z.to_nat a) by lia. exact HF. }
  pose proof (drop_axes_count axes (x_shape e) 0) as Hc. rewrite (axes_count axes _ HN HF') in Hc.
  unfold squeeze_none. destruct (Nat.ltb_spec (length (x_shape e)) (length axes)); [lia|].
  rewrite (src_get D T e He HD HT). cbn [bind].
  pose proof (src_strides_length T e He) as Hsl.
  pose proof (q_loop e (src_strides T e) axes Hsl (length (x_shape e)) 0 [] [] ltac:(lia) eq_refl) as L.
  cbn [skipn app length] in L. replace (length (drop_axes axes 0 (x_shape e))) with (length (x_shape e) - length axes)%nat in L by lia.
  unfold q_body in L. rewrite L. cbn [bind].
  assert (HL : length (drop_axes axes 0 (src_strides T e)) = length (drop_axes axes 0 (x_shape e)))
    by (apply drop_axes_length; auto).
  pose proof (make_view_ok T e _ _ 0 (x_layout e) HL) as Hm.
  assert (Hoff : get_offset e = 0) by (unfold get_offset; destruct (x_direct e); auto).
  eexists. split; [exact Hm|]. split.
  - eapply rearranges_intro; eauto.
    + intros jx Hj. destruct (drop_axes_props axes _ _ Hj 0 Hu) as (P1 & P2 & _).
      split; [exact P1|]. rewrite Hoff, P2 by auto. reflexivity.
    + intros ix Hi. apply drop_axes_surj; auto.
  - intros Hd HLT. eapply view_layout_intro; eauto. intros Hor ix Hi.
    destruct (drop_axes_surj axes _ 0 _ Hu Hi) as (jx & Hj & ->).
    destruct (drop_axes_props axes _ _ Hj 0 Hu) as (P1 & P2 & _ & P4 & P5).
    rewrite P2 by auto. rewrite src_strides_direct by auto. rewrite layout_true_dot by auto.
    destruct Hor as [E|E]; rewrite E; cbn [rank]; auto.
Qed.

Lemma squeeze_full_lemma : forall (D T : layout) (e : xexp) (axes : list Z),
  Forall (fun a => a <> Z.of_nat (length (x_shape e))) axes ->
  (Forall (fun a => 0 <= a < Z.of_nat (length (x_shape e)) /\ nth (Z.to_nat a) (x_shape e) 0 = 1) axes ->
    squeeze_full D T e axes = squeeze_none D T e axes) /\
  (~ Forall (fun a => 0 <= a < Z.of_nat (length (x_shape e)) /\ nth (Z.to_nat a) (x_shape e) 0 = 1) axes ->
    squeeze_full D T e axes = Throw runtime_error).
Proof.
  intros D T e axes HF. unfold squeeze_full.
  set (body := fun (ix : Z) (_ : unit) => _).
  assert (B : forall a, a <> Z.of_nat (length (x_shape e)) ->
    (0 <= a < Z.of_nat (length (x_shape e)) /\ nth (Z.to_nat a) (x_shape e) 0 = 1 /\ body a tt = Ok tt) \/
    (~ (0 <= a < Z.of_nat (length (x_shape e)) /\ nth (Z.to_nat a) (x_shape e) 0 = 1) /\ body a tt = Throw runtime_error)).
  { intros a Ha. unfold body. destruct (Z.ltb_spec a 0); cbn [orb]; [right; split; [lia|reflexivity]|].
    destruct (Z.ltb_spec (Z.of_nat (length (x_shape e))) a); [right; split; [lia|reflexivity]|].
    rewrite (rd_nth 0) by lia. cbn [bind]. destruct (Z.eqb_spec (nth (Z.to_nat a) (x_shape e) 0) 1); cbn [negb].
    - left. auto with zarith.
    - right. split; [tauto|reflexivity]. }
  split.
  - intros H. assert (E : for_each body axes tt = Ok tt).
    { clear - HF H B. induction axes as [|a axes IH]; cbn [for_each]; auto. inversion HF; inversion H; subst.
      destruct (B a) as [(_ & _ & E)|(C & _)]; auto; [|contradiction]. rewrite E. cbn [bind]. auto. }
    rewrite E. reflexivity.
  - intros H. assert (E : for_each body axes tt = Throw runtime_error).
    { clear - HF H B. induction axes as [|a axes IH]; cbn [for_each]; [exfalso; apply H; constructor|]. inversion HF; subst.
      destruct (B a) as [(C1 & C2 & E)|(C & E)]; auto; rewrite E; cbn [bind]; auto.
      apply IH; auto. }
    rewrite E. reflexivity.
Qed.

(** ** expand_dims *)
Lemma expand_plain us n : (forall u, In u us -> u <> Ellipsis) -> expand n us = map (fun it => match it with Pick u => u | Ellipsis => UAll end) us.
Proof.
  intros H. unfold expand. generalize (consumed us). revert H.
  induction us as [|[u|] us IH]; intros H m; cbn [flat_map map]; auto.
  - cbn [app]. f_equal. apply IH. intros; apply H; right; auto.
  - exfalso. apply (H Ellipsis); [left; auto|auto].
Qed.
Lemma expand_picks us n : expand n (map Pick us) = us.
Proof.
  rewrite expand_plain; [rewrite map_map; apply map_id|]. intros u Hu. apply in_map_iff in Hu. destruct Hu as (x & <- & _). discriminate.
Qed.
Lemma ellipses_picks us : ellipses (map Pick us) = 0%nat.
Proof. unfold ellipses. induction us; cbn; auto. Qed.

Lemma view_shape_all k : forall ss sh v, view_shape (repeat UAll k ++ ss) sh v -> (k <= length sh)%nat ->
  exists v', v = firstn k sh ++ v' /\ view_shape ss (skipn k sh) v'.
Proof.
  induction k; intros ss sh v H Hk; cbn in *; eauto. inversion H; subst. cbn in Hk.
  destruct (IHk ss sh0 v0) as (v' & -> & Hv); auto; [lia|]. exists v'. split; auto.
Qed.
Lemma source_all k : forall ss sh ix jx, source_index (repeat UAll k ++ ss) sh ix jx -> (k <= length sh)%nat ->
  exists i1 ix' jx', length i1 = k /\ ix = i1 ++ ix' /\ jx = i1 ++ jx' /\ source_index ss (skipn k sh) ix' jx'.
Proof.
  induction k; intros ss sh ix jx H Hk; cbn in *.
  - exists [], ix, jx. auto.
  - inversion H; subst. cbn in Hk. destruct (IHk ss sh0 ix0 jx0) as (i1 & ix' & jx' & L & -> & -> & Hs); auto; [lia|].
    exists (k0 :: i1), ix', jx'. cbn. repeat split; auto; lia.
Qed.
Lemma valid_all_intro full k : forall ss sh, (k <= length sh)%nat -> valid full ss (skipn k sh) -> valid full (repeat UAll k ++ ss) sh.
Proof. induction k; intros ss sh Hk H; cbn in *; auto. destruct sh; cbn in *; [lia|]. constructor. apply IHk; auto; lia. Qed.
Lemma repeat_map {A B} (f : A -> B) x n : map f (repeat x n) = repeat (f x) n.
Proof. induction n; cbn; f_equal; auto. Qed.

Lemma upd_repeat {A} (x y : A) n k : (k < n)%nat -> upd (repeat x n) k y = repeat x k ++ y :: repeat x (n - S k).
Proof.
  revert k; induction n; intros [|k] H; cbn [repeat upd]; try lia.
  - rewrite Nat.sub_succ, Nat.sub_0_r. reflexivity.
  - cbn [app]. f_equal. rewrite IHn by lia. reflexivity.
Qed.

Lemma rearranges_of_slices T e us junk : T = row_major \/ T = column_major -> wf_exp e ->
  valid false us (x_shape e) ->
  exists v, strided_view T e (map Pick us) junk = Ok v /\ view_shape us (x_shape e) (w_shape v) /\
    (forall ix, in_bounds (w_shape v) ix ->
      exists jx, source_index us (x_shape e) ix jx /\ in_bounds (x_shape e) jx /\ reads v ix (x_elem e jx)) /\
    view_layout_true v.
Proof.
  intros HT He Hv.
  destruct (strided_view_lemma T e (map Pick us) junk HT He) as (v & E & A & _ & _ & B & C).
  - rewrite ellipses_picks. lia.
  - rewrite expand_picks. exact Hv.
  - rewrite expand_picks in *. exists v. split; [exact E|]. split; [exact A|]. split; [exact B|].
    intros Ho. apply C. destruct Ho as [H|H]; rewrite H; discriminate.
Qed.

Lemma view_shape_all_end k sh v : view_shape (repeat UAll k) sh v -> v = sh.
Proof.
  revert sh v; induction k; intros sh v H; cbn in H; inversion H; subst; auto. f_equal. auto.
Qed.
Lemma source_all_end k sh ix jx : source_index (repeat UAll k) sh ix jx -> jx = ix.
Proof.
  revert sh ix jx; induction k; intros sh ix jx H; cbn in H; inversion H; subst; auto. f_equal. eauto.
Qed.

Lemma insert_split a x (l : list Z) l1 l2 : length l1 = a -> l = l1 ++ l2 -> insert_at a x l = l1 ++ x :: l2.
Proof.
  intros H ->. unfold insert_at. rewrite firstn_app, skipn_app, H, Nat.sub_diag. cbn [firstn skipn].
  rewrite firstn_all2 by lia. rewrite skipn_all2 by lia. rewrite app_nil_r. reflexivity.
Qed.

Lemma in_bounds_split sh1 sh2 ix : in_bounds (sh1 ++ sh2) ix ->
  exists i1 i2, ix = i1 ++ i2 /\ in_bounds sh1 i1 /\ in_bounds sh2 i2.
Proof. intros H. apply Forall2_app_inv_l in H. destruct H as (i1 & i2 & A & B & ->). eauto. Qed.

Lemma app_inj_len {A} (a b c d : list A) : length a = length c -> a ++ b = c ++ d -> a = c /\ b = d.
Proof.
  revert c; induction a; intros [|y c] H E; cbn in *; try discriminate; auto.
  injection E as -> E. destruct (IHa c ltac:(lia) E). subst. auto.
Qed.

Lemma expand_dims_lemma : forall (T : layout) (e : xexp) (axis : nat) (junk : list Z),
  T = row_major \/ T = column_major -> wf_exp e -> (axis <= length (x_shape e))%nat ->
  exists v, expand_dims T e axis junk = Ok v /\
    rearranges e v (insert_at axis 1 (x_shape e)) (insert_at axis 0) /\ view_layout_true v.
Proof.
  intros T e axis junk HT He Ha. unfold expand_dims. set (n := length (x_shape e)) in *.
  rewrite wr_ok by (rewrite repeat_length; lia). cbn [bind].
  set (us := repeat UAll axis ++ UNewaxis :: repeat UAll (n - axis)).
  assert (Eu : upd (repeat (Pick UAll) (n + 1)) axis (Pick UNewaxis) = map Pick us).
  { rewrite upd_repeat by lia. unfold us. rewrite map_app. cbn [map]. rewrite !repeat_map. f_equal. f_equal. f_equal. lia. }
  rewrite Eu. clear Eu.
  assert (Hv : valid false us (x_shape e)).
  { unfold us. apply valid_all_intro; [auto|]. constructor. rewrite <- (app_nil_r (repeat UAll (n - axis))).
    apply valid_all_intro; [rewrite skipn_length; fold n; lia|]. constructor. }
  destruct (rearranges_of_slices T e us junk HT He Hv) as (v & E & A & B & C).
  exists v. split; [exact E|]. split; [|exact C].
  assert (Hsh : w_shape v = insert_at axis 1 (x_shape e)).
  { unfold us in A. apply view_shape_all in A; [|auto]. destruct A as (v' & -> & A). inversion A; subst.
    match goal with H : view_shape (repeat _ _) _ _ |- _ => apply view_shape_all_end in H; subst end. reflexivity. }
  assert (Hsrc : forall i1 ix' jx, length i1 = axis -> source_index us (x_shape e) (i1 ++ 0 :: ix') jx -> jx = i1 ++ ix').
  { intros i1 ix' jx Hl Hs. unfold us in Hs. apply source_all in Hs; [|auto].
    destruct Hs as (a1 & a2 & a3 & L & E1 & -> & Hs). inversion Hs; subst.
    match goal with H : source_index (repeat _ _) _ _ _ |- _ => apply source_all_end in H; subst end.
    apply app_inj_len in E1; [|lia]. destruct E1 as (-> & E2). injection E2 as <-. reflexivity. }
  split; [exact Hsh|]. split.
  - intros jx Hj.
    assert (Hb : in_bounds (insert_at axis 1 (x_shape e)) (insert_at axis 0 jx)).
    { rewrite <- (firstn_skipn axis (x_shape e)) in Hj. destruct (in_bounds_split _ _ _ Hj) as (i1 & i2 & -> & B1 & B2).
      unfold insert_at at 1. rewrite (insert_split axis 0 _ i1 i2); auto.
      - apply Forall2_app; auto. constructor; [lia|auto].
      - rewrite (in_bounds_length _ _ B1), firstn_length. fold n. lia. }
    split; [exact Hb|]. rewrite Hsh in B. destruct (B _ Hb) as (jx' & J1 & J2 & J3).
    assert (jx' = jx) as <-; [|exact J3].
    pose proof (in_bounds_length _ _ Hj).
    rewrite <- (firstn_skipn axis jx). apply Hsrc; [rewrite firstn_length; lia|exact J1].
  - intros ix Hi. unfold insert_at in Hi at 1.
    destruct (in_bounds_split _ _ _ Hi) as (i1 & i2 & -> & B1 & B2). inversion B2; subst.
    replace y with 0 by lia. exists (i1 ++ l'). split.
    + rewrite <- (firstn_skipn axis (x_shape e)). apply Forall2_app; auto.
    + symmetry. apply insert_split; auto. rewrite (in_bounds_length _ _ B1), firstn_length. fold n. lia.
Qed.
