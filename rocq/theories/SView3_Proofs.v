(** Proofs about strided views: the view built by strided_view(e, slices). *)
From Coq Require Import List ZArith Bool Lia.
From Verif Require Import Prelude PreludeFacts Strides_Model Strides_Spec Strides_Proofs Slice_Model Slice_Spec Slice_Proofs
  View_Spec SView_Model SView_Spec SView_Proofs SView2_Proofs.
Import ListNotations.
Open Scope Z_scope.

Definition nnew (ss : list item) : nat :=
  length (filter (fun it => match it with Pick UNewaxis => true | _ => false end) ss).
Definition nint (ss : list item) : nat :=
  length (filter (fun it => match it with Pick (UInt _) => true | _ => false end) ss).
Definition unew (us : list user_slice) : nat :=
  length (filter (fun it => match it with UNewaxis => true | _ => false end) us).
Definition uint_ (us : list user_slice) : nat :=
  length (filter (fun it => match it with UInt _ => true | _ => false end) us).
Definition ucons (us : list user_slice) : nat :=
  length (filter (fun it => match it with UNewaxis => false | _ => true end) us).

Lemma quad_eq (a a' b b' c c' : Z) (h h' : bool) : a = a' -> b = b' -> c = c' -> h = h' ->
  @Ok (Z * Z * Z * bool) (a, b, c, h) = Ok (a', b', c', h').
Proof. intros; subst; reflexivity. Qed.

Lemma count_loop ss : forall a b c (h : bool),
  (ellipses ss + (if h then 1 else 0) <= 1)%nat ->
  for_each count_item ss (a, b, c, h) =
  Ok (a + Z.of_nat (nnew ss) - Z.of_nat (nint ss), b + Z.of_nat (nnew ss), c - Z.of_nat (consumed ss),
      h || (0 <? ellipses ss)%nat).
Proof.
  induction ss as [|it ss IH]; intros a b c h H.
  - cbn [for_each]. apply quad_eq; unfold nnew, nint, consumed, ellipses; simpl; try lia. rewrite orb_false_r. reflexivity.
  - cbn [for_each]. destruct it as [[x y z| | |i|raw|raw]|]; cbn [count_item bind].
    7:{ destruct h.
      + unfold ellipses in H. simpl in H. lia.
      + cbn [bind]. rewrite IH by (unfold ellipses in *; simpl in *; lia).
        apply quad_eq; unfold nnew, nint, consumed, ellipses; cbn [filter length]; reflexivity. }
    all: rewrite IH by (unfold ellipses in *; simpl in H; lia);
         apply quad_eq; unfold nnew, nint, consumed, ellipses; cbn [filter length]; try lia; reflexivity.
Qed.

Lemma count_two ss : forall a b c (h : bool), (2 <= ellipses ss + (if h then 1 else 0))%nat ->
  for_each count_item ss (a, b, c, h) = Throw runtime_error.
Proof.
  induction ss as [|it ss IH]; intros a b c h H.
  - unfold ellipses in H. simpl in H. destruct h; lia.
  - cbn [for_each]. destruct it as [[x y z| | |i|raw|raw]|]; cbn [count_item bind];
      try (apply IH; unfold ellipses in *; simpl in H; lia).
    destruct h; cbn [bind]; [reflexivity|]. apply IH. unfold ellipses in *. simpl in *. lia.
Qed.

Lemma items_length ss : length ss = (consumed ss + nnew ss + ellipses ss)%nat.
Proof.
  induction ss as [|[[x y z| | |i|raw|raw]|] ss IH]; unfold consumed, nnew, ellipses in *; simpl; lia.
Qed.

Lemma expand_ex d ss : expand d ss = flat_map (ex (d - consumed ss)) ss.
Proof. unfold expand. apply flat_map_ext. intros []; reflexivity. Qed.

Lemma expand_noell d m ss : ellipses ss = 0%nat -> expand d ss = flat_map (ex m) ss.
Proof.
  intros H. unfold expand. generalize (consumed ss). revert H. induction ss as [|[u|] ss IH]; intros H n; simpl; auto.
  - f_equal. apply IH. unfold ellipses in *. simpl in H. exact H.
  - unfold ellipses in H. simpl in H. discriminate.
Qed.

Lemma cnt_app (f : user_slice -> bool) a b : length (filter f (a ++ b)) = (length (filter f a) + length (filter f b))%nat.
Proof. rewrite filter_app, app_length. reflexivity. Qed.
Lemma cnt_repeat (f : user_slice -> bool) m : f UAll = false -> length (filter f (repeat UAll m)) = 0%nat.
Proof. intros H. induction m; simpl; auto. rewrite H. auto. Qed.
Lemma cnt_repeat_t (f : user_slice -> bool) m : f UAll = true -> length (filter f (repeat UAll m)) = m.
Proof. intros H. induction m; simpl; auto. rewrite H. simpl. auto. Qed.

Lemma counts_ex m ss : unew (flat_map (ex m) ss) = nnew ss /\ uint_ (flat_map (ex m) ss) = nint ss /\
  ucons (flat_map (ex m) ss) = (consumed ss + m * ellipses ss)%nat.
Proof.
  induction ss as [|[u|] ss (I1 & I2 & I3)].
  - unfold unew, uint_, ucons, nnew, nint, consumed, ellipses. simpl. lia.
  - unfold unew, uint_, ucons, nnew, nint, consumed, ellipses in *. cbn [flat_map ex app filter].
    destruct u; cbn [length]; rewrite ?I1, ?I2, ?I3; repeat split; lia.
  - unfold unew, uint_, ucons, nnew, nint, consumed, ellipses in *. cbn [flat_map ex filter length].
    rewrite !cnt_app. rewrite !(cnt_repeat _ m) by reflexivity. rewrite (cnt_repeat_t _ m) by reflexivity. lia.
Qed.

Lemma valid_ucons full us sh : valid full us sh -> (ucons us <= length sh)%nat.
Proof. induction 1; unfold ucons in *; simpl; lia. Qed.

Lemma filled_count us sh st d v w sh' st' : filled us sh st d v w sh' st' ->
  (length v + length sh' + uint_ us = length sh + unew us)%nat.
Proof. induction 1; unfold uint_, unew in *; simpl in *; lia. Qed.

Lemma filled_rest us sh st d v w sh' st' : filled us sh st d v w sh' st' -> length st = length sh -> length st' = length sh'.
Proof. induction 1; simpl; intros; auto. Qed.

Lemma fill_args_ok shape strides off l ss junk :
  length strides = length shape -> (ellipses ss <= 1)%nat ->
  valid false (expand (length shape) ss) shape ->
  exists d v w sh' st' m,
    fill_args shape strides off l ss junk = Ok (v ++ sh', w ++ st', off + d, if m : bool then l else dynamic) /\
    do_strides_match (v ++ sh') (w ++ st') l true = Ok m /\
    filled (expand (length shape) ss) shape strides d v w sh' st'.
Proof.
  intros Hst He Hv. unfold fill_args. rewrite count_loop by lia. cbn [bind].
  set (n := length shape) in *.
  assert (Hm : exists m, (if false || (0 <? ellipses ss)%nat
           then Z.to_nat (Z.of_nat n - (Z.of_nat (length ss) - 1 - (0 + Z.of_nat (nnew ss)))) else 0%nat) = m /\
           expand n ss = flat_map (ex m) ss).
  { destruct (0 <? ellipses ss)%nat eqn:E; cbn [orb].
    - apply Nat.ltb_lt in E. exists (n - consumed ss)%nat. split; [|apply expand_ex].
      rewrite (items_length ss). lia.
    - apply Nat.ltb_ge in E. exists 0%nat. split; [auto|]. apply expand_noell. lia. }
  destruct Hm as (m & Em & Ex). rewrite Em. clear Em. rewrite Ex in *.
  destruct (counts_ex m ss) as (C1 & C2 & C3).
  pose proof (valid_ucons _ _ _ Hv) as Hc. fold n in Hc. rewrite C3 in Hc.
  destruct (Z.of_nat n - Z.of_nat (consumed ss) <? 0) eqn:E0; [apply Z.ltb_lt in E0; lia|]. clear E0.
  set (dim := Z.to_nat (Z.of_nat n + Z.of_nat (nnew ss) - Z.of_nat (nint ss))).
  assert (Hni : (nint ss <= consumed ss)%nat).
  { clear. induction ss as [|[[x y z| | |i|raw|raw]|] ss IH]; unfold nint, consumed in *; simpl; lia. }
  assert (Hdim : (dim + nint ss = n + nnew ss)%nat) by (unfold dim; lia).
  assert (Hdl : length (firstn dim (junk ++ repeat 0 dim)) = dim).
  { rewrite firstn_length, app_length, repeat_length. lia. }
  destruct (fill_loop m ss shape strides Hst ss [] 0%nat 0%nat off [] (repeat 0 dim) [] (firstn dim (junk ++ repeat 0 dim)))
    as (c' & d & v & w & E & F & Hc'); auto.
  { lia. } { rewrite repeat_length. auto. }
  { rewrite repeat_length.
    assert (HV : (vaxes (flat_map (ex m) ss) + uint_ (flat_map (ex m) ss) = ucons (flat_map (ex m) ss) + unew (flat_map (ex m) ss))%nat).
    { generalize (flat_map (ex m) ss). clear. induction l as [|[x y z| | |i|raw|raw] l IH];
        unfold vaxes, uint_, ucons, unew in *; simpl; lia. }
    rewrite C1, C2, C3 in HV. lia. }
  cbn [length app] in E. replace (Z.of_nat 0 - Z.of_nat 0) with 0 in E by lia. rewrite E. cbn [bind].
  assert (Hx : Z.to_nat (Z.of_nat (length ss) - (Z.of_nat (length ss) - Z.of_nat c')) = c') by lia.
  rewrite Hx. cbn [skipn] in F.
  pose proof (filled_count _ _ _ _ _ _ _ _ F) as HN. rewrite C1, C2, skipn_length in HN. fold n in HN.
  destruct (filled_lens _ _ _ _ _ _ _ _ F) as (L1 & L2).
  rewrite copy_loop; auto; try (rewrite ?skipn_length, ?repeat_length, ?Hdl; fold n; lia).
  cbn [bind]. 
  rewrite (skipn_all2 (skipn (length v) (repeat 0 dim))) by (rewrite skipn_length, repeat_length; fold n; lia).
  rewrite (skipn_all2 (skipn (length v) (firstn dim _))) by (rewrite skipn_length, Hdl; fold n; lia).
  rewrite !app_nil_r.
  rewrite (firstn_all2 (skipn c' shape)) by (rewrite skipn_length; lia).
  rewrite (firstn_all2 (skipn c' strides)) by (rewrite skipn_length; lia).
  assert (HL : length (w ++ skipn c' strides) = length (v ++ skipn c' shape)).
  { rewrite !app_length, !skipn_length. lia. }
  destruct (strides_match_exact_lemma l _ _ true HL) as (mm & Hmm & _).
  rewrite Hmm. cbn [bind].
  exists d, v, w, (skipn c' shape), (skipn c' strides), mm. auto.
Qed.

(** ** What the filled strides address *)
Lemma in_bounds_cons_inv n sh ix : in_bounds (n :: sh) ix -> exists i ix', ix = i :: ix' /\ 0 <= i < n /\ in_bounds sh ix'.
Proof. intros H. inversion H; subst. eauto. Qed.

Lemma selects_unique n a b s l1 f1 l2 f2 :
  py_selects n a b s l1 f1 -> py_selects n a b s l2 f2 -> l1 = l2.
Proof.
  intros (A1 & A2 & _) (B1 & B2 & _).
  destruct (Z.lt_trichotomy l1 l2) as [H|[H|H]]; auto.
  - pose proof (proj2 (A2 l1 A1) (proj1 (B2 l1 A1) H)). lia.
  - pose proof (proj2 (B2 l2 B1) (proj1 (A2 l2 B1) H)). lia.
Qed.

Lemma filled_index us sh st d v w sh' st' :
  filled us sh st d v w sh' st' -> length st = length sh -> is_shape sh -> valid false us sh ->
  view_shape us sh (v ++ sh') /\ is_shape (v ++ sh') /\
  forall ix, in_bounds (v ++ sh') ix ->
  exists jx, source_index us sh ix jx /\ in_bounds sh jx /\ d + dot ix (w ++ st') = dot jx st.
Proof.
  induction 1; intros Hl Hs Hv.
  - cbn [app]. split; [constructor|]. split; [auto|]. intros ix Hi. exists ix. split; [constructor|]. split; auto.
  - inversion Hv; subst. inversion Hs; subst. cbn in Hl. injection Hl as Hl.
    destruct (IHfilled Hl) as (I1 & I2 & I3); auto.
    split; [constructor; auto|]. split; [auto|]. intros ix Hi. destruct (I3 ix Hi) as (jx & J1 & J2 & J3).
    assert (Ef : from_end n i = i). { unfold from_end. destruct (i <? 0) eqn:E; auto. apply Z.ltb_lt in E. lia. }
    exists (from_end n i :: jx). split; [constructor; auto|]. rewrite Ef. split; [constructor; auto; lia|].
    cbn [dot]. lia.
  - inversion Hv; subst. destruct (IHfilled Hl) as (I1 & I2 & I3); auto. cbn [app].
    split; [constructor; auto|]. split; [constructor; auto; lia|]. intros ix Hi.
    destruct (in_bounds_cons_inv _ _ _ Hi) as (k & ix' & -> & Hk & Hi').
    destruct (I3 ix' Hi') as (jx & J1 & J2 & J3). replace k with 0 by lia.
    exists jx. split; [constructor; auto|]. split; [auto|]. cbn [dot]. lia.
  - inversion Hv; subst. inversion Hs; subst. cbn in Hl. injection Hl as Hl.
    destruct (IHfilled Hl) as (I1 & I2 & I3); auto. cbn [app].
    split; [constructor; auto|]. split; [constructor; auto; lia|]. intros ix Hi.
    destruct (in_bounds_cons_inv _ _ _ Hi) as (k & ix' & -> & Hk & Hi').
    destruct (I3 ix' Hi') as (jx & J1 & J2 & J3).
    exists (k :: jx). split; [constructor; auto|]. split; [constructor; auto|]. cbn [dot]. lia.
  - inversion Hv; subst. inversion Hs; subst. cbn in Hl. injection Hl as Hl.
    destruct (IHfilled Hl) as (I1 & I2 & I3); auto. cbn [app].
    destruct (range_python_lemma n a b c) as (r & g & R1 & R2 & R3 & R4); auto.
    rewrite H in R1. injection R1 as <-.
    assert (Hlen : 0 <= slice_size sl) by (destruct R3; auto).
    destruct (range_linear _ _ _ _ _ H) as (f' & t' & K1 & K2 & K3).
    rewrite H0 in K1. injection K1 as <-. rewrite H1 in K2. injection K2 as <-.
    split; [econstructor; eauto|]. split; [constructor; auto|]. intros ix Hi.
    destruct (in_bounds_cons_inv _ _ _ Hi) as (k & ix' & -> & Hk & Hi').
    destruct (I3 ix' Hi') as (jx & J1 & J2 & J3).
    destruct R3 as (_ & _ & R3). specialize (R3 k Hk). specialize (R4 k Hk).
    assert (Eg : g k = f + k * t). { specialize (R2 k). rewrite K3 in R2. injection R2 as R2. auto. }
    exists (py_start n (py_step c) a + k * py_step c :: jx). split; [constructor; auto|].
    rewrite <- R3. split; [constructor; auto|]. cbn [dot]. rewrite Eg. lia.
Qed.
