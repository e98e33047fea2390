From Coq Require Import List ZArith Lia Bool.
From Verif Require Import Prelude PreludeFacts Strides_Model Strides_Spec Strides_Proofs Machine_Model Machine_Spec.
Import ListNotations.
Open Scope Z_scope.

Ltac mnia :=
  repeat match goal with
         | |- context [Z.max 1 ?a] => pose proof (Z.le_max_l 1 a); pose proof (Z.le_max_r 1 a); generalize dependent (Z.max 1 a); intros
         | H : context [Z.max 1 ?a] |- _ => pose proof (Z.le_max_l 1 a); pose proof (Z.le_max_r 1 a); generalize dependent (Z.max 1 a); intros
         end; nia.
Notation pm l := (prod (map (Z.max 1) l)).

Lemma pm_pos l : 1 <= pm l.
Proof.
  induction l; [reflexivity|]. cbn [map]. rewrite prod_cons. mnia.
Qed.

Lemma prod_le_pm l : is_shape l -> 0 <= prod l <= pm l.
Proof.
  induction 1; cbn [map]; [rewrite !prod_nil; lia|]. rewrite !prod_cons.
  pose proof (pm_pos l). mnia.
Qed.

Lemma s64_ok x : - 2 ^ 63 <= x < 2 ^ 63 -> s64 x = Ok x.
Proof.
  intros H. unfold s64, smax. destruct (Z.leb_spec (- 2 ^ 63) x); [|lia].
  destruct (Z.ltb_spec x (2 ^ 63)); [|lia]. reflexivity.
Qed.

Lemma to_s64_u64 x : - 2 ^ 63 <= x < 2 ^ 63 -> to_s64 (u64 x) = x.
Proof.
  intros H. unfold to_s64, u64, smax, umax. rewrite Zplus_mod_idemp_l. rewrite Z.mod_small; lia.
Qed.

Lemma to_s64_ok x : - 2 ^ 63 <= x < 2 ^ 63 -> to_s64 x = x.
Proof. intros H. unfold to_s64, smax, umax. rewrite Z.mod_small; lia. Qed.

Lemma body_eq shape i st bs ds :
  (i < length shape)%nat -> length st = length shape ->
  0 <= ds -> 0 <= nth i shape 0 -> ds * Z.max 1 (nth i shape 0) < 2 ^ 63 -> nth i shape 0 < 2 ^ 63 ->
  m_compute_strides_body shape i (st, bs, ds) = compute_strides_body shape i (st, bs, ds).
Proof.
  intros Hi Hl Hds Hsh Hb Hsh2. unfold m_compute_strides_body, compute_strides_body.
  rewrite wr_ok by lia. bok.
  assert (Hr : rd (upd st i ds) i = Ok ds).
  { apply rd_ok. apply nth_error_upd_same. lia. }
  rewrite Hr. bok.
  destruct (nth_error_lt_ex shape i Hi) as (sh & Hs). rewrite (rd_ok _ _ _ Hs). bok.
  apply (nth_error_nth _ _ 0) in Hs as Hn. rewrite Hn in *.
  rewrite to_s64_ok by lia. rewrite s64_ok by mnia. bok.
  unfold m_adapt_strides_at, adapt_strides_at. rewrite (rd_ok _ _ _ Hs). bok.
  destruct (Z.eqb_spec sh 1).
  - subst sh. rewrite wr_ok by (rewrite upd_length; lia). bok. destruct bs as [b|]; auto.
    assert (Hr0 : rd (upd (upd st i ds) i 0) i = Ok 0).
    { apply rd_ok, nth_error_upd_same. rewrite upd_length; lia. }
    rewrite Hr0. bok. rewrite to_s64_u64 by lia. rewrite s64_ok by lia. bok. reflexivity.
  - bok. destruct bs as [b|]; auto. rewrite Hr. bok. rewrite to_s64_u64 by lia.
    rewrite s64_ok by mnia. bok. reflexivity.
Qed.

Lemma body_result shape i st bs ds s' :
  compute_strides_body shape i (st, bs, ds) = Ok s' ->
  length (fst (fst s')) = length st /\ snd s' = ds * nth i shape 0.
Proof.
  unfold compute_strides_body. intros H.
  apply bind_ok in H. destruct H as (st1 & H1 & H). apply wr_ok_inv in H1. destruct H1 as (Hi & ->).
  apply bind_ok in H. destruct H as (v & Hv & H). apply rd_ok_inv in Hv. rewrite nth_error_upd_same in Hv by auto.
  inversion Hv; subst v.
  apply bind_ok in H. destruct H as (sh & Hsh & H). apply rd_ok_inv in Hsh.
  apply bind_ok in H. destruct H as ([st2 bs2] & Ha & H). inversion H; subst. simpl.
  apply (nth_error_nth _ _ 0) in Hsh. rewrite Hsh. split; auto.
  unfold adapt_strides_at in Ha.
  apply bind_ok in Ha. destruct Ha as (sh' & _ & Ha).
  apply bind_ok in Ha. destruct Ha as (st3 & H3 & Ha).
  assert (HL3 : length st3 = length st).
  { destruct (sh' =? 1).
    - apply wr_ok_inv in H3. destruct H3 as (_ & ->). rewrite !upd_length. auto.
    - inversion H3. rewrite upd_length. auto. }
  destruct bs as [b|].
  - apply bind_ok in Ha. destruct Ha as (x & _ & Ha). apply bind_ok in Ha. destruct Ha as (y & _ & Ha).
    inversion Ha; subst. auto.
  - inversion Ha; subst; auto.
Qed.

Lemma nth_is_shape sh k : is_shape sh -> 0 <= nth k sh 0.
Proof.
  intros H. destruct (Nat.lt_ge_cases k (length sh)).
  - unfold is_shape in H. rewrite Forall_forall in H. apply H, nth_In; auto.
  - rewrite nth_overflow by auto. lia.
Qed.

Lemma nth_le_pm sh k : nth k sh 0 <= pm sh.
Proof.
  revert k; induction sh as [|d sh IH]; intros [|k]; simpl nth; cbn [map]; rewrite ?prod_cons, ?prod_nil; try lia.
  - pose proof (pm_pos sh). mnia.
  - specialize (IH k). pose proof (pm_pos sh). mnia.
Qed.

Lemma for_down_eq shape n : forall st bs ds,
  is_shape shape -> fits64 shape -> (n <= length shape)%nat -> length st = length shape ->
  0 <= ds -> ds * pm (firstn n shape) < 2 ^ 63 ->
  for_down (m_compute_strides_body shape) n (st, bs, ds) = for_down (compute_strides_body shape) n (st, bs, ds).
Proof.
  induction n; intros st bs ds Hs HF Hn Hl Hds Hb; auto. cbn [for_down].
  assert (Hni := nth_is_shape shape n Hs).
  destruct (nth_error_lt_ex shape n ltac:(lia)) as (d & Hd).
  rewrite (firstn_snoc_nth _ _ _ Hd), map_app, prod_app in Hb. cbn [map] in Hb.
  rewrite prod_cons, prod_nil in Hb. apply (nth_error_nth _ _ 0) in Hd. rewrite <- Hd in Hb.
  pose proof (pm_pos (firstn n shape)).
  pose proof (nth_le_pm shape n). unfold fits64 in HF.
  rewrite body_eq by (auto; mnia).
  destruct (compute_strides_body shape n (st, bs, ds)) as [[[st' bs'] ds']| |] eqn:E; auto.
  apply body_result in E. simpl in E. destruct E as (E1 & E2). bok.
  apply IHn; auto; try lia; mnia.
Qed.

Lemma for_up_eq shape n : forall i st bs ds,
  is_shape shape -> fits64 shape -> (i + n = length shape)%nat -> length st = length shape ->
  0 <= ds -> ds * pm (skipn i shape) < 2 ^ 63 ->
  for_up (m_compute_strides_body shape) i n (st, bs, ds) = for_up (compute_strides_body shape) i n (st, bs, ds).
Proof.
  induction n; intros i st bs ds Hs HF Hn Hl Hds Hb; auto. cbn [for_up].
  assert (Hni := nth_is_shape shape i Hs).
  destruct (nth_error_lt_ex shape i ltac:(lia)) as (d & Hd).
  rewrite (skipn_cons_nth _ _ _ Hd) in Hb. cbn [map] in Hb.
  rewrite prod_cons in Hb. apply (nth_error_nth _ _ 0) in Hd. rewrite <- Hd in Hb.
  pose proof (pm_pos (skipn (S i) shape)).
  pose proof (nth_le_pm shape i). unfold fits64 in HF.
  rewrite body_eq by (auto; mnia).
  destruct (compute_strides_body shape i (st, bs, ds)) as [[[st' bs'] ds']| |] eqn:E; auto.
  apply body_result in E. simpl in E. destruct E as (E1 & E2). bok.
  apply IHn; auto; try lia; mnia.
Qed.

Lemma m_compute_size_ok l : forall a, is_shape l -> 0 <= a -> a * pm l < 2 ^ 63 ->
  fold_left (fun a d => u64 (a * d)) l a = a * prod l.
Proof.
  induction l as [|d l IH]; intros a Hs Ha Hb; simpl fold_left.
  - rewrite prod_nil. lia.
  - inversion Hs; subst. cbn [map] in Hb. rewrite prod_cons in *. pose proof (pm_pos l).
    assert (Hm : d <= Z.max 1 d) by lia.
    assert (H3 : a * d <= a * Z.max 1 d) by nia.
    assert (H4 : a * Z.max 1 d * 1 <= a * Z.max 1 d * pm l).
    { apply Z.mul_le_mono_nonneg_l; nia. }
    assert (Hu : u64 (a * d) = a * d).
    { unfold u64, umax. apply Z.mod_small. nia. }
    rewrite Hu, IH; auto; nia.
Qed.

Lemma strides_range L l sh st0 bs0 st bs ds :
  is_shape sh -> length st0 = length sh ->
  match bs0 with Some b => length b = length sh | None => True end ->
  compute_strides L sh l st0 bs0 = Ok (st, bs, ds) ->
  length st = length sh /\ forall k, (k < length sh)%nat -> 0 <= nth k st 0 <= pm sh.
Proof.
  intros Hs H0 H1 H. rewrite compute_strides_ok in H; auto.
  assert (HR : forall k, (k < length sh)%nat -> 0 <= row_stride sh k <= pm sh /\ 0 <= col_stride sh k <= pm sh).
  { intros k Hk. unfold row_stride, col_stride.
    assert (HA : forall a, is_shape a -> 0 <= prod a <= pm a) by (intros; apply prod_le_pm; auto).
    assert (H2 : is_shape (skipn (S k) sh)) by (apply Forall_skipn'; auto).
    assert (H3 : is_shape (firstn k sh)) by (apply Forall_firstn'; auto).
    apply HA in H2, H3.
    assert (E1 : pm sh = pm (firstn (S k) sh) * pm (skipn (S k) sh)) by (rewrite <- prod_app, <- map_app, firstn_skipn; auto).
    assert (E2 : pm sh = pm (firstn k sh) * pm (skipn k sh)) by (rewrite <- prod_app, <- map_app, firstn_skipn; auto).
    pose proof (pm_pos (firstn (S k) sh)). pose proof (pm_pos (skipn (S k) sh)).
    pose proof (pm_pos (firstn k sh)). pose proof (pm_pos (skipn k sh)). pose proof (pm_pos sh).
    destruct (nth k sh 0 =? 1); mnia. }
  cbv zeta in H. destruct (layout_eqb L row_major || layout_eqb l row_major); inversion H; subst.
  - split; [apply row_strides_length|]. intros k Hk. rewrite row_strides_nth by auto. apply HR; auto.
  - split; [apply col_strides_length|]. intros k Hk. rewrite col_strides_nth by auto. apply HR; auto.
Qed.

Lemma dot_nonneg ix st : Forall (fun x => 0 <= x) ix -> Forall (fun x => 0 <= x) st -> 0 <= dot ix st.
Proof.
  intros H. revert st. induction H; intros [|s st] Hst; simpl; try lia.
  inversion Hst; subst. specialize (IHForall st H4). mnia.
Qed.

Lemma m_raw_ok ix : forall st, length ix = length st ->
  Forall (fun x => 0 <= x < 2 ^ 63) ix -> Forall (fun x => 0 <= x) st -> dot ix st < 2 ^ 63 ->
  m_raw_data_offset st ix = Ok (dot ix st).
Proof.
  induction ix as [|i ix IH]; intros [|s st] HL Hix Hst Hd; simpl in HL; try discriminate; [reflexivity|].
  inversion Hix; subst. inversion Hst; subst. cbn [m_raw_data_offset]. simpl dot in *.
  assert (0 <= dot ix st) by (apply dot_nonneg; auto; eapply Forall_impl; try exact H2; simpl; lia).
  rewrite to_s64_ok by lia. rewrite s64_ok by mnia. bok.
  rewrite IH by (auto; mnia). bok. apply s64_ok. mnia.
Qed.

Lemma m_inner_ok ix : forall st acc, length ix = length st -> 0 <= acc ->
  Forall (fun x => 0 <= x < 2 ^ 63) ix -> Forall (fun x => 0 <= x < 2 ^ 64) st -> acc + dot ix st < 2 ^ 63 ->
  m_inner_product ix st acc = acc + dot ix st.
Proof.
  induction ix as [|i ix IH]; intros [|s st] acc HL Hacc Hix Hst Hd; simpl in HL; try discriminate; simpl; [lia|].
  inversion Hix; subst. inversion Hst; subst. simpl dot in *.
  assert (0 <= dot ix st).
  { apply dot_nonneg; eapply Forall_impl; [|exact H2| |exact H4]; simpl; lia. }
  assert (E : to_s64 (u64 (u64 acc + u64 (i * u64 s))) = acc + i * s).
  { unfold u64 at 4. unfold umax. rewrite (Z.mod_small s) by lia.
    unfold u64 at 2 3. rewrite !(Z.mod_small) with (b := umax) by (unfold umax; mnia).
    apply to_s64_u64. mnia. }
  rewrite E. rewrite IH; auto; try mnia; lia.
Qed.

Lemma machine_lemma L l sh st0 bs0 :
  is_shape sh -> fits64 sh -> length st0 = length sh -> length bs0 = length sh ->
  m_compute_size sh = prod sh /\
  m_compute_strides L sh l st0 (Some bs0) = compute_strides L sh l st0 (Some bs0) /\
  m_compute_strides L sh l st0 None = compute_strides L sh l st0 None /\
  (forall st bs ds ix, compute_strides L sh l st0 (Some bs0) = Ok (st, bs, ds) -> in_bounds sh ix ->
     m_raw_data_offset st ix = Ok (element_offset st ix) /\
     m_inner_product ix st 0 = element_offset st ix).
Proof.
  intros Hs HF H0 H1.
  assert (HU : forall bs, match bs with Some b => length b = length sh | None => True end ->
            m_compute_strides L sh l st0 bs = compute_strides L sh l st0 bs).
  { intros bs Hbs. unfold m_compute_strides.
    assert (E : (if layout_eqb L row_major || layout_eqb l row_major
        then for_down (m_compute_strides_body sh) (length sh) (st0, bs, 1)
        else for_up (m_compute_strides_body sh) 0 (length sh) (st0, bs, 1)) = compute_strides L sh l st0 bs).
    { unfold compute_strides. destruct (layout_eqb L row_major || layout_eqb l row_major).
      - apply for_down_eq; auto; try lia. rewrite firstn_all. unfold fits64 in HF. lia.
      - apply for_up_eq; auto; try lia. simpl skipn. unfold fits64 in HF. lia. }
    rewrite E. rewrite compute_strides_ok by auto. cbn [bind]. 
    unfold u64. rewrite Z.mod_small; auto.
    pose proof (prod_le_pm sh Hs). unfold fits64, umax in *. lia. }
  split; [|split; [|split]].
  - unfold m_compute_size. rewrite m_compute_size_ok; auto; unfold fits64 in HF; lia.
  - apply HU; auto.
  - apply HU; auto.
  - intros st bs ds ix Hc Hb.
    destruct (strides_range L l sh st0 (Some bs0) st bs ds Hs H0 H1 Hc) as (Hl & Hst).
    destruct (dense_addressing_lemma L l sh st0 bs0 Hs H0 H1) as (st' & bs' & HE & Hbd & _ & _).
    rewrite Hc in HE. inversion HE; subst. specialize (Hbd ix Hb).
    pose proof (in_bounds_length _ _ Hb) as Hix.
    rewrite element_offset_same in * by lia.
    pose proof (prod_le_pm sh Hs) as Hp. unfold fits64 in HF.
    assert (Hixr : Forall (fun x => 0 <= x < 2 ^ 63) ix).
    { apply Forall_forall. intros x Hx. apply (In_nth _ _ 0) in Hx. destruct Hx as (k & Hk & <-).
      pose proof (in_bounds_nth _ _ k Hb ltac:(lia)). pose proof (nth_le_pm sh k). lia. }
    assert (Hstr : Forall (fun x => 0 <= x < 2 ^ 64) st').
    { apply Forall_forall. intros x Hx. apply (In_nth _ _ 0) in Hx. destruct Hx as (k & Hk & <-).
      specialize (Hst k ltac:(lia)). lia. }
    split.
    + apply m_raw_ok; auto; try lia. eapply Forall_impl; [|exact Hstr]. simpl. lia.
    + rewrite m_inner_ok; auto; lia.
Qed.

Lemma size_refuted_lemma :
  exists sh, is_shape sh /\ Forall (fun d => d < 2 ^ 63) sh /\ m_compute_size sh < prod sh.
Proof.
  exists [2 ^ 32; 2 ^ 32]. split; [|split].
  - repeat constructor; lia.
  - repeat constructor; lia.
  - vm_compute. reflexivity.
Qed.

Lemma empty_overflow_lemma :
  exists sh, is_shape sh /\ Forall (fun d => d < 2 ^ 63) sh /\ prod sh = 0 /\
  m_compute_strides row_major sh row_major (repeat 0 (length sh)) None = UB.
Proof.
  exists [0; 2 ^ 32; 2 ^ 32]. split; [|split; [|split]].
  - repeat constructor; lia.
  - repeat constructor; lia.
  - reflexivity.
  - vm_compute. reflexivity.
Qed.
