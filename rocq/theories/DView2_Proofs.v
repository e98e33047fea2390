(** Proofs about dynamic views: the elements. *)
From Coq Require Import List ZArith Bool Lia.
From Verif Require Import Prelude PreludeFacts Strides_Model Strides_Spec Strides_Proofs Slice_Model Slice_Spec Slice_Proofs
  View_Spec SView_Model SView_Spec SView_Proofs SView2_Proofs SView3_Proofs DView_Model DView_Spec DView_Proofs.
Import ListNotations.
Open Scope Z_scope.

(** What the slices of the axes [R] add to the offset at the index [ix]. *)
Inductive adds : list quad -> list Z -> Z -> Prop :=
| ad_nil : adds [] [] 0
| ad_cons q R i ix x t : dslice_at (q3 q) i = Ok x -> adds R ix t -> adds (q :: R) (i :: ix) (x * q4 q + t).

Lemma adds_length R ix t : adds R ix t -> length ix = length R.
Proof. induction 1; cbn; auto. Qed.

Lemma adds_whole sh : forall st ix, length st = length sh -> in_bounds sh ix -> adds (whole sh st) ix 0.
Proof.
  induction sh; intros [|s st] ix Hl Hi; try discriminate.
  - inversion Hi; subst. constructor.
  - destruct (in_bounds_cons_inv _ _ _ Hi) as (k & ix' & -> & Hk & Hi'). cbn [whole].
    apply (ad_cons (a, s, DFake, 0) (whole sh st) k ix' 0 0); [reflexivity|]. apply IHsh; auto.
Qed.

Lemma whole_maps sh : forall st, length st = length sh -> map q1 (whole sh st) = sh /\ map q2 (whole sh st) = st.
Proof.
  induction sh; intros [|s st] Hl; try discriminate; cbn [whole map q1 q2]; auto.
  injection Hl as Hl. destruct (IHsh st Hl) as (-> & ->). auto.
Qed.

Lemma dfilled_index us sh st d Q sh' st' :
  dfilled us sh st d Q sh' st' -> length st = length sh -> is_shape sh -> valid true us sh -> plain_ints us ->
  let R := Q ++ whole sh' st' in
  view_shape us sh (map q1 R) /\ is_shape (map q1 R) /\
  forall ix, in_bounds (map q1 R) ix ->
  exists jx t, source_index us sh ix jx /\ in_bounds sh jx /\ adds R ix t /\ d + dot ix (map q2 R) + t = dot jx st.
Proof.
  induction 1 as [sh st|i n s ss sh st d Q sh' st' F IH|j ss sh st d Q sh' st' F IH|n s ss sh st d Q sh' st' F IH
                 |a b c sl f tt n s ss sh st d Q sh' st' H H0 H1 F IH|u ns n s ss sh st d Q sh' st' Hu Hr F IH];
    intros Hl Hs Hv Hp; cbn zeta in *.
  - cbn [app]. destruct (whole_maps sh st Hl) as (-> & ->). split; [constructor|]. split; [auto|].
    intros ix Hi. exists ix, 0. split; [constructor|]. split; [auto|]. split; [apply adds_whole; auto|]. lia.
  - inversion Hv; subst. inversion Hs; subst. inversion Hp; subst. cbn in Hl. injection Hl as Hl.
    destruct IH as (I1 & I2 & I3); auto.
    split; [constructor; auto|]. split; [auto|]. intros ix Hi. destruct (I3 ix Hi) as (jx & t & J1 & J2 & J3 & J4).
    assert (Ef : from_end n i = i). { unfold from_end. destruct (i <? 0) eqn:E; auto. apply Z.ltb_lt in E. lia. }
    exists (from_end n i :: jx), t. split; [constructor; auto|]. rewrite Ef. split; [constructor; auto; lia|].
    split; [auto|]. cbn [dot]. lia.
  - inversion Hv; subst. inversion Hp; subst. destruct IH as (I1 & I2 & I3); auto. cbn [app map q1 q2].
    split; [constructor; auto|]. split; [constructor; auto; lia|]. intros ix Hi.
    destruct (in_bounds_cons_inv _ _ _ Hi) as (k & ix' & -> & Hk & Hi').
    destruct (I3 ix' Hi') as (jx & t & J1 & J2 & J3 & J4). replace k with 0 by lia.
    exists jx, (0 * 0 + t). split; [constructor; auto|]. split; [auto|]. split; [apply (ad_cons (1, j, DFake, 0)); auto|]. cbn [dot]. lia.
  - inversion Hv; subst. inversion Hs; subst. inversion Hp; subst. cbn in Hl. injection Hl as Hl.
    destruct IH as (I1 & I2 & I3); auto. cbn [app map q1 q2].
    split; [constructor; auto|]. split; [constructor; auto; lia|]. intros ix Hi.
    destruct (in_bounds_cons_inv _ _ _ Hi) as (k & ix' & -> & Hk & Hi').
    destruct (I3 ix' Hi') as (jx & t & J1 & J2 & J3 & J4).
    exists (k :: jx), (0 * 0 + t). split; [constructor; auto|]. split; [constructor; auto|].
    split; [apply (ad_cons (n, s, DFake, 0)); auto|]. cbn [dot]. lia.
  - inversion Hv; subst. inversion Hs; subst. inversion Hp; subst. cbn in Hl. injection Hl as Hl.
    destruct IH as (I1 & I2 & I3); auto. cbn [app map q1 q2].
    destruct (range_python_lemma n a b c) as (r & g & R1 & R2 & R3 & R4); auto.
    rewrite H in R1. injection R1 as <-.
    assert (Hlen : 0 <= slice_size sl) by (destruct R3; auto).
    destruct (range_linear _ _ _ _ _ H) as (f' & t' & K1 & K2 & K3).
    rewrite H0 in K1. injection K1 as <-. rewrite H1 in K2. injection K2 as <-.
    split; [econstructor; eauto|]. split; [constructor; auto|]. intros ix Hi.
    destruct (in_bounds_cons_inv _ _ _ Hi) as (k & ix' & -> & Hk & Hi').
    destruct (I3 ix' Hi') as (jx & t & J1 & J2 & J3 & J4).
    destruct R3 as (_ & _ & R3). specialize (R3 k Hk). specialize (R4 k Hk).
    assert (Eg : g k = f + k * tt). { specialize (R2 k). rewrite K3 in R2. injection R2 as R2. auto. }
    exists (py_start n (py_step c) a + k * py_step c :: jx), (0 * 0 + t). split; [constructor; auto|].
    rewrite <- R3. split; [constructor; auto|]. split; [apply (ad_cons (slice_size sl, tt * s, DFake, 0)); auto|].
    cbn [dot]. rewrite Eg. lia.
  - destruct Hu as (raw & [ -> | -> ]); inversion Hv; subst; inversion Hs; subst; inversion Hp; subst; cbn in Hl; injection Hl as Hl;
      (destruct IH as (I1 & I2 & I3); auto); cbn [app map q1 q2].
    + destruct (keep_lemma n raw) as (r & R1 & R2 & R3 & _); auto. rewrite Hr in R1. injection R1 as <-.
      rewrite R2. split; [econstructor; eauto|]. split; [constructor; [lia|auto]|]. intros ix Hi.
      destruct (in_bounds_cons_inv _ _ _ Hi) as (k & ix' & -> & Hk & Hi'). destruct (I3 ix' Hi') as (jx & t & J1 & J2 & J3 & J4).
      destruct (nth_error_lt_ex raw (Z.to_nat k) ltac:(lia)) as (x & Hx).
      destruct (R3 _ _ Hx) as (X1 & X2). rewrite Z2Nat.id in X1 by lia.
      exists (from_end n x :: jx), (from_end n x * s + t). replace k with (Z.of_nat (Z.to_nat k)) at 1 by lia.
      split; [constructor; auto|]. split; [constructor; auto|].
      split; [apply (ad_cons (Z.of_nat (length raw), 0, DReal ns, s)); auto|]. cbn [dot]. lia.
    + destruct (drop_lemma n raw) as (r & R1 & R2 & R3 & _); auto. rewrite Hr in R1. injection R1 as <-.
      rewrite R2. split; [econstructor; eauto|]. split; [constructor; [lia|auto]|]. intros ix Hi.
      destruct (in_bounds_cons_inv _ _ _ Hi) as (k & ix' & -> & Hk & Hi'). destruct (I3 ix' Hi') as (jx & t & J1 & J2 & J3 & J4).
      destruct (nth_error_lt_ex (survivors n (map (from_end n) raw)) (Z.to_nat k) ltac:(lia)) as (x & Hx).
      pose proof (R3 _ _ Hx) as X1. rewrite Z2Nat.id in X1 by lia.
      exists (x :: jx), (x * s + t). replace k with (Z.of_nat (Z.to_nat k)) at 1 by lia.
      split; [constructor; auto|]. split.
      { constructor; auto. apply nth_error_In in Hx. apply in_survivors in Hx. tauto. }
      split; [apply (ad_cons (Z.of_nat (length (survivors n (map (from_end n) raw))), 0, DReal ns, s)); auto|]. cbn [dot]. lia.
Qed.

(** The adjustments of the offset. *)
Lemma adjust_impl_ok v R ix t : adds R ix t -> forall pre off,
  d_slices v = map q3 (pre ++ R) -> d_adj v = map q4 (pre ++ R) ->
  adjust_impl v (length pre) ix off = Ok (off + t).
Proof.
  induction 1 as [|q R i ix x t Hx Ha IH]; intros pre off H3 H4; cbn [adjust_impl].
  - f_equal. lia.
  - assert (N : nth_error (pre ++ q :: R) (length pre) = Some q) by (rewrite nth_error_app2, Nat.sub_diag by lia; reflexivity).
    rewrite (rd_ok _ _ (q3 q)) by (rewrite H3; apply map_nth_error; exact N). cbn [bind]. rewrite Hx. cbn [bind].
    rewrite (rd_ok _ _ (q4 q)) by (rewrite H4; apply map_nth_error; exact N). cbn [bind].
    replace (S (length pre)) with (length (pre ++ [q])) by (rewrite app_length; cbn; lia).
    rewrite IH by (rewrite <- app_assoc; auto). f_equal. lia.
Qed.

Lemma adjust_offset_ok v R ix t off : adds R ix t -> d_slices v = map q3 R -> d_adj v = map q4 R -> length (d_shape v) = length R ->
  forall extra, adjust_offset v off (extra ++ ix) = Ok (off + t).
Proof.
  intros Ha H3 H4 Hn. pose proof (adds_length _ _ _ Ha) as Hl. induction extra as [|e extra IH].
  - cbn [app]. destruct ix as [|i ix]; [inversion Ha; subst; cbn [adjust_offset]; f_equal; lia|].
    cbn [adjust_offset]. rewrite Hn, <- Hl, Nat.ltb_irrefl, Nat.sub_diag. apply (adjust_impl_ok v R _ _ Ha []); auto.
  - cbn [app adjust_offset]. destruct (length (d_shape v) <? length (e :: extra ++ ix))%nat eqn:E; [exact IH|].
    apply Nat.ltb_ge in E. cbn [length] in E. rewrite app_length in E. lia.
Qed.

Lemma adjust_loop v all R ix t : adds R ix t -> forall pre ini off,
  d_slices v = map q3 (pre ++ R) -> d_adj v = map q4 (pre ++ R) -> all = ini ++ ix -> (length pre <= length ini)%nat ->
  for_up (fun i res =>
    let* j := rd all (i - 0 + (length ini - length pre)) in
    let* sl := rd (d_slices v) i in
    let* x := dslice_at sl j in
    let* s := rd (d_adj v) i in
    Ok (res + x * s)) (length pre) (length R) off = Ok (off + t).
Proof.
  induction 1 as [|q R i ix x t Hx Ha IH]; intros pre ini off H3 H4 Hall Hle; cbn [length for_up].
  - f_equal. lia.
  - assert (N : nth_error (pre ++ q :: R) (length pre) = Some q) by (rewrite nth_error_app2, Nat.sub_diag by lia; reflexivity).
    rewrite (rd_ok all _ i).
    2:{ replace (length pre - 0 + (length ini - length pre))%nat with (length ini) by lia.
        rewrite Hall, nth_error_app2, Nat.sub_diag by lia. reflexivity. }
    cbn [bind].
    rewrite (rd_ok _ _ (q3 q)) by (rewrite H3; apply map_nth_error; exact N). cbn [bind]. rewrite Hx. cbn [bind].
    rewrite (rd_ok _ _ (q4 q)) by (rewrite H4; apply map_nth_error; exact N). cbn [bind].
    specialize (IH (pre ++ [q]) (ini ++ [i]) (off + x * q4 q)).
    rewrite !app_length in IH. cbn [length] in IH.
    replace (length pre + 1)%nat with (S (length pre)) in IH by lia.
    replace (length ini + 1 - S (length pre))%nat with (length ini - length pre)%nat in IH by lia.
    rewrite IH; [f_equal; lia| | | |lia]; rewrite <- app_assoc; auto.
Qed.

Lemma adjust_element_ok v R ix t off : adds R ix t -> d_slices v = map q3 R -> d_adj v = map q4 R -> length (d_shape v) = length R ->
  forall extra, adjust_element v off (extra ++ ix) = Ok (off + t).
Proof.
  intros Ha H3 H4 Hn extra. pose proof (adds_length _ _ _ Ha) as Hl. unfold adjust_element.
  rewrite Hn, app_length. replace (length R - (length extra + length ix))%nat with 0%nat by lia.
  replace (length extra + length ix - length R)%nat with (length extra - @length quad [])%nat by (cbn [length]; lia).
  replace (length R - 0)%nat with (length R) by lia.
  apply (adjust_loop v (extra ++ ix) R ix t Ha [] extra off); auto. cbn. lia.
Qed.

Lemma pad_extra n extra ix : length ix = n -> pad_args n (extra ++ ix) false = ix.
Proof.
  intros H. destruct extra as [|e extra]; [apply pad_args_full; auto|]. unfold pad_args.
  rewrite Nat.add_0_r, app_length. cbn [length]. destruct (n <? S (length extra) + length ix)%nat eqn:E; [|apply Nat.ltb_ge in E; lia].
  replace (S (length extra) + length ix - n)%nat with (length (e :: extra)) by (cbn [length]; lia).
  rewrite skipn_app, skipn_all, Nat.sub_diag. cbn [skipn app]. rewrite H, Nat.sub_diag. cbn [repeat]. apply app_nil_r.
Qed.

Lemma dynamic_view_lemma : forall (T : layout) (e : xexp) (ss : list item) (junk junk' : list Z),
  T = row_major \/ T = column_major -> wf_exp e -> (ellipses ss <= 1)%nat ->
  valid true (expand (length (x_shape e)) ss) (x_shape e) -> plain_ints (expand (length (x_shape e)) ss) ->
  exists v, dynamic_view T e ss junk junk' = Ok v /\
    view_shape (expand (length (x_shape e)) ss) (x_shape e) (d_shape v) /\ is_shape (d_shape v) /\
    length (d_slices v) = length (d_shape v) /\
    forall ix, in_bounds (d_shape v) ix ->
      exists jx, source_index (expand (length (x_shape e)) ss) (x_shape e) ix jx /\
        in_bounds (x_shape e) jx /\ d_reads v ix (x_elem e jx).
Proof.
  intros T e ss junk junk' HT He Hel Hv Hp. unfold dynamic_view. rewrite get_strides_ok by auto. cbn [bind].
  pose proof (src_strides_length T e He) as Hsl.
  destruct (dfill_args_ok (x_shape e) (src_strides T e) (get_offset e) (x_layout e) ss junk junk' Hsl Hel Hv)
    as (d & Q & sh' & st' & l' & Hf & F).
  rewrite Hf. cbn zeta. cbn [bind]. destruct (dfilled_index _ _ _ _ _ _ _ F Hsl (proj1 He) Hv Hp) as (I1 & I2 & I3).
  set (R := Q ++ whole sh' st') in *.
  rewrite make_view_ok by (rewrite !map_length; reflexivity). cbn [bind].
  eexists. split; [reflexivity|]. unfold d_shape at 1 2 3 4. cbn [d_base w_shape d_slices].
  split; [exact I1|]. split; [exact I2|]. split; [rewrite !map_length; reflexivity|].
  intros ix Hi. destruct (I3 ix Hi) as (jx & t & J1 & J2 & J3 & J4). exists jx. split; [exact J1|]. split; [exact J2|].
  pose proof (in_bounds_length _ _ Hi) as Hil. rewrite map_length in Hil.
  match goal with |- d_reads ?v _ _ => set (V := v) end.
  assert (HS : forall p, p = get_offset e + d + dot ix (adapted (map q1 R) (map q2 R)) + t -> d_storage V p = Ok (x_elem e jx)).
  { intros p ->. unfold d_storage, V. cbn [d_base w_flat w_base]. apply (storage_elem T e jx); auto.
    rewrite dot_adapted by (rewrite ?map_length; auto). lia. }
  assert (Hlen : length (w_strides (d_base V)) = length ix).
  { unfold V. cbn [d_base w_strides]. rewrite adapted_length, map_length. lia. }
  assert (HR : length (d_shape V) = length R) by (unfold V, d_shape; cbn [d_base w_shape]; apply map_length).
  intros extra. split.
  - unfold d_element. rewrite (adjust_element_ok V R ix t _ J3 eq_refl eq_refl HR). cbn [bind]. apply HS.
    rewrite element_offset_pad, pad_extra by auto. reflexivity.
  - intros N. unfold d_call. destruct (extra ++ ix) as [|x l] eqn:E; [congruence|]. rewrite <- E.
    rewrite data_offset_ok. cbn [bind]. rewrite (adjust_offset_ok V R ix t _ J3 eq_refl eq_refl HR). cbn [bind]. apply HS.
    rewrite pad_extra by auto. reflexivity.
Qed.

Lemma dynamic_view_throws_lemma : forall (T : layout) (e : xexp) (ss : list item) (junk junk' : list Z),
  T = row_major \/ T = column_major -> wf_exp e ->
  (2 <= ellipses ss)%nat \/ (length (x_shape e) < consumed ss)%nat ->
  dynamic_view T e ss junk junk' = Throw runtime_error.
Proof.
  intros T e ss junk junk' HT He H. unfold dynamic_view.
  rewrite get_strides_ok by auto. cbn [bind]. unfold dfill_args.
  destruct (le_lt_dec 2 (ellipses ss)) as [L|L].
  - rewrite count_two by lia. reflexivity.
  - rewrite count_loop by lia. cbn [bind].
    destruct (Z.of_nat (length (x_shape e)) - Z.of_nat (consumed ss) <? 0) eqn:E; [reflexivity|].
    apply Z.ltb_ge in E. lia.
Qed.

Lemma view_shape_nil us sh z : view_shape us sh z -> z = [] -> forall w, view_shape us sh w -> w = [].
Proof.
  induction 1; intros E w V; try discriminate.
  - inversion V; subst. auto.
  - inversion V; subst. auto.
Qed.

Lemma scalar_lemma : forall (T : layout) (e : xexp) (ss : list item) (junk junk' : list Z),
  T = row_major \/ T = column_major -> wf_exp e -> (ellipses ss <= 1)%nat ->
  valid true (expand (length (x_shape e)) ss) (x_shape e) -> plain_ints (expand (length (x_shape e)) ss) ->
  view_shape (expand (length (x_shape e)) ss) (x_shape e) [] ->
  exists v, dynamic_view T e ss junk junk' = Ok v /\ d_call v [] = UB /\
    exists jx, source_index (expand (length (x_shape e)) ss) (x_shape e) [] jx /\ d_element v [] = Ok (x_elem e jx).
Proof.
  intros T e ss junk junk' HT He Hel Hv Hp Hs.
  destruct (dynamic_view_lemma T e ss junk junk' HT He Hel Hv Hp) as (v & E & V & _ & L & R). exists v. split; [exact E|].
  assert (N : d_shape v = []).
  { exact (view_shape_nil _ _ _ Hs eq_refl _ V). }
  rewrite N in L. split.
  - unfold d_call, d_data_offset. destruct (d_slices v); [reflexivity|discriminate].
  - destruct (R [] ltac:(rewrite N; constructor)) as (jx & J1 & _ & J2). exists jx. split; [exact J1|]. apply (J2 []).
Qed.

Ltac slices_ok := repeat first [apply va_keep; [reflexivity|repeat constructor; lia|] | apply va_all | apply va_int; [lia|] | apply va_rest].

Lemma unchecked_lemma : exists (e : xexp) (ss : list item) (v : dview),
  wf_exp e /\ ellipses ss = 0%nat /\ valid true (expand (length (x_shape e)) ss) (x_shape e) /\
  dynamic_view row_major e ss [] [] = Ok v /\ in_bounds (d_shape v) [1; 1] /\
  d_call v [1; 1] = Ok (x_elem e [1; 1]) /\ d_unchecked v 1 [1] = Ok (x_elem e [0; 1]).
Proof.
  exists (mk_xexp true [2; 3] [3; 1] 0 row_major), [Pick UAll; Pick UAll]. eexists.
  split; [split; [repeat constructor; lia|reflexivity]|]. split; [reflexivity|]. split; [slices_ok|].
  split; [vm_compute; reflexivity|]. split; [repeat constructor; lia|]. split; vm_compute; reflexivity.
Qed.

Lemma missing_args_lemma : exists (e : xexp) (ss : list item) (v : dview),
  wf_exp e /\ ellipses ss = 0%nat /\ valid true (expand (length (x_shape e)) ss) (x_shape e) /\
  dynamic_view row_major e ss [] [] = Ok v /\ in_bounds (d_shape v) [0; 1] /\
  d_call v [0; 1] = Ok (x_elem e [2; 1]) /\ d_call v [1] = Ok (x_elem e [0; 1]) /\ d_element v [1] = Ok (x_elem e [0; 1]).
Proof.
  exists (mk_xexp true [3; 3] [3; 1] 0 row_major), [Pick (UKeep [2; 0]); Pick UAll]. eexists.
  split; [split; [repeat constructor; lia|reflexivity]|]. split; [reflexivity|]. split; [slices_ok|].
  split; [vm_compute; reflexivity|]. split; [repeat constructor; lia|]. repeat split; vm_compute; reflexivity.
Qed.

Lemma flat_lemma : exists (e : xexp) (ss : list item) (v : dview),
  wf_exp e /\ ellipses ss = 0%nat /\ valid true (expand (length (x_shape e)) ss) (x_shape e) /\
  dynamic_view row_major e ss [] [] = Ok v /\ in_bounds (d_shape v) [0; 0] /\
  d_call v [0; 0] = Ok (Slot 5) /\ d_data_offset v = Ok 3 /\ d_flat v 0 = Ok (Slot 3).
Proof.
  exists (mk_xexp true [2; 3] [3; 1] 0 row_major), [Pick (UKeep [1; 0]); Pick (UKeep [2; 0])]. eexists.
  split; [split; [repeat constructor; lia|reflexivity]|]. split; [reflexivity|]. split; [slices_ok|].
  split; [vm_compute; reflexivity|]. split; [repeat constructor; lia|]. repeat split; vm_compute; reflexivity.
Qed.

Lemma negative_lemma : exists (e : xexp) (ss : list item) (v : dview),
  wf_exp e /\ ellipses ss = 0%nat /\ valid true (expand (length (x_shape e)) ss) (x_shape e) /\
  dynamic_view row_major e ss [] [] = Ok v /\ in_bounds (d_shape v) [0] /\
  source_index (expand (length (x_shape e)) ss) (x_shape e) [0] [1; 0] /\ x_elem e [1; 0] = Slot 3 /\
  d_call v [0] = Ok (Slot (-3)).
Proof.
  exists (mk_xexp true [2; 3] [3; 1] 0 row_major), [Pick (UInt (-1))]. eexists.
  split; [split; [repeat constructor; lia|reflexivity]|]. split; [reflexivity|]. split; [slices_ok|].
  split; [vm_compute; reflexivity|]. split; [repeat constructor; lia|].
  split; [apply (si_int (-1) 2), si_rest|]. split; vm_compute; reflexivity.
Qed.
