(** The end position of xview_stepper. *)
From Coq Require Import List ZArith Bool Lia.
From Verif Require Import Prelude PreludeFacts Strides_Model Strides_Spec Strides_Proofs Slice_Model Slice_Spec
  SView_Model XView_Model XView_Proofs Stepper_Model Stepper_Spec Stepper_Proofs Stepper2_Proofs Stepper3_Proofs Stepper4_Proofs
  StepGen_Proofs VStep_Model VStep_Spec VStep_Proofs VStep2_Proofs VStep3_Proofs.
Import ListNotations.
Open Scope Z_scope.

Lemma endx_row_cons d sh : endx row_major (d :: sh) = (match sh with [] => d | _ => d - 1 end) :: endx row_major sh.
Proof.
  destruct (exists_last (l := d :: sh)) as (s & x & E); [discriminate|]. rewrite E, endx_row_app.
  destruct s as [|y s]; cbn in E.
  - injection E as -> ->. reflexivity.
  - injection E as -> ->. rewrite endx_row_app. cbn. destruct (s ++ [x]) eqn:E2; [destruct s; discriminate|]. reflexivity.
Qed.

Lemma unit_end_pos s : unit_end s = true -> 0 < slice_size s -> spos s (slice_size s) = spos s (slice_size s - 1) + 1.
Proof.
  intros H Hp. destruct s; cbn [unit_end slice_size spos] in *; try discriminate; try lia.
  - apply negb_true_iff, Z.eqb_neq in H. destruct (Nat.eqb_spec (length indices) 1); [lia|].
    rewrite Z.ltb_irrefl. destruct (Z.ltb_spec (Z.of_nat (length indices) - 1) (Z.of_nat (length indices))); [|lia].
    rewrite Z.sub_diag, Z.add_0_r. do 3 f_equal. lia.
  - rewrite Z.max_l, Z.ltb_irrefl by lia. destruct (Z.ltb_spec (size - 1) size); lia.
Qed.
Lemma unit_end_axis s : unit_end s = true -> axis_slice s.
Proof. destruct s; intros H; try discriminate; split; reflexivity. Qed.

Lemma lfl_axis s t esh : is_newaxis s = false ->
  last_from_last (s :: t) esh = match t, tl esh with [], [] => unit_end s | _, _ => last_from_last t (tl esh) end.
Proof. destruct s; intros H; try discriminate; reflexivity. Qed.

Lemma lfl_ne : forall ss esh, (length ss - newaxis_count ss <= length esh)%nat -> last_from_last ss esh = true ->
  shp ss esh <> [].
Proof.
  induction ss as [|s t IH]; intros esh Hc H.
  - cbn in *. destruct esh; discriminate.
  - rewrite nc_cons in Hc. cbn [length] in Hc. pose proof (ic_nc_len t).
    destruct (slice_cases s) as [A|[ -> |(v & ->)]].
    + rewrite shp_axis by exact A. discriminate.
    + discriminate.
    + cbn [is_newaxis] in Hc. rewrite lfl_axis in H by reflexivity. cbn [shp]. destruct esh as [|d esh]; [cbn [length] in Hc; lia|].
      cbn [tl length] in *. destruct t as [|s' t].
      { destruct esh; [discriminate|]. apply (IH (z :: esh)); [cbn; lia|exact H]. }
      apply IH; [lia|exact H].
Qed.

Lemma etgt_last : forall ss esh, (length ss - newaxis_count ss <= length esh)%nat ->
  etgt ss (map (fun d => d - 1) esh) esh = esrc ss (map (fun d => d - 1) (shp ss esh)).
Proof.
  induction ss as [|s t IH]; intros esh Hc; [reflexivity|].
  rewrite nc_cons in Hc. cbn [length etgt] in *. pose proof (ic_nc_len t).
  destruct (slice_cases s) as [A|[ -> |(v & ->)]].
  - rewrite shp_axis, esrc_axis by exact A. destruct A as [A1 A2]. rewrite A2 in *. destruct esh as [|d esh]; [cbn [length] in Hc; lia|].
    cbn [map hd tl length] in *. rewrite IH by lia. f_equal. ring.
  - cbn [is_newaxis shp map esrc tl] in *. apply IH. lia.
  - cbn [is_newaxis shp esrc] in *. destruct esh as [|d esh]; [cbn [length] in Hc; lia|].
    cbn [map hd tl length spos] in *. rewrite IH by lia. f_equal. ring.
Qed.

Lemma etgt_row : forall ss esh, (length ss - newaxis_count ss <= length esh)%nat ->
  Forall (fun d => 0 < d) (shp ss esh) -> last_from_last ss esh = true ->
  etgt ss (endx row_major esh) esh = esrc ss (endx row_major (shp ss esh)).
Proof.
  induction ss as [|s t IH]; intros esh Hc Hp H; [reflexivity|].
  assert (HN : forall u e', (length u - newaxis_count u <= length e')%nat -> last_from_last u e' = true -> shp u e' <> []) by exact lfl_ne.
  rewrite nc_cons in Hc. cbn [length etgt] in *. pose proof (ic_nc_len t).
  destruct (slice_cases s) as [A|[ -> |(v & ->)]].
  - rewrite shp_axis in * by exact A. rewrite esrc_axis by exact A. inversion Hp as [|? ? P1 P2]; subst.
    destruct A as [A1 A2]. rewrite A2 in *. destruct esh as [|d esh]; [cbn [length] in Hc; lia|].
    rewrite lfl_axis in H by exact A2. rewrite !endx_row_cons. cbn [hd tl length] in *.
    destruct esh as [|d' esh].
    + destruct t as [|s' t].
      * cbn [shp etgt esrc]. f_equal. rewrite (unit_end_pos _ H P1). ring.
      * assert (shp (s' :: t) [] <> []) as NE by (apply HN; [cbn [length] in *; lia|exact H]).
        exfalso. clear -H Hc NE H0. assert (G : forall u : list slice, (length u - newaxis_count u <= 0)%nat -> last_from_last u [] = false).
        { clear. induction u as [|s u IH]; intros H; [reflexivity|]. rewrite nc_cons in H. cbn [length] in H. pose proof (ic_nc_len u).
          destruct s; cbn [is_newaxis] in H; try lia. cbn [last_from_last]. apply IH. lia. }
        rewrite G in H; [discriminate|]. cbn [length] in *. lia.
    + assert (H' : last_from_last t (d' :: esh) = true) by (destruct t; exact H).
      rewrite IH by (auto; cbn [length] in *; lia). specialize (HN t (d' :: esh) ltac:(cbn [length] in *; lia) H').
      destruct (shp t (d' :: esh)) as [|q r] eqn:Er; [congruence|]. f_equal. ring.
  - cbn [is_newaxis shp esrc] in *. inversion Hp as [|? ? P1 P2]; subst. rewrite endx_row_cons. cbn [tl].
    apply IH; auto. lia.
  - cbn [is_newaxis shp esrc] in *. destruct esh as [|d esh]; [cbn [length] in Hc; lia|].
    rewrite lfl_axis in H by reflexivity. rewrite endx_row_cons. cbn [hd tl length spos] in *.
    destruct esh as [|d' esh].
    { destruct t as [|s' t]; [discriminate|]. exfalso.
      assert (G : forall u : list slice, (length u - newaxis_count u <= 0)%nat -> last_from_last u [] = false).
      { clear. induction u as [|s u IH]; intros H; [reflexivity|]. rewrite nc_cons in H. cbn [length] in H. pose proof (ic_nc_len u).
        destruct s; cbn [is_newaxis] in H; try lia. cbn [last_from_last]. apply IH. lia. }
      rewrite G in H; [discriminate|]. cbn [length] in *. lia. }
    assert (H' : last_from_last t (d' :: esh) = true) by (destruct t; exact H).
    rewrite IH by (auto; cbn [length] in *; lia). f_equal. ring.
Qed.

Lemma etgt_col : forall ss esh, (length ss - newaxis_count ss <= length esh)%nat ->
  Forall (fun d => 0 < d) (shp ss esh) -> match ss with [] => true | s :: _ => unit_end s end = true ->
  etgt ss (endx column_major esh) esh = esrc ss (endx column_major (shp ss esh)).
Proof.
  intros [|s t] esh Hc Hp H; [reflexivity|]. pose proof (unit_end_axis _ H) as A.
  rewrite nc_cons in Hc. pose proof (ic_nc_len t). rewrite shp_axis in * by exact A. rewrite esrc_axis by exact A.
  inversion Hp as [|? ? P1 P2]; subst. destruct A as [A1 A2]. rewrite A2 in Hc. destruct esh as [|d esh]; [cbn [length] in Hc; lia|].
  cbn [etgt]. rewrite A2. cbn [endx col_endx hd tl length] in *. rewrite etgt_last by lia. rewrite (unit_end_pos _ H P1). f_equal. ring.
Qed.

(** ** The keeper *)
Lemma no_int_skip : forall ss, no_int_before ss = true -> forall k s, nth_error ss (integral_skip ss k) = Some s ->
  sensitive s = true -> integral_skip ss k = k.
Proof.
  induction ss as [|s0 t IH]; intros H k s Hs Hse; [destruct k; reflexivity|].
  destruct (is_integral s0) eqn:E0.
  - destruct s0; try discriminate. cbn [no_int_before integral_skip is_integral nth_error] in *.
    rewrite forallb_forall in H. specialize (H s (nth_error_In _ _ Hs)). rewrite Hse in H. discriminate.
  - assert (H' : no_int_before t = true) by (destruct s0; try discriminate; exact H).
    cbn [integral_skip] in *. rewrite E0 in *. destruct k as [|k]; [reflexivity|]. cbn [nth_error] in Hs.
    f_equal. eapply IH; eauto.
Qed.

Lemma las_spec ss : forall n, (n <= length ss)%nat ->
  match last_axis_slice ss n with
  | Some i => (i < n)%nat /\ exists s, nth_error ss i = Some s /\ is_newaxis s = false /\
      forall j s', (i < j < n)%nat -> nth_error ss j = Some s' -> is_newaxis s' = true
  | None => forall j s', (j < n)%nat -> nth_error ss j = Some s' -> is_newaxis s' = true
  end.
Proof.
  induction n as [|n IH]; intros Hn; cbn [last_axis_slice]; [intros; lia|].
  rewrite nas_ok. destruct (nth_error ss n) as [s|] eqn:Es; [|apply nth_error_None in Es; lia].
  destruct (is_newaxis s) eqn:En.
  - specialize (IH ltac:(lia)). destruct (last_axis_slice ss n) as [i|].
    + destruct IH as (H1 & s1 & H2 & H3 & H4). split; [lia|]. exists s1. split; [exact H2|]. split; [exact H3|].
      intros j s' Hj Hs'. destruct (Nat.eq_dec j n) as [->|]; [congruence|]. eapply H4; eauto. lia.
    + intros j s' Hj Hs'. destruct (Nat.eq_dec j n) as [->|]; [congruence|]. eapply IH; eauto. lia.
  - split; [lia|]. exists s. split; [exact Es|]. split; [exact En|]. intros. lia.
Qed.

Definition axes (ss : list slice) : list slice :=
  filter (fun s => match s with SNewaxis => false | _ => true end) ss.
Lemma axes_len ss : (length (axes ss) + newaxis_count ss = length ss)%nat.
Proof.
  induction ss as [|s t IH]; [reflexivity|]. rewrite nc_cons. unfold axes in *. cbn [filter length]. destruct s; cbn [is_newaxis length]; lia.
Qed.
Lemma axes_last ss : forall i s, nth_error ss i = Some s -> is_newaxis s = false ->
  (forall j s', (i < j)%nat -> nth_error ss j = Some s' -> is_newaxis s' = true) ->
  exists r, rev (axes ss) = s :: r.
Proof.
  intros i s Hs Hn HJ. apply nth_error_split in Hs. destruct Hs as (a & b & -> & <-).
  unfold axes. rewrite filter_app. cbn [filter].
  assert (E : filter (fun s => match s with SNewaxis => false | _ => true end) b = []).
  { assert (G : forall j s', nth_error b j = Some s' -> is_newaxis s' = true).
    { intros j s' Hj. apply (HJ (length a + 1 + j)%nat); [lia|]. rewrite nth_error_app2 by lia.
      replace (length a + 1 + j - length a)%nat with (S j) by lia. exact Hj. }
    clear -G. induction b as [|x b IH]; [reflexivity|]. pose proof (G 0%nat x eq_refl) as G0. destruct x; try discriminate.
    cbn. apply IH. intros j s' Hj. exact (G (S j) s' Hj). }
  rewrite E. rewrite rev_app_distr. destruct s; try discriminate; cbn; eauto.
Qed.

(** Without trailing axes, the last slice makes the last axis. *)
Lemma lfl_last : forall ss esh, last_from_last ss esh = true -> (length ss - newaxis_count ss = length esh)%nat ->
  exists s, nth_error ss (length ss - 1) = Some s /\ unit_end s = true /\ ss <> [].
Proof.
  induction ss as [|s t IH]; intros esh H Hc; [destruct esh; discriminate|].
  rewrite nc_cons in Hc. cbn [length] in *. pose proof (ic_nc_len t). replace (S (length t) - 1)%nat with (length t) by lia.
  destruct (is_newaxis s) eqn:En.
  - destruct s; try discriminate. cbn [last_from_last] in H. destruct (IH esh H) as (s' & E & U & NE); [lia|].
    exists s'. split; [|split; [exact U|discriminate]]. destruct t as [|x t]; [congruence|]. cbn [length nth_error] in *.
    rewrite <- E. f_equal. lia.
  - rewrite lfl_axis in H by exact En. destruct esh as [|d esh]; [cbn [length] in Hc; lia|]. cbn [tl length] in *.
    destruct t as [|x t].
    + destruct esh; [|cbn in *; lia]. exists s. split; [reflexivity|]. split; [exact H|discriminate].
    + destruct (IH esh H) as (s' & E & U & _); [lia|]. exists s'. split; [|split; [exact U|discriminate]].
      cbn [length nth_error] in *. rewrite <- E. f_equal. lia.
Qed.

Lemma nth_endx_row : forall sh k, (k < length sh)%nat ->
  nth k (endx row_major sh) 0 = nth k sh 0 - (if (S k =? length sh)%nat then 0 else 1).
Proof.
  induction sh as [|d sh IH]; intros k Hk; [cbn in Hk; lia|]. rewrite endx_row_cons. destruct k as [|k].
  - cbn [nth]. destruct sh; cbn; lia.
  - cbn [nth]. rewrite IH by (cbn in Hk; lia). reflexivity.
Qed.
Lemma nth_endx_col : forall sh k, (k < length sh)%nat ->
  nth k (endx column_major sh) 0 = nth k sh 0 - (if (k =? 0)%nat then 0 else 1).
Proof.
  intros [|d sh] k Hk; [cbn in Hk; lia|]. destruct k as [|k]; cbn [endx col_endx nth Nat.eqb]; [lia|].
  rewrite (nth_indep _ 0 (0 - 1)) by (rewrite map_length; cbn in Hk; lia). rewrite (map_nth (fun e => e - 1)). reflexivity.
Qed.
Lemma endx_len l sh : l = row_major \/ l = column_major -> length (endx l sh) = length sh.
Proof.
  intros [ -> | -> ].
  - induction sh as [|d sh IH]; [reflexivity|]. rewrite endx_row_cons. cbn [length]. lia.
  - destruct sh; cbn; [reflexivity|]. rewrite map_length. reflexivity.
Qed.

Lemma iskip_onto : forall t i s, nth_error t i = Some s -> is_integral s = false -> exists j, integral_skip t j = i.
Proof.
  induction t as [|s0 t IH]; intros [|i] s H Hn; try discriminate.
  - injection H as ->. exists 0%nat. cbn. rewrite Hn. reflexivity.
  - cbn [nth_error] in H. destruct (IH i s H Hn) as (j & Hj). cbn [integral_skip]. destruct (is_integral s0).
    + exists j. congruence.
    + exists (S j). congruence.
Qed.
Lemma iskip_mono : forall t a b, (a < b)%nat -> (integral_skip t a < integral_skip t b)%nat.
Proof.
  induction t as [|s0 t IH]; intros a b Hab; [exact Hab|]. cbn [integral_skip]. destruct (is_integral s0).
  - specialize (IH a b Hab). lia.
  - destruct a, b; try lia. specialize (IH a b ltac:(lia)). lia.
Qed.

Section Laws.
Context {V : Type} (e : sexp V) (esh : list Z) (ss : list slice) (l : layout).
Hypothesis Hok : operands_ok esh e.
Hypothesis Hcount : (length ss - newaxis_count ss <= length esh)%nat.
Hypothesis Hl : l = row_major \/ l = column_major.
Hypothesis Hlast : Forall slast ss.
Notation vsh := (shp ss esh).
Notation ops := (vs_ops (x_ops esh e) esh ss vsh 0).

Definition vend (st : vst sstate) : Prop :=
  x_shaped e (vt_it st) /\ length (vt_keep st) = length ss /\
  (Forall (fun d => 0 < d) vsh -> vsh <> [] -> reversible l e -> reverse_ok l ss esh = true -> vat e esh ss (endx l vsh) st).

Lemma keep_end (i0 : option nat) keep :
  length keep = length ss ->
  (forall i s, nth_error ss i = Some s -> is_newaxis s = false -> nth i keep 0 = slice_size s - 1) ->
  i0 = (match l with row_major => last_axis_slice ss (length ss) | _ => first_axis_slice ss end) ->
  reverse_ok l ss esh = true ->
  forall k s, (k < length vsh)%nat -> nth_error ss (integral_skip ss k) = Some s -> sensitive s = true ->
    nth k (match i0 with Some i => upd keep i (nth i keep 0 + 1) | None => keep end) 0 = nth k (endx l vsh) 0.
Proof.
  intros HK Hkeep Hi0 HR k s Hk Hs Hse. unfold reverse_ok in HR. apply andb_prop in HR. destruct HR as [HR1 HR2].
  pose proof (no_int_skip ss HR1 k s Hs Hse) as Ek. pose proof Hs as Hs2. rewrite Ek in Hs2.
  assert (Hks : (k < length ss)%nat) by (apply nth_error_Some; congruence).
  pose proof (vsh_size esh ss Hcount k s Hk Hs) as Hv. pose proof (sens_axis s Hse) as Hna.
  pose proof (Hkeep k s Hs2 Hna) as Hkk.
  assert (Hkl : (k < length ss - integral_count ss)%nat) by (apply iskip_lt; lia).
  pose proof (shp_len ss esh Hcount) as HL. pose proof (ic_nc_len ss) as HIN.
  destruct Hl as [El|El]; rewrite El in *.
  - rewrite nth_endx_row by exact Hk. apply andb_prop in HR2. destruct HR2 as [HR2 HR3]. fold (axes ss) in HR3.
    cbv zeta in HR3. pose proof (axes_len ss) as HA. pose proof (las_spec ss (length ss) (le_n _)) as LS. rewrite <- Hi0 in LS.
    destruct (Nat.leb_spec (length esh) (length (axes ss))) as [Hle|Hlt].
    + destruct (lfl_last ss esh HR2) as (sl & El1 & El2 & El3); [lia|].
      pose proof (unit_end_axis sl El2) as [A1 A2].
      destruct i0 as [i|]; [|exfalso; specialize (LS (length ss - 1)%nat sl ltac:(lia) El1); congruence].
      destruct LS as (L1 & s1 & L2 & L3 & L4).
      assert (i = (length ss - 1)%nat) as ->.
      { destruct (Nat.eq_dec i (length ss - 1)%nat); [auto|]. specialize (L4 (length ss - 1)%nat sl ltac:(lia) El1). congruence. }
      destruct (Nat.eq_dec k (length ss - 1)%nat) as [E|E].
      * rewrite E, nth_upd_same by lia. rewrite <- E, Hkk. destruct (Nat.eqb_spec (S k) (length vsh)); lia.
      * rewrite nth_upd_other by auto. rewrite Hkk. destruct (Nat.eqb_spec (S k) (length vsh)) as [E2|E2]; [|lia].
        exfalso. pose proof (iskip_eq ss (S k)) as Q.
        (* the last slice is axis number length ss - 1 - (integers before it) *)
        destruct (iskip_onto ss _ _ El1 A1) as (j & Hj).
        assert (Hjl : (j < length ss - integral_count ss)%nat) by (apply iskip_lt; lia).
        assert (j = k) by (destruct (Nat.lt_ge_cases j k) as [Hjk|Hjk]; [pose proof (iskip_mono ss j k Hjk); lia|lia]).
        subst j. congruence.
    + cbn [orb] in HR3.
      assert (Hlast' : (S k =? length vsh)%nat = false) by (apply Nat.eqb_neq; lia). rewrite Hlast'.
      destruct i0 as [i|]; [|lia]. destruct LS as (L1 & s1 & L2 & L3 & L4).
      destruct (axes_last ss i s1 L2 L3) as (r & Er).
      { intros j s' Hj Hs'. eapply L4; eauto. split; [exact Hj|]. apply nth_error_Some. congruence. }
      rewrite Er in HR3. destruct (Nat.eq_dec k i) as [->|E].
      * assert (s1 = s) by congruence. subst. rewrite Hse in HR3. discriminate.
      * rewrite nth_upd_other by auto. lia.
  - rewrite nth_endx_col by exact Hk. destruct ss as [|s0 t] eqn:Ess; [destruct k; discriminate|].
    pose proof (unit_end_axis s0 HR2) as [A1 A2].
    assert (E0 : first_axis_slice (s0 :: t) = Some 0%nat).
    { unfold first_axis_slice. cbn [length seq find]. rewrite nas_ok. cbn [nth_error]. rewrite A2. reflexivity. }
    rewrite Hi0, E0. destruct (Nat.eq_dec k 0) as [->|E].
    + rewrite nth_upd_same by (cbn in *; lia). cbn [Nat.eqb]. lia.
    + rewrite nth_upd_other by auto. destruct (Nat.eqb_spec k 0); [congruence|]. lia.
Qed.

Lemma end_impl_ok it keep : length keep = length ss -> x_endst esh l e it ->
  exists st, vs_to_end_impl (x_ops esh e) esh ss l (mk_vst it keep) = Ok st /\ vend st.
Proof.
  intros HK [Hsh Hat]. unfold vs_to_end_impl.
  destruct (end_loop e esh ss Hok (esh <> [] /\ reversible l e) ss [] [] (endx l esh) [] esh it keep)
    as (it' & keep' & E & R1 & R2 & R3 & _ & R5); auto.
  - destruct ss; reflexivity.
  - rewrite endx_len by exact Hl. exact Hcount.
  - cbn. apply endx_len. exact Hl.
  - intros [H1 H2]. auto.
  - cbn [length] in E. rewrite E. cbn [bind vt_keep vt_it]. cbn [app length Nat.add] in *.
    set (i0 := match l with row_major => last_axis_slice ss (length ss) | _ => first_axis_slice ss end).
    assert (Hin : forall i, i0 = Some i -> (i < length ss)%nat).
    { intros i Hi. unfold i0 in Hi. destruct Hl as [El|El]; rewrite El in Hi.
      - pose proof (las_spec ss (length ss) (le_n _)) as LS. rewrite Hi in LS. apply LS.
      - apply find_some in Hi. destruct Hi as [Hi _]. apply in_seq in Hi. lia. }
    assert (G : (match l with
       | row_major | column_major => match i0 with
          | Some i => let* k := rd keep' i in let* keep := wr keep' i (k + 1) in Ok (mk_vst it' keep)
          | None => Ok (mk_vst it' keep') end
       | _ => Throw runtime_error end) = Ok (mk_vst it' (match i0 with Some i => upd keep' i (nth i keep' 0 + 1) | None => keep' end))).
    { transitivity (match i0 with
          | Some i => let* k := rd keep' i in let* keep := wr keep' i (k + 1) in Ok (mk_vst it' keep)
          | None => Ok (mk_vst it' keep') end); [destruct Hl as [El|El]; rewrite El; reflexivity|].
      destruct i0 as [i|]; [|reflexivity]. specialize (Hin i eq_refl). rewrite (rd_nth 0) by lia. cbn [bind].
      rewrite wr_ok by lia. reflexivity. }
    exists (mk_vst it' (match i0 with Some i => upd keep' i (nth i keep' 0 + 1) | None => keep' end)).
    split; [exact G|]. split; [exact R1|]. cbn [vt_it vt_keep].
    assert (HK' : length (match i0 with Some i => upd keep' i (nth i keep' 0 + 1) | None => keep' end) = length ss)
      by (destruct i0; [rewrite upd_length|]; exact R3).
    split; [exact HK'|]. intros Hpos Hne Hrev HR. split; [apply endx_len; exact Hl|]. cbn [vt_it vt_keep].
    split; [|split; [exact HK'|apply keep_end; auto]].
    assert (Hesh : esh <> []).
    { intros ->. unfold reverse_ok in HR. apply andb_prop in HR. destruct HR as [_ HR].
      assert (Z0 : (length ss - newaxis_count ss = 0)%nat) by (cbn in Hcount; lia).
      assert (forall s, In s ss -> is_newaxis s = true) as AN.
      { clear -Z0. induction ss as [|s t IH]; intros s' Hin; [contradiction|]. rewrite nc_cons in Z0. cbn [length] in Z0.
        pose proof (ic_nc_len t). destruct (is_newaxis s) eqn:En; [|lia]. destruct Hin as [ <- |Hin]; [exact En|]. apply IH; auto. lia. }
      destruct Hl as [El|El]; rewrite El in HR.
      - apply andb_prop in HR. destruct HR as [HR _]. clear -HR AN. induction ss as [|s t IH]; [discriminate|].
        pose proof (AN s (or_introl eq_refl)). destruct s; try discriminate. apply IH; [exact HR|]. intros s' Hs. apply AN. right. exact Hs.
      - destruct ss as [|s t]; [cbn in Hne; congruence|]. pose proof (AN s (or_introl eq_refl)). destruct s; discriminate. }
    specialize (R2 (conj Hesh Hrev)).
    assert (ET : etgt ss (endx l esh) esh = esrc ss (endx l vsh)).
    { unfold reverse_ok in HR. apply andb_prop in HR. destruct HR as [_ HR]. destruct Hl as [El|El]; rewrite El in *.
      - apply andb_prop in HR. destruct HR as [HR _]. apply etgt_row; auto.
      - apply etgt_col; auto. }
    rewrite ET in R2. exact R2.
Qed.

Lemma view_laws : vsh <> [] -> Forall (fun d => 0 < d) vsh -> wlaws ops l vsh (vat e esh ss) vend.
Proof.
  intros Hne Hpos. split.
  - intros pre x post n d st Hd Hb Hn Hx Ha.
    assert (Hk : (length pre < length vsh)%nat) by (apply nth_error_Some; congruence).
    pose proof (nth_error_nth _ _ 0 Hd) as Ed.
    pose proof (in_bounds_nth _ _ (length pre) Hb Hk) as HB.
    destruct (vstep_ok e esh ss Hok Hcount (pre ++ x :: post) (length pre) n st) as (st' & Es & Ha'); auto; rewrite ?nth_mid in *; try lia.
    rewrite upd_mid in Ha'. eauto.
  - intros pre x post n st Hb Hn Ha.
    assert (Hk : (length pre < length vsh)%nat).
    { destruct Ha as [HL _]. rewrite app_length in HL. cbn [length] in HL. lia. }
    destruct (vback_ok e esh ss Hok Hcount (pre ++ x :: post) (length pre) n st) as (st' & Es & Ha'); auto; rewrite ?nth_mid; try lia.
    + destruct Hb as [Hb|[Hn0 Hb]].
      * pose proof (in_bounds_nth _ _ (length pre) Hb Hk) as HB. rewrite nth_mid in HB. lia.
      * assert (x = nth (length pre) (endx l vsh) 0) as -> by (rewrite <- Hb, nth_mid; reflexivity).
        destruct Hl as [El|El]; rewrite El in *; rewrite ?nth_endx_row, ?nth_endx_col in * by exact Hk;
        [destruct (S (length pre) =? length vsh)%nat|destruct (length pre =? 0)%nat]; lia.
    + destruct Hb as [Hb|[Hn0 Hb]].
      * pose proof (in_bounds_nth _ _ (length pre) Hb Hk) as HB. rewrite nth_mid in HB. lia.
      * assert (x = nth (length pre) (endx l vsh) 0) as -> by (rewrite <- Hb, nth_mid; reflexivity).
        destruct Hl as [El|El]; rewrite El in *; rewrite ?nth_endx_row, ?nth_endx_col in * by exact Hk;
        [destruct (S (length pre) =? length vsh)%nat|destruct (length pre =? 0)%nat]; lia.
    + rewrite upd_mid, nth_mid in Ha'. eauto.
  - intros pre x post d st Hd Hb Hx Ha.
    assert (Hk : (length pre < length vsh)%nat) by (apply nth_error_Some; congruence).
    pose proof (nth_error_nth _ _ 0 Hd) as Ed. pose proof (in_bounds_nth _ _ (length pre) Hb Hk) as HB.
    destruct (vreset_ok e esh ss Hok Hcount (pre ++ x :: post) (length pre) st false) as (st' & Es & Ha'); auto; rewrite ?nth_mid in *; try lia.
    rewrite upd_mid in Ha'. eauto.
  - intros pre post d st Hd Hb Ha.
    assert (Hk : (length pre < length vsh)%nat) by (apply nth_error_Some; congruence).
    pose proof (nth_error_nth _ _ 0 Hd) as Ed. pose proof (in_bounds_nth _ _ (length pre) Hb Hk) as HB.
    destruct (vreset_ok e esh ss Hok Hcount (pre ++ 0 :: post) (length pre) st true) as (st' & Es & Ha'); auto; rewrite ?nth_mid in *; try lia.
    rewrite upd_mid, Ed in Ha'. eauto.
  - intros E. congruence.
  - intros st (ix & HL & Hat & HK & _).
    destruct (l_end _ _ _ _ _ (x_laws l esh Hl e Hok) (vt_it st)) as (it & E & H).
    { eauto. }
    cbn [vs_ops s_to_end]. unfold vs_to_end. rewrite E. cbn [bind]. apply end_impl_ok; assumption.
Qed.

(** With a to_begin that goes to the state [b]. *)
Definition patch {S} (o : stepper_ops S) (b : S) : stepper_ops S :=
  mk_ops (s_step o) (s_step_back o) (s_reset o) (s_reset_back o) (fun _ => Ok b) (s_to_end o).

Lemma view_laws0 b : vat e esh ss (repeat 0 (length vsh)) b -> Forall (fun d => 0 < d) vsh ->
  wlaws (patch ops b) l vsh (vat e esh ss) vend.
Proof.
  intros Hb Hpos. destruct vsh as [|d0 sh0] eqn:Ev.
  - split; cbn [patch s_step s_step_back s_reset s_reset_back s_to_begin s_to_end].
    + intros pre x post n d st Hd. destruct (length pre); discriminate.
    + intros pre x post n st _ _ (HL & _). rewrite Ev, app_length in HL. cbn [length] in HL. lia.
    + intros pre x post d st Hd. destruct (length pre); discriminate.
    + intros pre post d st Hd. destruct (length pre); discriminate.
    + intros _ st _. eauto.
    + intros st (ix & HL & Hat & HK & _).
      destruct (l_end _ _ _ _ _ (x_laws l esh Hl e Hok) (vt_it st)) as (it & E & H).
      { eauto. }
      cbn [vs_ops s_to_end]. unfold vs_to_end. rewrite E. cbn [bind]. apply end_impl_ok; assumption.
  - rewrite <- Ev in *. destruct (view_laws ltac:(rewrite Ev; discriminate) Hpos) as [L1 L2 L3 L4 L5 L6].
    split; try assumption. intros _ st _. exists b. auto.
Qed.
End Laws.
