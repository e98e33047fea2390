(** Proofs about dynamic views: fill_args. *)
From Coq Require Import List ZArith Bool Lia.
From Verif Require Import Prelude PreludeFacts Strides_Model Strides_Spec Strides_Proofs Slice_Model Slice_Spec Slice_Proofs
  View_Spec SView_Model SView_Spec SView_Proofs SView2_Proofs SView3_Proofs DView_Model.
Import ListNotations.
Open Scope Z_scope.

(** One axis of the result: extent, stride, slice and its stride. *)
Definition quad := (Z * Z * dslice * Z)%type.
Definition q1 (q : quad) : Z := let '(n, _, _, _) := q in n.
Definition q2 (q : quad) : Z := let '(_, s, _, _) := q in s.
Definition q3 (q : quad) : dslice := let '(_, _, sl, _) := q in sl.
Definition q4 (q : quad) : Z := let '(_, _, _, a) := q in a.

(** The result: offset increment, new axes, axes left over. *)
Inductive dfilled : list user_slice -> list Z -> list Z -> Z -> list quad -> list Z -> list Z -> Prop :=
| df_nil sh st : dfilled [] sh st 0 [] sh st
| df_int i n s ss sh st d Q sh' st' : dfilled ss sh st d Q sh' st' ->
    dfilled (UInt i :: ss) (n :: sh) (s :: st) (i * s + d) Q sh' st'
| df_new j ss sh st d Q sh' st' : dfilled ss sh st d Q sh' st' ->
    dfilled (UNewaxis :: ss) sh st d ((1, j, DFake, 0) :: Q) sh' st'
| df_all n s ss sh st d Q sh' st' : dfilled ss sh st d Q sh' st' ->
    dfilled (UAll :: ss) (n :: sh) (s :: st) d ((n, s, DFake, 0) :: Q) sh' st'
| df_range a b c sl f t n s ss sh st d Q sh' st' :
    range_get a b c n = Ok sl -> slice_at sl 0 = Ok f -> slice_step sl 0 1 = Ok t ->
    dfilled ss sh st d Q sh' st' ->
    dfilled (URange a b c :: ss) (n :: sh) (s :: st) (f * s + d) ((slice_size sl, t * s, DFake, 0) :: Q) sh' st'
| df_list u ns n s ss sh st d Q sh' st' :
    (exists raw, u = UKeep raw \/ u = UDrop raw) -> resolve u n = Ok ns ->
    dfilled ss sh st d Q sh' st' ->
    dfilled (u :: ss) (n :: sh) (s :: st) d ((slice_size ns, 0, DReal ns, s) :: Q) sh' st'.

Fixpoint whole (sh st : list Z) : list quad :=
  match sh, st with n :: sh', s :: st' => (n, s, DFake, 0) :: whole sh' st' | _, _ => [] end.

Lemma whole_length sh : forall st, length st = length sh -> length (whole sh st) = length sh.
Proof. induction sh; intros [|s st] H; cbn in *; auto; try discriminate. Qed.

Lemma dfilled_all m : forall ss sh st d Q sh' st', (m <= length sh)%nat -> length st = length sh ->
  dfilled ss (skipn m sh) (skipn m st) d Q sh' st' ->
  dfilled (repeat UAll m ++ ss) sh st d (whole (firstn m sh) (firstn m st) ++ Q) sh' st'.
Proof.
  induction m; intros ss [|n sh] [|s st] d Q sh' st' Hm Hl H; simpl in *; try lia; auto.
  constructor. apply IHm; auto; lia.
Qed.

Lemma dfilled_len ss sh st d Q sh' st' : dfilled ss sh st d Q sh' st' -> length Q = vaxes ss.
Proof.
  induction 1 as [| | | | |u ns n s ss sh st d Q sh' st' (raw & [ -> | -> ]) H0 H1 IH]; unfold vaxes in *; simpl in *; lia.
Qed.

Section Fill.
Context (B1 B2 : list Z) (B3 : list dslice) (B4 : list Z) (dim : nat).
Hypothesis L1 : length B1 = dim.
Hypothesis L2 : length B2 = dim.
Hypothesis L3 : length B3 = dim.
Hypothesis L4 : length B4 = dim.

(** The arrays when the axes [Q] have been written. *)
Definition arrays (Q : list quad) : axes :=
  (map q1 Q ++ skipn (length Q) B1, map q2 Q ++ skipn (length Q) B2,
   map q3 Q ++ skipn (length Q) B3, map q4 Q ++ skipn (length Q) B4).

Lemma wr_next {A} (f : quad -> A) (B : list A) Q q x : (length Q < length B)%nat -> f q = x ->
  wr (map f Q ++ skipn (length Q) B) (length Q) x = Ok (map f (Q ++ [q]) ++ skipn (length (Q ++ [q])) B).
Proof.
  intros H <-. rewrite wr_ok by (rewrite app_length, map_length, skipn_length; lia). f_equal.
  rewrite upd_app_r by (rewrite map_length; lia). rewrite map_length, Nat.sub_diag.
  destruct (nth_error_lt_ex B (length Q) H) as (b & Hb). rewrite (skipn_cons_nth _ _ _ Hb). cbn [upd].
  rewrite map_app, <- app_assoc, app_length. cbn [map app length]. rewrite Nat.add_1_r. reflexivity.
Qed.

Lemma set_some Q n s sl a : (length Q < dim)%nat ->
  set_axis (length Q) n (Some s) sl a (arrays Q) = Ok (arrays (Q ++ [(n, s, sl, a)])).
Proof.
  intros H. unfold set_axis, arrays.
  rewrite (wr_next q1 B1 Q (n, s, sl, a)) by (auto; lia). cbn [bind].
  rewrite (wr_next q2 B2 Q (n, s, sl, a)) by (auto; lia). cbn [bind].
  rewrite (wr_next q3 B3 Q (n, s, sl, a)) by (auto; lia). cbn [bind].
  rewrite (wr_next q4 B4 Q (n, s, sl, a)) by (auto; lia). reflexivity.
Qed.

Lemma set_none Q n sl a : (length Q < dim)%nat ->
  exists s, set_axis (length Q) n None sl a (arrays Q) = Ok (arrays (Q ++ [(n, s, sl, a)])).
Proof.
  intros H. destruct (nth_error_lt_ex B2 (length Q) ltac:(lia)) as (s & Hs). exists s. unfold set_axis, arrays.
  rewrite (wr_next q1 B1 Q (n, s, sl, a)) by (auto; lia). cbn [bind].
  rewrite (wr_next q3 B3 Q (n, s, sl, a)) by (auto; lia). cbn [bind].
  rewrite (wr_next q4 B4 Q (n, s, sl, a)) by (auto; lia). cbn [bind]. do 4 f_equal.
  rewrite (skipn_cons_nth _ _ _ Hs), map_app, <- app_assoc, app_length. cbn [map app length]. rewrite Nat.add_1_r. reflexivity.
Qed.

Context (shape strides : list Z).
Hypothesis Hst : length strides = length shape.

Lemma copy_one c Q : (c < length shape)%nat -> (length Q < dim)%nat ->
  exists n s, nth_error shape c = Some n /\ nth_error strides c = Some s /\
    copy_whole shape strides c (length Q) (arrays Q) = Ok (arrays (Q ++ [(n, s, DFake, 0)])).
Proof.
  intros Hc HQ. destruct (nth_error_lt_ex shape c Hc) as (n & Hn).
  destruct (nth_error_lt_ex strides c ltac:(lia)) as (s & Hs). exists n, s. split; [exact Hn|]. split; [exact Hs|].
  unfold copy_whole. rewrite (rd_ok _ _ _ Hn). cbn [bind]. rewrite (rd_ok _ _ _ Hs). cbn [bind]. apply set_some. exact HQ.
Qed.

Lemma copy_many m : forall i Q, (i + m <= length shape)%nat -> (length Q + m <= dim)%nat ->
  for_up (fun j x => copy_whole shape strides (i + j) (length Q + j) x) 0 m (arrays Q) =
  Ok (arrays (Q ++ whole (firstn m (skipn i shape)) (firstn m (skipn i strides)))).
Proof.
  induction m; intros i Q Hi HQ.
  - cbn [for_up firstn whole]. rewrite app_nil_r. reflexivity.
  - cbn [for_up]. rewrite !Nat.add_0_r. destruct (copy_one i Q ltac:(lia) ltac:(lia)) as (n & s & Hn & Hs & E).
    rewrite E. cbn [bind]. rewrite for_up_shift.
    rewrite (for_up_ext _ (fun j x => copy_whole shape strides (S i + j) (length (Q ++ [(n, s, DFake, 0)]) + j) x)).
    2:{ intros j x Hj. rewrite app_length. cbn [length]. f_equal; lia. }
    rewrite IHm by (rewrite ?app_length; cbn [length]; lia).
    rewrite (skipn_cons_nth _ _ _ Hn), (skipn_cons_nth _ _ _ Hs). cbn [firstn whole]. rewrite <- app_assoc. reflexivity.
Qed.

Lemma dfill_loop m slices : forall rem done c off Q,
  slices = done ++ rem ->
  valid true (flat_map (ex m) rem) (skipn c shape) ->
  (c <= length shape)%nat -> (length Q + vaxes (flat_map (ex m) rem) <= dim)%nat ->
  exists c' d Q',
    for_up (dfill_body shape strides m slices) (length done) (length rem)
      (Z.of_nat (length done) - Z.of_nat c, length Q, off, arrays Q) =
    Ok (Z.of_nat (length slices) - Z.of_nat c', length (Q ++ Q'), off + d, arrays (Q ++ Q')) /\
    dfilled (flat_map (ex m) rem) (skipn c shape) (skipn c strides) d Q' (skipn c' shape) (skipn c' strides) /\
    (c' <= length shape)%nat.
Proof.
  induction rem as [|it rem IH]; intros done c off Q Hs Hv Hc HQ.
  - exists c, 0, []. cbn [for_up length flat_map]. rewrite app_nil_r in Hs. subst slices.
    rewrite app_nil_r, Z.add_0_r. repeat split; auto. constructor.
  - assert (Hit : rd slices (length done) = Ok it).
    { apply rd_ok. rewrite Hs, nth_error_app2, Nat.sub_diag by lia. reflexivity. }
    assert (Hs' : slices = (done ++ [it]) ++ rem) by (rewrite <- app_assoc; exact Hs).
    assert (Hld : length (done ++ [it]) = S (length done)) by (rewrite app_length; simpl; lia).
    assert (Hax : Z.to_nat (Z.of_nat (length done) - (Z.of_nat (length done) - Z.of_nat c)) = c) by lia.
    cbn [for_up length]. unfold dfill_body at 1. rewrite Hit. cbn [bind]. rewrite Hax.
    (* the rest of the loop *)
    assert (G : forall c1 off1 q ax, ax = Z.of_nat (S (length done)) - Z.of_nat c1 ->
      valid true (flat_map (ex m) rem) (skipn c1 shape) -> (c1 <= length shape)%nat ->
      (length (Q ++ q) + vaxes (flat_map (ex m) rem) <= dim)%nat ->
      exists c' d Q',
        for_up (dfill_body shape strides m slices) (S (length done)) (length rem) (ax, length (Q ++ q), off1, arrays (Q ++ q)) =
        Ok (Z.of_nat (length slices) - Z.of_nat c', length (Q ++ q ++ Q'), off1 + d, arrays (Q ++ q ++ Q')) /\
        dfilled (flat_map (ex m) rem) (skipn c1 shape) (skipn c1 strides) d Q' (skipn c' shape) (skipn c' strides) /\
        (c' <= length shape)%nat).
    { intros c1 off1 q ax -> G1 G2 G3. destruct (IH (done ++ [it]) c1 off1 (Q ++ q) Hs' G1 G2 G3) as (c' & d & Q' & E & F & Hc').
      rewrite Hld in E. rewrite <- !app_assoc in E. exists c', d, Q'. auto. }
    clear IH. destruct it as [u|].
    2:{ (* ellipsis *)
      cbn [flat_map ex] in Hv, HQ. destruct (valid_all _ _ _ _ Hv) as (Hm & Hv').
      rewrite skipn_length in Hm. rewrite skipn_add in Hv'. rewrite vaxes_app, vaxes_all in HQ.
      rewrite copy_many by lia. cbn [bind].
      set (W := whole (firstn m (skipn c shape)) (firstn m (skipn c strides))).
      assert (HW : length W = m).
      { unfold W. rewrite whole_length; rewrite !firstn_length, !skipn_length; lia. }
      replace (length Q + m)%nat with (length (Q ++ W)) by (rewrite app_length; lia).
      destruct (G (c + m)%nat off W (Z.of_nat (length done) - Z.of_nat c - Z.of_nat m + 1)) as (c' & d & Q' & E & F & Hc').
      { lia. } { exact Hv'. } { lia. } { rewrite app_length. lia. }
      exists c', d, (W ++ Q'). split; [exact E|]. split; [|exact Hc'].
      apply dfilled_all; rewrite ?skipn_length; try lia. rewrite !skipn_add. exact F. }
    cbn [flat_map ex app] in Hv, HQ.
    destruct u as [a b t| | |i|raw|raw]; (try (
      (* one axis is used *)
      destruct (skipn c shape) as [|n shr] eqn:Esh; [inversion Hv|];
      assert (Hclt : (c < length shape)%nat) by (destruct (Nat.lt_ge_cases c (length shape)); auto; rewrite skipn_all2 in Esh by lia; discriminate);
      assert (Hn : nth_error shape c = Some n) by (rewrite <- (Nat.add_0_r c), <- nth_error_skipn, Esh; reflexivity);
      assert (Eshr : skipn (S c) shape = shr) by (rewrite (skipn_cons_nth _ _ _ Hn) in Esh; injection Esh as Esh; exact Esh);
      destruct (nth_error_lt_ex strides c ltac:(lia)) as (s & Hsn);
      assert (Est : skipn c strides = s :: skipn (S c) strides) by (apply skipn_cons_nth; auto);
      rewrite Est; assert (Hv' : valid true (flat_map (ex m) rem) shr) by (inversion Hv; subst; assumption))).
    + (* range *)
      assert (Hz : py_step t <> 0) by (inversion Hv; subst; assumption).
      rewrite (rd_ok _ _ _ Hn). cbn [bind].
      destruct (range_getter n a b t Hz) as (sl & f & st & R1 & R2 & R3 & R4).
      unfold slice_getter. rewrite R1. cbn [bind]. rewrite R2. cbn [bind]. rewrite R3. cbn [bind].
      rewrite (rd_ok _ _ _ Hsn). cbn [bind]. unfold vaxes in HQ; simpl in HQ; fold (vaxes (flat_map (ex m) rem)) in HQ.
      rewrite set_some by lia. cbn [bind].
      replace (S (length Q)) with (length (Q ++ [(slice_size sl, st * s, DFake, 0)])) by (rewrite app_length; simpl; lia).
      destruct (G (S c) (off + f * s) [(slice_size sl, st * s, DFake, 0)] (Z.of_nat (length done) - Z.of_nat c)) as (c' & d & Q' & E & F & Hc').
      { lia. } { rewrite Eshr. exact Hv'. } { lia. } { rewrite app_length; simpl; lia. }
      exists c', (f * s + d), ((slice_size sl, st * s, DFake, 0) :: Q'). rewrite Z.add_assoc. split; [exact E|].
      rewrite Eshr in F. split; [econstructor; eauto|exact Hc'].
    + (* all *)
      unfold vaxes in HQ; simpl in HQ; fold (vaxes (flat_map (ex m) rem)) in HQ.
      destruct (copy_one c Q Hclt ltac:(lia)) as (n' & s' & Hn' & Hs'' & E1). rewrite Hn in Hn'. rewrite Hsn in Hs''.
      injection Hn' as <-. injection Hs'' as <-. rewrite E1. cbn [bind].
      replace (S (length Q)) with (length (Q ++ [(n, s, DFake, 0)])) by (rewrite app_length; simpl; lia).
      destruct (G (S c) off [(n, s, DFake, 0)] (Z.of_nat (length done) - Z.of_nat c)) as (c' & d & Q' & E & F & Hc').
      { lia. } { rewrite Eshr. exact Hv'. } { lia. } { rewrite app_length; simpl; lia. }
      exists c', d, ((n, s, DFake, 0) :: Q'). split; [exact E|]. rewrite Eshr in F. split; [econstructor; eauto|exact Hc'].
    + (* newaxis *)
      assert (Hv' : valid true (flat_map (ex m) rem) (skipn c shape)) by (inversion Hv; subst; assumption).
      unfold vaxes in HQ; simpl in HQ; fold (vaxes (flat_map (ex m) rem)) in HQ.
      destruct (set_none Q 1 DFake 0 ltac:(lia)) as (j & E1). rewrite E1. cbn [bind].
      replace (S (length Q)) with (length (Q ++ [(1, j, DFake, 0)])) by (rewrite app_length; simpl; lia).
      destruct (G c off [(1, j, DFake, 0)] (Z.of_nat (length done) - Z.of_nat c + 1)) as (c' & d & Q' & E & F & Hc').
      { lia. } { exact Hv'. } { exact Hc. } { rewrite app_length; simpl; lia. }
      exists c', d, ((1, j, DFake, 0) :: Q'). split; [exact E|]. split; [econstructor; eauto|exact Hc'].
    + (* integer *)
      rewrite (rd_ok _ _ _ Hsn). cbn [bind].
      destruct (G (S c) (off + i * s) [] (Z.of_nat (length done) - Z.of_nat c)) as (c' & d & Q' & E & F & Hc').
      { lia. } { rewrite Eshr. exact Hv'. } { lia. } { rewrite app_nil_r. exact HQ. }
      rewrite app_nil_r in E. cbn [app] in E.
      exists c', (i * s + d), Q'. rewrite Z.add_assoc. split; [exact E|]. rewrite Eshr in F. split; [econstructor; eauto|exact Hc'].
    + (* keep *)
      rewrite (rd_ok _ _ _ Hn). cbn [bind]. rewrite (rd_ok _ _ _ Hsn). cbn [bind].
      destruct (resolve (UKeep raw) n) as [ns| |] eqn:Er; try discriminate. cbn [bind].
      unfold vaxes in HQ; simpl in HQ; fold (vaxes (flat_map (ex m) rem)) in HQ. rewrite set_some by lia. cbn [bind].
      replace (S (length Q)) with (length (Q ++ [(slice_size ns, 0, DReal ns, s)])) by (rewrite app_length; simpl; lia).
      destruct (G (S c) off [(slice_size ns, 0, DReal ns, s)] (Z.of_nat (length done) - Z.of_nat c)) as (c' & d & Q' & E & F & Hc').
      { lia. } { rewrite Eshr. exact Hv'. } { lia. } { rewrite app_length; simpl; lia. }
      exists c', d, ((slice_size ns, 0, DReal ns, s) :: Q'). split; [exact E|]. rewrite Eshr in F. split; [econstructor; eauto|exact Hc'].
    + (* drop *)
      rewrite (rd_ok _ _ _ Hn). cbn [bind]. rewrite (rd_ok _ _ _ Hsn). cbn [bind].
      destruct (resolve (UDrop raw) n) as [ns| |] eqn:Er; try discriminate. cbn [bind].
      unfold vaxes in HQ; simpl in HQ; fold (vaxes (flat_map (ex m) rem)) in HQ. rewrite set_some by lia. cbn [bind].
      replace (S (length Q)) with (length (Q ++ [(slice_size ns, 0, DReal ns, s)])) by (rewrite app_length; simpl; lia).
      destruct (G (S c) off [(slice_size ns, 0, DReal ns, s)] (Z.of_nat (length done) - Z.of_nat c)) as (c' & d & Q' & E & F & Hc').
      { lia. } { rewrite Eshr. exact Hv'. } { lia. } { rewrite app_length; simpl; lia. }
      exists c', d, ((slice_size ns, 0, DReal ns, s) :: Q'). split; [exact E|]. rewrite Eshr in F. split; [econstructor; eauto|exact Hc'].
Qed.
End Fill.

Lemma dfilled_count us sh st d Q sh' st' : dfilled us sh st d Q sh' st' ->
  (length Q + length sh' + uint_ us = length sh + unew us)%nat.
Proof.
  induction 1 as [| | | | |u ns n s ss sh st d Q sh' st' (raw & [ -> | -> ]) H0 H1 IH]; unfold uint_, unew in *; simpl in *; lia.
Qed.

Lemma dfilled_rest us sh st d Q sh' st' : dfilled us sh st d Q sh' st' -> length st = length sh -> length st' = length sh'.
Proof. induction 1; simpl; intros; auto. Qed.

Lemma dfill_args_ok shape strides off l ss junk junk' :
  length strides = length shape -> (ellipses ss <= 1)%nat -> valid true (expand (length shape) ss) shape ->
  exists d Q sh' st' l',
    dfill_args shape strides off l ss junk junk' =
    Ok (let R := Q ++ whole sh' st' in (map q1 R, map q2 R, map q3 R, map q4 R), off + d, l') /\
    dfilled (expand (length shape) ss) shape strides d Q sh' st'.
Proof.
  intros Hst He Hv. unfold dfill_args. rewrite count_loop by lia. cbn [bind].
  set (n := length shape) in *.
  assert (Hm : exists m, (if false || (0 <? ellipses ss)%nat
           then Z.to_nat (Z.of_nat n - (Z.of_nat (length ss) - 1 - (0 + Z.of_nat (nnew ss)))) else 0%nat) = m /\
           expand n ss = flat_map (ex m) ss).
  { destruct (0 <? ellipses ss)%nat eqn:E; cbn [orb].
    - apply Nat.ltb_lt in E. exists (n - consumed ss)%nat. split; [|apply expand_ex].
      rewrite (items_length ss). lia.
    - apply Nat.ltb_ge in E. exists 0%nat. split; [auto|]. apply expand_noell. lia. }
  destruct Hm as (m & Em & Ex). rewrite Em. clear Em. rewrite Ex in *.
  destruct (counts_ex m ss) as (C1 & C2 & C3).
  pose proof (valid_ucons _ _ _ Hv) as Hc. fold n in Hc. rewrite C3 in Hc.
  destruct (Z.of_nat n - Z.of_nat (consumed ss) <? 0) eqn:E0; [apply Z.ltb_lt in E0; lia|]. clear E0.
  set (dim := Z.to_nat (Z.of_nat n + Z.of_nat (nnew ss) - Z.of_nat (nint ss))).
  assert (Hni : (nint ss <= consumed ss)%nat).
  { clear. induction ss as [|[[x y z| | |i|raw|raw]|] ss IH]; unfold nint, consumed in *; simpl; lia. }
  assert (Hdim : (dim + nint ss = n + nnew ss)%nat) by (unfold dim; lia).
  assert (Hj : forall j, length (firstn dim (j ++ repeat 0 dim)) = dim).
  { intros j. rewrite firstn_length, app_length, repeat_length. lia. }
  set (B1 := repeat 0 dim). set (B2 := firstn dim (junk ++ B1)). set (B3 := repeat DFake dim). set (B4 := firstn dim (junk' ++ B1)).
  assert (L1 : length B1 = dim) by apply repeat_length. assert (L3 : length B3 = dim) by apply repeat_length.
  assert (L2 : length B2 = dim) by apply Hj. assert (L4 : length B4 = dim) by apply Hj.
  change (B1, B2, B3, B4) with (arrays B1 B2 B3 B4 []).
  destruct (dfill_loop B1 B2 B3 B4 dim L1 L2 L3 L4 shape strides Hst m ss ss [] 0%nat off []) as (c' & d & Q & E & F & Hc'); auto.
  { lia. }
  { cbn [length Nat.add].
    assert (HV : (vaxes (flat_map (ex m) ss) + uint_ (flat_map (ex m) ss) = ucons (flat_map (ex m) ss) + unew (flat_map (ex m) ss))%nat).
    { generalize (flat_map (ex m) ss). clear. induction l as [|[x y z| | |i|raw|raw] l IH];
        unfold vaxes, uint_, ucons, unew in *; simpl; lia. }
    rewrite C1, C2, C3 in HV. lia. }
  cbn [length app] in E. replace (Z.of_nat 0 - Z.of_nat 0) with 0 in E by lia.
  unfold axes, dstate in *. rewrite E. cbn [bind].
  assert (Hx : Z.to_nat (Z.of_nat (length ss) - (Z.of_nat (length ss) - Z.of_nat c')) = c') by lia.
  rewrite Hx. cbn [skipn] in F.
  pose proof (dfilled_count _ _ _ _ _ _ _ F) as HN. rewrite C1, C2, skipn_length in HN. fold n in HN.
  rewrite (copy_many B1 B2 B3 B4 dim L1 L2 L3 L4 shape strides Hst) by (fold n; lia). cbn [bind].
  rewrite !firstn_all2 by (rewrite skipn_length; lia).
  set (R := Q ++ whole (skipn c' shape) (skipn c' strides)).
  assert (HR : length R = dim).
  { unfold R. rewrite app_length, whole_length by (rewrite !skipn_length; lia). rewrite skipn_length. fold n. lia. }
  unfold arrays. rewrite !skipn_all2 by lia. rewrite !app_nil_r.
  destruct (strides_match_exact_lemma l (map q1 R) (map q2 R) true) as (mm & Hmm & _); [rewrite !map_length; reflexivity|].
  rewrite Hmm. cbn [bind]. exists d, Q, (skipn c' shape), (skipn c' strides), (if mm then l else dynamic). split; [reflexivity|exact F].
Qed.
