From Coq Require Import List ZArith Lia Bool Arith Sorted.
From Verif Require Import Prelude PreludeFacts Strides_Model Strides_Spec Strides_Proofs Access_Model Slice_Model Container_Model Container_Spec Container_Proofs
  Stepper_Proofs Assign4_Proofs Semantic_Spec Reduce_Spec Reduce3_Proofs Reduce5_Proofs Reduce9_Proofs Reduce13_Proofs Accum2_Proofs Sort2_Proofs Chunk2_Proofs Select_Model Select_Spec.
Import ListNotations.
Open Scope Z_scope.

(** ** The next index *)

Definition small (sh : list Z) : Prop := Forall (fun s => s < 2 ^ 64) sh.

Lemma next_row_gen : forall sh pre, in_bounds sh pre -> small sh -> forall post shp, length post = length shp ->
  exists pre', next_row (sh ++ shp) (length sh) (pre ++ post) = Ok (pre' ++ post) /\
    (row_pos sh pre + 1 < prod sh -> in_bounds sh pre' /\ row_pos sh pre' = row_pos sh pre + 1).
Proof.
  induction sh as [|d sh IH] using rev_ind; intros pre Hb Hsm post shp Hl.
  - inversion Hb; subst. exists []. split; [reflexivity|]. rewrite prod_nil. cbn. lia.
  - pose proof (Forall2_app_inv_l _ _ Hb) as (p0 & p1 & H0 & H1 & ->). inversion H1 as [|? x ? t Hx Ht]; subst. inversion Ht; subst. clear H1 Ht.
    apply Forall_app in Hsm. destruct Hsm as [Hsm Hd]. inversion Hd as [|? ? Hd' _]; subst.
    pose proof (in_bounds_length _ _ H0) as L0.
    rewrite app_length. cbn [length]. rewrite Nat.add_1_r. cbn [next_row].
    assert (E1 : rd ((p0 ++ [x]) ++ post) (length sh) = Ok x).
    { apply rd_ok. rewrite <- app_assoc, nth_error_app2 by lia. rewrite L0, Nat.sub_diag. reflexivity. }
    assert (E2 : rd ((sh ++ [d]) ++ shp) (length sh) = Ok d).
    { apply rd_ok. rewrite <- app_assoc, nth_error_app2 by lia. rewrite Nat.sub_diag. reflexivity. }
    assert (E3 : forall v, wr ((p0 ++ [x]) ++ post) (length sh) v = Ok (p0 ++ v :: post)).
    { intros v. rewrite wr_ok by (rewrite !app_length; cbn; lia). rewrite <- app_assoc, <- L0. cbn [app]. rewrite upd_mid. reflexivity. }
    rewrite E1. cbn [bind]. rewrite E2. cbn [bind]. rewrite to_size_t_id by lia.
    rewrite !row_pos_snoc by assumption. rewrite prod_app, prod_cons, prod_nil.
    destruct (d - 1 <=? x) eqn:E.
    + apply Z.leb_le in E. rewrite E3. cbn [bind]. assert (x = d - 1) by lia. subst x.
      destruct (IH p0 H0 Hsm (0 :: post) (d :: shp)) as (p' & Ep & Hp); [cbn; lia|].
      exists (p' ++ [0]). rewrite <- !app_assoc. cbn [app]. split; [exact Ep|]. intros Hlt.
      destruct Hp as [Hp Hr]; [nia|]. split.
      * apply Forall2_app; [exact Hp|]. constructor; [lia|constructor].
      * rewrite row_pos_snoc by (apply in_bounds_length; exact Hp). lia.
    + apply Z.leb_gt in E. rewrite E3. exists (p0 ++ [x + 1]). split; [rewrite <- app_assoc; reflexivity|]. intros _. split.
      * apply Forall2_app; [exact H0|]. constructor; [lia|constructor].
      * rewrite row_pos_snoc by assumption. lia.
Qed.

Lemma next_col_gen : forall sh pre, in_bounds sh pre -> small sh -> forall post shp, length post = length shp ->
  exists pre', next_col (shp ++ sh) (length shp) (length sh) (post ++ pre) = Ok (post ++ pre') /\
    (col_pos sh pre + 1 < prod sh -> in_bounds sh pre' /\ col_pos sh pre' = col_pos sh pre + 1).
Proof.
  induction sh as [|d sh IH]; intros pre Hb Hsm post shp Hl.
  - inversion Hb; subst. exists []. split; [reflexivity|]. rewrite prod_nil. cbn. lia.
  - inversion Hb as [|? x ? p0 Hx H0]; subst. inversion Hsm as [|? ? Hd' Hsm']; subst.
    cbn [length next_col].
    assert (E1 : rd (post ++ x :: p0) (length shp) = Ok x).
    { apply rd_ok. rewrite nth_error_app2 by lia. rewrite Hl, Nat.sub_diag. reflexivity. }
    assert (E2 : rd (shp ++ d :: sh) (length shp) = Ok d).
    { apply rd_ok. rewrite nth_error_app2 by lia. rewrite Nat.sub_diag. reflexivity. }
    assert (E3 : forall v, wr (post ++ x :: p0) (length shp) v = Ok (post ++ v :: p0)).
    { intros v. rewrite wr_ok by (rewrite app_length; cbn; lia). rewrite <- Hl. rewrite upd_mid. reflexivity. }
    rewrite E1. cbn [bind]. rewrite E2. cbn [bind]. rewrite to_size_t_id by lia.
    cbn [col_pos]. rewrite prod_cons.
    destruct (d - 1 <=? x) eqn:E.
    + apply Z.leb_le in E. rewrite E3. cbn [bind]. assert (x = d - 1) by lia. subst x.
      destruct (IH p0 H0 Hsm' (post ++ [0]) (shp ++ [d])) as (p' & Ep & Hp); [rewrite !app_length; cbn; lia|].
      rewrite <- !app_assoc in Ep. cbn [app] in Ep. rewrite app_length in Ep. cbn [length] in Ep. rewrite Nat.add_1_r in Ep.
      exists (0 :: p'). split; [exact Ep|]. intros Hlt. destruct Hp as [Hp Hr]; [nia|].
      split; [constructor; [lia|exact Hp]|]. cbn [col_pos]. rewrite Hr. lia.
    + apply Z.leb_gt in E. rewrite E3. exists (x + 1 :: p0). split; [reflexivity|]. intros _. split.
      * constructor; [lia|exact H0].
      * cbn [col_pos]. lia.
Qed.

Lemma next_ok L sh ix : is_order L -> in_bounds sh ix -> small sh ->
  exists ix', next_idx L sh ix = Ok ix' /\ (rank L sh ix + 1 < prod sh -> in_bounds sh ix' /\ rank L sh ix' = rank L sh ix + 1).
Proof.
  intros [ -> | -> ] H Hs; cbn [next_idx rank].
  - destruct (next_row_gen sh ix H Hs [] [] eq_refl) as (p & E & Hp). rewrite !app_nil_r in E. eauto.
  - destruct (next_col_gen sh ix H Hs [] [] eq_refl) as (p & E & Hp). eauto.
Qed.

Lemma small_of sh : is_shape sh -> 0 < prod sh < 2 ^ 64 -> small sh.
Proof.
  intros Hs Hp. assert (Hpos : Forall (fun d => 0 < d) sh) by (apply pos_of_prod; [exact Hs|lia]).
  clear Hs. destruct Hp as [_ Hp]. induction Hpos as [|d sh Hd Hpos IH]; [constructor|]. rewrite prod_cons in Hp.
  assert (0 < prod sh) by (apply prod_pos; exact Hpos). constructor; [nia|apply IH; nia].
Qed.

Lemma indices_rank L sh ix : is_order L -> in_bounds sh ix -> nth_error (indices_of L sh) (Z.to_nat (rank L sh ix)) = Some ix.
Proof.
  intros HL H. pose proof (indices_of_nth L sh ix HL H) as E. destruct HL as [ -> | -> ]; exact E.
Qed.
Lemma rank_indices L sh n ix : is_order L -> is_shape sh -> nth_error (indices_of L sh) n = Some ix -> in_bounds sh ix /\ rank L sh ix = Z.of_nat n.
Proof.
  intros HL Hs E. assert (Hb : in_bounds sh ix) by (apply (indices_of_in L); [exact HL|eapply nth_error_In; exact E]). split; [exact Hb|].
  pose proof (indices_rank L sh ix HL Hb) as E'. pose proof (rank_bound L sh ix Hb).
  pose proof (indices_of_nodup L sh HL) as Hn. rewrite NoDup_nth_error in Hn. specialize (Hn n (Z.to_nat (rank L sh ix))).
  rewrite E, E' in Hn. assert (n < length (indices_of L sh))%nat by (apply nth_error_Some; congruence). specialize (Hn ltac:(assumption) eq_refl). lia.
Qed.
Lemma first_index L sh : is_order L -> is_shape sh -> 0 < prod sh -> nth_error (indices_of L sh) 0 = Some (repeat 0 (length sh)).
Proof.
  intros HL Hs Hp. assert (Hpos : Forall (fun d => 0 < d) sh) by (apply pos_of_prod; [exact Hs|lia]).
  pose proof (zeros_in_bounds sh Hpos) as Hz. pose proof (indices_rank L sh _ HL Hz) as E.
  assert (R : rank L sh (repeat 0 (length sh)) = 0).
  { destruct HL as [ -> | -> ]; cbn [rank]; [apply row_pos_repeat0|]. rewrite col_row by apply repeat_length.
    replace (rev (repeat 0 (length sh))) with (repeat 0 (length sh)); [apply row_pos_repeat0|].
    clear. induction (length sh) as [|n IH]; [reflexivity|]. cbn [repeat rev]. rewrite <- IH. apply repeat_cons. }
  rewrite R in E. exact E.
Qed.

Lemma scan_ok {T} L sh (step : list Z -> T -> res T) s0 s : is_order L -> is_shape sh -> prod sh < 2 ^ 64 ->
  for_each step (indices_of L sh) s0 = Ok s -> scan L sh step s0 = Ok s.
Proof.
  intros HL Hs Hp E. unfold scan. rewrite compute_size_prod.
  destruct (Z.eq_dec (prod sh) 0) as [Z0|NZ].
  { rewrite Z0. change (Z.to_nat 0) with 0%nat. cbn [for_up bind]. pose proof (indices_of_length L sh HL Hs) as Hn. rewrite Z0 in Hn.
    destruct (indices_of L sh); [|cbn in Hn; lia]. cbn in E. congruence. }
  assert (HP : 0 < prod sh) by (pose proof (prod_nonneg sh Hs); lia).
  assert (Hsm : small sh) by (apply small_of; [exact Hs|lia]).
  pose proof (indices_of_length L sh HL Hs) as Hn.
  destruct (for_up_inv (fun n '(idx, t) => ((n < Z.to_nat (prod sh))%nat -> nth_error (indices_of L sh) n = Some idx) /\
      for_each step (skipn n (indices_of L sh)) t = Ok s)
    (fun _ '(idx, t) => let* s' := step idx t in let* idx' := next_idx L sh idx in Ok (idx', s')) 0 (Z.to_nat (prod sh))
    (repeat 0 (length sh), s0)) as ([idx' t] & E' & _ & Ht).
  - split; [intros _; apply first_index; assumption|exact E].
  - intros n [idx t] Hin [H1 H2]. specialize (H1 ltac:(lia)).
    rewrite (skipn_cons_nth _ _ _ H1) in H2. cbn [for_each] in H2.
    destruct (step idx t) as [t'| |] eqn:Et; try discriminate H2. cbn [bind] in *.
    destruct (rank_indices L sh n idx HL Hs H1) as [Hb Hr].
    destruct (next_ok L sh idx HL Hb Hsm) as (ix' & En & Hnx). rewrite En. cbn [bind]. eexists. split; [reflexivity|]. cbn beta iota.
    split; [|exact H2]. intros Hlt. destruct Hnx as [Hb' Hr']; [lia|].
    pose proof (indices_rank L sh ix' HL Hb') as E2. replace (Z.to_nat (rank L sh ix')) with (S n) in E2 by lia. exact E2.
  - rewrite E'. cbn [bind]. cbn in Ht. rewrite skipn_all2 in Ht by lia. cbn in Ht. congruence.
Qed.

(** ** argwhere, nonzero *)

Lemma sorted_indices L sh : is_order L -> is_shape sh -> StronglySorted (fun a b => rank L sh a < rank L sh b) (indices_of L sh).
Proof.
  intros HL Hs.
  assert (G : forall n, StronglySorted (fun a b => rank L sh a < rank L sh b) (skipn n (indices_of L sh))).
  { intros n. remember (length (indices_of L sh) - n)%nat as m eqn:Em. revert n Em. induction m as [|m IH]; intros n Em.
    - rewrite skipn_all2 by lia. constructor.
    - destruct (nth_error (indices_of L sh) n) as [ix|] eqn:E; [|apply nth_error_None in E; lia].
      rewrite (skipn_cons_nth _ _ _ E). constructor; [apply IH; lia|].
      apply Forall_forall. intros jx Hj. apply In_nth_error in Hj. destruct Hj as [k Ek]. rewrite nth_error_skipn in Ek.
      destruct (rank_indices L sh _ _ HL Hs E) as [_ R1]. destruct (rank_indices L sh _ _ HL Hs Ek) as [_ R2]. lia. }
  exact (G 0%nat).
Qed.
Lemma sorted_filter {A} (R : A -> A -> Prop) p l : StronglySorted R l -> StronglySorted R (filter p l).
Proof.
  induction 1 as [|x l Hl IH F]; [constructor|]. cbn [filter]. destruct (p x); [|exact IH]. constructor; [exact IH|].
  apply Forall_forall. intros y Hy. apply filter_In in Hy. rewrite Forall_forall in F. apply F, Hy.
Qed.
Lemma lists_filter L sh p : is_order L -> is_shape sh -> lists_where L sh p (filter p (indices_of L sh)).
Proof.
  intros HL Hs. split; [|apply sorted_filter, sorted_indices; assumption].
  intros ix. rewrite filter_In, indices_of_in by exact HL. reflexivity.
Qed.

Lemma argwhere_eq L sh arr p : is_order L -> is_shape sh -> prod sh < 2 ^ 64 -> expr_of sh arr p ->
  argwhere L sh arr = Ok (filter p (indices_of L sh)).
Proof.
  intros HL Hs Hp He. unfold argwhere. apply scan_ok; [assumption..|].
  assert (G : forall l acc, incl l (indices_of L sh) ->
    for_each (fun idx indices => let* b := arr idx in Ok (if b : bool then indices ++ [idx] else indices)) l acc = Ok (acc ++ filter p l)).
  { induction l as [|ix l IH]; intros acc Hi; cbn [for_each filter]; [rewrite app_nil_r; reflexivity|].
    rewrite He by (apply (indices_of_in L); [exact HL|apply Hi; left; reflexivity]). cbn [bind]. rewrite IH by (intros y Hy; apply Hi; right; exact Hy).
    destruct (p ix); [rewrite <- app_assoc|]; reflexivity. }
  exact (G _ [] (incl_refl _)).
Qed.
Lemma lists_unique L sh p l l' : lists_where L sh p l -> lists_where L sh p l' -> l = l'.
Proof.
  intros [H1 S1] [H2 S2]. assert (H : forall x, In x l <-> In x l') by (intros x; rewrite H1, H2; reflexivity). clear H1 H2.
  revert l' S2 H. induction S1 as [|x l Sl IH F]; intros l' S2 H.
  - destruct l' as [|y l']; [reflexivity|]. destruct (proj2 (H y)); left; reflexivity.
  - destruct S2 as [|y l' S2 F2]; [destruct (proj1 (H x)); left; reflexivity|].
    rewrite Forall_forall in F, F2.
    assert (x = y) as <-.
    { destruct (proj1 (H x) (or_introl eq_refl)) as [E|Hx]; [congruence|]. destruct (proj2 (H y) (or_introl eq_refl)) as [E|Hy]; [congruence|].
      specialize (F _ Hy). specialize (F2 _ Hx). lia. }
    f_equal. apply IH; [exact S2|]. intros z. split; intros Hz.
    + destruct (proj1 (H z) (or_intror Hz)) as [E|Hz']; [|exact Hz']. subst z. specialize (F _ Hz). lia.
    + destruct (proj2 (H z) (or_intror Hz)) as [E|Hz']; [|exact Hz']. subst z. specialize (F2 _ Hz). lia.
Qed.

Lemma argwhere_lemma L sh arr p : is_order L -> is_shape sh -> prod sh < 2 ^ 64 -> expr_of sh arr p ->
  exists l, argwhere L sh arr = Ok l /\ lists_where L sh p l.
Proof. intros HL Hs Hp He. eexists. split; [apply (argwhere_eq L sh arr p); assumption|apply lists_filter; assumption]. Qed.

Definition coords (n : nat) (l : list (list Z)) : list (list Z) := map (fun k => map (fun ix => nth k ix 0) l) (seq 0 n).
Lemma push_all_ok : forall n k l ix, (k + n <= length ix)%nat ->
  push_all (map (fun k => map (fun ix => nth k ix 0) l) (seq k n)) k ix = Ok (map (fun k => map (fun ix => nth k ix 0) (l ++ [ix])) (seq k n)).
Proof.
  induction n as [|n IH]; intros k l ix H; cbn [seq map push_all]; [reflexivity|].
  rewrite (rd_nth 0) by lia. cbn [bind]. rewrite IH by lia. cbn [bind]. rewrite map_app. reflexivity.
Qed.
Lemma nonzero_eq L sh arr p : is_order L -> is_shape sh -> prod sh < 2 ^ 64 -> expr_of sh arr p ->
  nonzero L sh arr = Ok (coords (length sh) (filter p (indices_of L sh))).
Proof.
  intros HL Hs Hp He. unfold nonzero. apply scan_ok; [assumption..|].
  assert (G : forall l acc, incl l (indices_of L sh) ->
    for_each (fun idx indices => let* b := arr idx in if b : bool then push_all indices 0 idx else Ok indices) l (coords (length sh) acc)
    = Ok (coords (length sh) (acc ++ filter p l))).
  { induction l as [|ix l IH]; intros acc Hi; cbn [for_each filter]; [rewrite app_nil_r; reflexivity|].
    assert (Hb : in_bounds sh ix) by (apply (indices_of_in L); [exact HL|apply Hi; left; reflexivity]).
    rewrite He by exact Hb. cbn [bind]. assert (Hi' : incl l (indices_of L sh)) by (intros y Hy; apply Hi; right; exact Hy).
    destruct (p ix).
    - unfold coords at 1. rewrite push_all_ok by (rewrite (in_bounds_length _ _ Hb); lia). cbn [bind]. fold (coords (length sh) (acc ++ [ix])).
      rewrite IH by exact Hi'. rewrite <- app_assoc. reflexivity.
    - cbn [bind]. apply IH. exact Hi'. }
  specialize (G _ [] (incl_refl _)). replace (repeat [] (length sh)) with (coords (length sh) []); [exact G|].
  clear. unfold coords. cbn [map]. generalize 0%nat. induction (length sh) as [|n IH]; intros k; cbn; [reflexivity|]. f_equal. apply IH.
Qed.
Lemma nonzero_lemma TL sh arr p : is_order TL -> is_shape sh -> prod sh < 2 ^ 64 -> expr_of sh arr p ->
  exists r l, nonzero TL sh arr = Ok r /\ lists_where TL sh p l /\ length r = length sh /\
    forall k, (k < length sh)%nat -> nth k r [] = map (fun ix => nth k ix 0) l.
Proof.
  intros HL Hs Hp He. exists (coords (length sh) (filter p (indices_of TL sh))), (filter p (indices_of TL sh)).
  split; [apply nonzero_eq; assumption|]. split; [apply lists_filter; assumption|]. unfold coords. rewrite map_length, seq_length. split; [reflexivity|].
  intros k Hk. rewrite nth_indep with (d' := map (fun ix => nth 0 ix 0) (filter p (indices_of TL sh))) by (rewrite map_length, seq_length; exact Hk).
  rewrite (map_nth (fun k => map (fun ix => nth k ix 0) (filter p (indices_of TL sh)))). rewrite seq_nth by exact Hk. reflexivity.
Qed.

Lemma singles n : 0 <= n -> forall L, is_order L -> indices_of L [n] = map (fun k => [Z.of_nat k]) (seq 0 (Z.to_nat n)).
Proof.
  intros _ L HL. assert (E : row_indices [n] = map (fun k => [Z.of_nat k]) (seq 0 (Z.to_nat n))).
  { cbn [row_indices map]. induction (seq 0 (Z.to_nat n)) as [|k l IH]; [reflexivity|]. cbn. rewrite <- IH. reflexivity. }
  destruct HL as [ -> | -> ]; cbn [indices_of]; [exact E|]. cbn [rev app]. rewrite E, map_map. reflexivity.
Qed.

Lemma filter_map {A B} (f : A -> B) p l : filter p (map f l) = map f (filter (fun x => p (f x)) l).
Proof. induction l as [|x l IH]; cbn; [reflexivity|]. destruct (p (f x)); cbn; rewrite IH; reflexivity. Qed.

Lemma flatnonzero_lemma TL L sh arr p : is_order TL -> is_order L -> is_shape sh -> prod sh < 2 ^ 64 -> expr_of sh arr p ->
  exists l, lists_where L sh p l /\ flatnonzero TL L sh arr = Ok (map (rank L sh) l).
Proof.
  intros HT HL Hs Hp He. exists (filter p (indices_of L sh)). split; [apply lists_filter; assumption|].
  unfold flatnonzero. rewrite compute_size_prod. pose proof (prod_nonneg sh Hs) as H0. pose proof (indices_of_length L sh HL Hs) as Hn.
  rewrite (nonzero_eq TL [prod sh] _ (fun i => p (nth (Z.to_nat (nth 0 i 0)) (indices_of L sh) []))); [|exact HT| | |].
  2: { constructor; [exact H0|constructor]. }
  2: { rewrite prod_cons. change (prod []) with 1. lia. }
  2: { intros i Hi. inversion Hi as [|? x ? t Hx Ht]; subst. inversion Ht; subst. cbn [nth rd nth_error bind].
    assert (Hlt : (Z.to_nat x < length (indices_of L sh))%nat) by lia.
    destruct (nth_error (indices_of L sh) (Z.to_nat x)) as [ix|] eqn:E; [|apply nth_error_None in E; lia].
    rewrite (rdz_ok _ _ ix) by (try lia; exact E). cbn [bind]. rewrite (nth_error_nth _ _ [] E). apply He.
    apply (indices_of_in L); [exact HL|]. eapply nth_error_In. exact E. }
  cbn [bind length coords seq map rd nth_error]. f_equal. rewrite singles by assumption. rewrite filter_map, map_map. cbn [nth].
  replace (Z.to_nat (prod sh)) with (length (indices_of L sh)) by lia.
  assert (G : forall m, (m <= length (indices_of L sh))%nat ->
    map (fun x => Z.of_nat x) (filter (fun x => p (nth (Z.to_nat (Z.of_nat x)) (indices_of L sh) [])) (seq (length (indices_of L sh) - m) m))
    = map (rank L sh) (filter p (skipn (length (indices_of L sh) - m) (indices_of L sh)))).
  { induction m as [|m IH]; intros Hm; [rewrite skipn_all2 by lia; reflexivity|].
    set (q := (length (indices_of L sh) - S m)%nat) in *.
    destruct (nth_error (indices_of L sh) q) as [ix|] eqn:E; [|apply nth_error_None in E; unfold q in *; lia].
    rewrite (skipn_cons_nth _ _ _ E). cbn [seq filter]. rewrite Nat2Z.id, (nth_error_nth _ _ [] E).
    specialize (IH ltac:(lia)). replace (length (indices_of L sh) - m)%nat with (S q) in IH by (unfold q; lia).
    destruct (p ix); cbn [map]; rewrite IH; [|reflexivity]. f_equal. symmetry. apply (rank_indices L sh q ix HL Hs E). }
  specialize (G _ (le_n _)). rewrite Nat.sub_diag in G. exact G.
Qed.

Lemma ravel_indices_lemma L sh l : is_order L -> is_shape sh -> Forall (in_bounds sh) l -> ravel_indices l sh L = Ok (map (rank L sh) l).
Proof.
  intros HL Hs F. unfold ravel_indices.
  assert (E : forall ix, in_bounds sh ix -> ravel_index ix sh L = Ok (rank L sh ix)).
  { intros ix H. destruct (ravel_order_lemma sh ix H). destruct HL as [ -> | -> ]; assumption. }
  unfold ravel_index, ravel_from_strides in E.
  rewrite compute_strides_ok in * by (simpl; rewrite ?repeat_length; auto). cbn [bind] in *.
  f_equal. induction F as [|ix l Hb F IH]; [reflexivity|]. cbn [ravel_all map]. rewrite IH. specialize (E ix Hb). f_equal. congruence.
Qed.
