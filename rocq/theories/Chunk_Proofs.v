From Coq Require Import List ZArith Lia Bool Arith.
From Verif Require Import Prelude PreludeFacts Strides_Model Strides_Spec Strides_Proofs Access_Model Slice_Model Container_Model Container_Spec Container_Proofs
  Semantic_Spec Reduce_Spec Reduce3_Proofs Reduce5_Proofs Reduce9_Proofs Reduce13_Proofs Sort2_Proofs Chunk_Model Chunk_Spec.
Import ListNotations.
Open Scope Z_scope.

(** ** The grid and the boxes *)

Fixpoint ceils (sh cs : list Z) : list Z :=
  match sh, cs with s :: sh', c :: cs' => (if 0 <? s mod c then s / c + 1 else s / c) :: ceils sh' cs' | _, _ => [] end.
Fixpoint divs (ix cs : list Z) : list Z := match ix, cs with x :: ix', c :: cs' => x / c :: divs ix' cs' | _, _ => [] end.
Fixpoint mods (ix cs : list Z) : list Z := match ix, cs with x :: ix', c :: cs' => x mod c :: mods ix' cs' | _, _ => [] end.
Fixpoint boxes (q cs sh : list Z) : list (Z * Z) :=
  match q, cs, sh with x :: q', c :: cs', s :: sh' => (x * c, Z.min ((x + 1) * c) s) :: boxes q' cs' sh' | _, _, _ => [] end.

Lemma chunkable_length sh cs : chunkable sh cs -> length cs = length sh.
Proof. intros H. symmetry. eapply Forall2_length. exact H. Qed.
Lemma chunkable_shape sh cs : chunkable sh cs -> is_shape sh.
Proof. induction 1; constructor; [lia|assumption]. Qed.
Lemma chunkable_cs sh cs : chunkable sh cs -> is_shape cs.
Proof. induction 1; constructor; [lia|assumption]. Qed.

Lemma grid_ok sh cs : chunkable sh cs -> grid_shape_of sh cs = Ok (ceils sh cs).
Proof.
  induction 1 as [|s c sh cs [Hs Hc] H IH]; [reflexivity|]. cbn [grid_shape_of ceils].
  destruct (c =? 0) eqn:E; [apply Z.eqb_eq in E; lia|]. rewrite IH. reflexivity.
Qed.
Lemma ceils_length sh cs : chunkable sh cs -> length (ceils sh cs) = length sh.
Proof. induction 1; cbn; congruence. Qed.

Lemma ceil_spec s c x : 0 <= s -> 0 < c ->
  0 <= x -> (x < (if 0 <? s mod c then s / c + 1 else s / c) <-> x * c < s).
Proof.
  intros Hs Hc Hx. pose proof (Z.div_mod s c ltac:(lia)) as E. pose proof (Z.mod_pos_bound s c Hc).
  destruct (0 <? s mod c) eqn:E0; [apply Z.ltb_lt in E0|apply Z.ltb_ge in E0]; split; intros; nia.
Qed.
Lemma ceils_shape sh cs : chunkable sh cs -> is_shape (ceils sh cs).
Proof.
  induction 1 as [|s c sh cs [Hs Hc] H IH]; [constructor|]. cbn [ceils]. constructor; [|exact IH].
  pose proof (Z.div_pos s c ltac:(lia) ltac:(lia)). destruct (0 <? _); lia.
Qed.

Lemma decomp sh cs ix : chunkable sh cs -> in_bounds sh ix ->
  in_bounds (ceils sh cs) (divs ix cs) /\ in_bounds (sv_shape (boxes (divs ix cs) cs sh)) (mods ix cs) /\
  shift (boxes (divs ix cs) cs sh) (mods ix cs) = ix /\ in_bounds cs (mods ix cs).
Proof.
  intros H. revert ix. induction H as [|s c sh cs [Hs Hc] H IH]; intros ix Hb; inversion Hb as [|? x ? ix' Hx Hb']; subst.
  { repeat split; constructor. }
  destruct (IH _ Hb') as (H1 & H2 & H3 & H4). cbn [ceils divs mods boxes sv_shape map shift fst snd].
  pose proof (Z.div_mod x c ltac:(lia)) as E. pose proof (Z.mod_pos_bound x c ltac:(lia)).
  assert (0 <= x / c) by (apply Z.div_pos; lia).
  split; [constructor; [|exact H1]|split; [constructor; [|exact H2]|split; [rewrite H3; f_equal; lia|constructor; [lia|exact H4]]]].
  - split; [assumption|]. apply ceil_spec; lia.
  - lia.
Qed.

Lemma recomp sh cs q j : chunkable sh cs -> in_bounds (ceils sh cs) q -> in_bounds (sv_shape (boxes q cs sh)) j ->
  in_bounds sh (shift (boxes q cs sh) j) /\ divs (shift (boxes q cs sh) j) cs = q /\ mods (shift (boxes q cs sh) j) cs = j /\ in_bounds cs j.
Proof.
  intros H. revert q j. induction H as [|s c sh cs [Hs Hc] H IH]; intros q j Hq Hj; cbn [ceils] in Hq; inversion Hq as [|? x ? q' Hx Hq']; subst.
  { cbn in Hj. inversion Hj; subst. repeat split; constructor. }
  cbn [boxes sv_shape map fst snd] in Hj. inversion Hj as [|? y ? j' Hy Hj']; subst.
  destruct (IH _ _ Hq' Hj') as (H1 & H2 & H3 & H4). cbn [boxes shift fst snd divs mods].
  apply proj1 in Hx as Hx0. assert (Hx1 : x * c < s) by (apply ceil_spec; lia).
  assert (E1 : (x * c + y) / c = x). { rewrite Z.add_comm, Z.div_add by lia. rewrite Z.div_small by lia. lia. }
  assert (E2 : (x * c + y) mod c = y). { rewrite Z.add_comm, Z.mod_add by lia. apply Z.mod_small. lia. }
  split; [constructor; [nia|exact H1]|]. rewrite E1, E2, H2, H3. repeat split; try reflexivity. constructor; [lia|exact H4].
Qed.

Lemma box_le sh cs q : chunkable sh cs -> in_bounds (ceils sh cs) q -> Forall (fun d => 0 <= d) (sv_shape (boxes q cs sh)).
Proof.
  intros H. revert q. induction H as [|s c sh cs [Hs Hc] H IH]; intros q Hq; cbn [ceils] in Hq; inversion Hq as [|? x ? q' Hx Hq']; subst; [constructor|].
  cbn [boxes sv_shape map fst snd]. constructor; [|apply IH; assumption].
  assert (Hx1 : x * c < s) by (apply ceil_spec; lia). lia.
Qed.

Lemma box_in sh cs q ix : chunkable sh cs -> in_bounds (ceils sh cs) q ->
  (in_box (boxes q cs sh) ix <-> in_bounds sh ix /\ divs ix cs = q).
Proof.
  intros H. revert q ix. induction H as [|s c sh cs [Hs Hc] H IH]; intros q ix Hq; cbn [ceils] in Hq; inversion Hq as [|? x ? q' Hx Hq']; subst.
  { cbn [boxes]. split.
    - intros Hb; inversion Hb; subst. split; [constructor|reflexivity].
    - intros [Hb _]. inversion Hb; subst. constructor. }
  cbn [boxes]. split.
  - intros Hb. inversion Hb as [|? y ? ix' Hy Hb']; subst. cbn [fst snd] in Hy. apply (IH _ _ Hq') in Hb' as [H1 H2].
    split; [constructor; [nia|exact H1]|]. cbn [divs]. rewrite H2. f_equal.
    symmetry. apply (Z.div_unique y c x (y - x * c)); lia.
  - intros [Hb E]. inversion Hb as [|? y ? ix' Hy Hb']; subst. cbn [divs] in E. injection E as E1 E2.
    constructor; [|apply IH; [exact Hq'|split; assumption]]. cbn [fst snd].
    pose proof (Z.div_mod y c ltac:(lia)). pose proof (Z.mod_pos_bound y c ltac:(lia)). subst x. nia.
Qed.

(** ** The chunk iterator *)

Section It.
  Context (sh cs : list Z) (H : chunkable sh cs).
  Let g := mk_chunking sh cs (ceils sh cs).

  Lemma boxes_length q : length q = length sh -> length (boxes q cs sh) = length sh.
  Proof.
    clear g. revert q. induction H as [|s c sh' cs' _ H' IH]; intros [|x q] Hq; try discriminate Hq; [reflexivity|].
    cbn. f_equal. apply IH; [assumption|]. cbn in Hq. lia.
  Qed.
  Lemma boxes_nth q i x : length q = length sh -> nth_error q i = Some x ->
    exists c s, nth_error cs i = Some c /\ nth_error sh i = Some s /\ nth_error (boxes q cs sh) i = Some (x * c, Z.min ((x + 1) * c) s).
  Proof.
    clear g. revert q i. induction H as [|s c sh' cs' _ H' IH]; intros [|y q] [|i] Hq Hx; try discriminate Hq; try discriminate Hx.
    - cbn in Hx. injection Hx as ->. exists c, s. repeat split; reflexivity.
    - cbn [nth_error boxes] in *. apply IH; [assumption| |exact Hx]. cbn in Hq. lia.
  Qed.
  Lemma slice_at_ok q i x : length q = length sh -> nth_error q i = Some x ->
    exists p, nth_error (boxes q cs sh) i = Some p /\ slice_at g q i = Ok p.
  Proof.
    intros Hq Hx. destruct (boxes_nth q i x Hq Hx) as (c & s & Hc & Hs & E). eexists. split; [exact E|].
    unfold slice_at. cbn [g_chunk g_shape g]. rewrite (rd_ok _ _ _ Hx), (rd_ok _ _ _ Hc), (rd_ok _ _ _ Hs). reflexivity.
  Qed.

  Lemma it_make_ok q n : length q = length sh -> it_make g q n = Ok (mk_it q n (boxes q cs sh)).
  Proof.
    intros Hq. unfold it_make.
    destruct (for_up_inv (fun i sl => length sl = length q /\ forall j, (j < i)%nat -> nth_error sl j = nth_error (boxes q cs sh) j)
      (fun i sl => fill_slice g q i sl) 0 (length q) (repeat (0, 0) (length q))) as (sl & E & Hl & Hv).
    - split; [apply repeat_length|intros; lia].
    - intros i sl Hi [Hl Hv]. destruct (nth_error q i) as [x|] eqn:Ex; [|apply nth_error_None in Ex; lia].
      destruct (slice_at_ok q i x Hq Ex) as (p & Ep & E). unfold fill_slice. rewrite E. cbn [bind]. rewrite wr_ok by lia.
      eexists. split; [reflexivity|]. rewrite upd_length. split; [exact Hl|]. intros j Hj.
      destruct (Nat.eq_dec j i) as [ -> |N]; [rewrite nth_error_upd_same by lia; congruence|].
      rewrite nth_error_upd_other by lia. apply Hv. lia.
    - rewrite E. cbn [bind]. do 2 f_equal. apply nth_error_ext. intros j. destruct (Nat.lt_ge_cases j (length q)) as [Hj|Hj].
      + apply Hv. lia.
      + rewrite !(proj2 (nth_error_None _ _)); [reflexivity| |]; [rewrite boxes_length by exact Hq|]; lia.
  Qed.

  Lemma boxes_upd q i x : length q = length sh -> (i < length q)%nat ->
    forall p, nth_error (boxes (upd q i x) cs sh) i = Some p -> upd (boxes q cs sh) i p = boxes (upd q i x) cs sh.
  Proof.
    clear g. revert q i. induction H as [|s c sh' cs' _ H' IH]; intros [|y q] [|i] Hq Hi p Hp; try discriminate Hq; try (cbn in Hi; lia).
    - cbn in *. congruence.
    - cbn [upd boxes nth_error] in *. f_equal. apply IH; [assumption|cbn in Hq; lia|cbn in Hi; lia|exact Hp].
  Qed.

  Lemma fill_ok q i x : length q = length sh -> (i < length q)%nat ->
    fill_slice g (upd q i x) i (boxes q cs sh) = Ok (boxes (upd q i x) cs sh).
  Proof.
    intros Hq Hi. unfold fill_slice. destruct (slice_at_ok (upd q i x) i x) as (p & Ep & E).
    - rewrite upd_length. exact Hq.
    - apply nth_error_upd_same. exact Hi.
    - rewrite E. cbn [bind]. rewrite wr_ok by (rewrite boxes_length; lia). f_equal. apply boxes_upd; assumption.
  Qed.

  (** The loop of operator++ is the successor in row major order. *)
  Lemma carry_ok i : forall q, in_bounds (ceils sh cs) q -> (i <= length sh)%nat ->
    row_pos (firstn i (ceils sh cs)) (firstn i q) + 1 < prod (firstn i (ceils sh cs)) ->
    exists q', it_carry g i q (boxes q cs sh) = Ok (q', boxes q' cs sh) /\ in_bounds (ceils sh cs) q' /\
      skipn i q' = skipn i q /\
      row_pos (firstn i (ceils sh cs)) (firstn i q') = row_pos (firstn i (ceils sh cs)) (firstn i q) + 1.
  Proof.
    pose proof (ceils_length sh cs H) as Lg.
    induction i as [|i IH]; intros q Hq Hi Hn.
    { cbn in Hn. change (prod []) with 1 in Hn. lia. }
    pose proof (in_bounds_length _ _ Hq) as Lq.
    destruct (nth_error q i) as [x|] eqn:Ex; [|apply nth_error_None in Ex; lia].
    destruct (nth_error (ceils sh cs) i) as [n|] eqn:En; [|apply nth_error_None in En; lia].
    assert (Hsplit : forall q0 : list Z, forall y, nth_error q0 i = Some y -> firstn (S i) q0 = firstn i q0 ++ [y]).
    { clear. induction i as [|i IH]; intros [|z q0] y E; try discriminate E; cbn in *; [congruence|]. f_equal. apply IH. exact E. }
    assert (Hrp : forall q0 y, length q0 = length q -> nth_error q0 i = Some y ->
      row_pos (firstn (S i) (ceils sh cs)) (firstn (S i) q0) = row_pos (firstn i (ceils sh cs)) (firstn i q0) * n + y).
    { intros q0 y L0 E0. rewrite (Hsplit _ _ En), (Hsplit _ _ E0). rewrite row_pos_app by (rewrite !firstn_length; lia).
      cbn [row_pos]. rewrite prod_cons. change (prod []) with 1. lia. }
    assert (Hpr : prod (firstn (S i) (ceils sh cs)) = prod (firstn i (ceils sh cs)) * n).
    { rewrite (Hsplit _ _ En), prod_app, prod_cons. change (prod []) with 1. lia. }
    rewrite (Hrp q x eq_refl Ex), Hpr in Hn.
    assert (Hnn : nth i (ceils sh cs) 0 = n) by (apply nth_error_nth; exact En).
    assert (Hxn : 0 <= x < n).
    { rewrite <- Hnn. pose proof (in_bounds_nth _ _ i Hq ltac:(lia)) as Hx. rewrite (nth_error_nth q i 0 Ex) in Hx. exact Hx. }
    cbn [it_carry]. rewrite (rd_ok _ _ _ Ex). cbn [bind g_grid g]. fold g. rewrite (rd_ok _ _ _ En). cbn [bind].
    destruct (x + 1 =? n) eqn:E1; [apply Z.eqb_eq in E1|apply Z.eqb_neq in E1].
    - rewrite wr_ok by lia. cbn [bind]. rewrite fill_ok by lia. cbn [bind].
      assert (Hb : in_bounds (ceils sh cs) (upd q i 0)) by (apply in_bounds_upd; [exact Hq|rewrite Hnn; lia]).
      assert (Hf : firstn i (upd q i 0) = firstn i q).
      { clear. revert q. induction i as [|i IH]; intros [|z q]; cbn; try reflexivity. f_equal. apply IH. }
      destruct (IH (upd q i 0) Hb ltac:(lia)) as (q' & E & Hb' & Hs & Hr); [rewrite Hf; nia|].
      exists q'. split; [exact E|split; [exact Hb'|]].
      assert (E0 : nth_error q' i = Some 0).
      { rewrite <- (firstn_skipn i q') at 1. rewrite nth_error_app2 by (rewrite firstn_length; lia).
        rewrite firstn_length, (in_bounds_length _ _ Hb'), Lg, Nat.min_l, Nat.sub_diag by lia. rewrite Hs.
        rewrite nth_error_skipn, Nat.add_0_r. apply nth_error_upd_same. lia. }
      split.
      + replace (S i) with (1 + i)%nat by lia. 
        assert (Hss : forall l : list Z, skipn (1 + i) l = skipn 1 (skipn i l)).
        { clear. induction i as [|i IH]; intros [|z l]; try reflexivity. cbn [skipn plus] in *. apply IH. }
        rewrite !Hss, Hs, <- !Hss. clear. revert q. induction i as [|i IH]; intros [|z q]; try reflexivity. cbn in *. apply IH.
      + rewrite (Hrp q' 0) by (try assumption; apply in_bounds_length in Hb'; lia). rewrite (Hrp q x eq_refl Ex), Hr, Hf. nia.
    - rewrite wr_ok by lia. cbn [bind]. rewrite fill_ok by lia. cbn [bind].
      exists (upd q i (x + 1)). split; [reflexivity|].
      assert (Hb : in_bounds (ceils sh cs) (upd q i (x + 1))) by (apply in_bounds_upd; [exact Hq|rewrite Hnn; lia]).
      split; [exact Hb|split].
      + clear. revert q. induction i as [|i IH]; intros [|z q]; try reflexivity. cbn [upd skipn] in *. apply IH.
      + rewrite (Hrp _ (x + 1)) by (try apply nth_error_upd_same; rewrite ?upd_length; lia). rewrite (Hrp q x eq_refl Ex).
        assert (Hf : firstn i (upd q i (x + 1)) = firstn i q).
        { clear. revert q. induction i as [|i IH]; intros [|z q]; cbn; try reflexivity. f_equal. apply IH. }
        rewrite Hf. lia.
  Qed.

  Let N := prod (ceils sh cs).

  Lemma it_next_ok q : in_bounds (ceils sh cs) q -> row_pos (ceils sh cs) q + 1 < N ->
    exists q', it_next g N (mk_it q (row_pos (ceils sh cs) q) (boxes q cs sh)) = Ok (mk_it q' (row_pos (ceils sh cs) q') (boxes q' cs sh)) /\
      in_bounds (ceils sh cs) q' /\ row_pos (ceils sh cs) q' = row_pos (ceils sh cs) q + 1.
  Proof.
    intros Hq Hn. unfold it_next. cbn [it_linear it_index it_slices].
    destruct (_ =? N) eqn:E; [apply Z.eqb_eq in E; lia|]. cbn [g_shape g]. fold g.
    pose proof (ceils_length sh cs H) as Lg. pose proof (in_bounds_length _ _ Hq) as Lq.
    assert (F1 : firstn (length sh) (ceils sh cs) = ceils sh cs) by (rewrite <- Lg; apply firstn_all).
    assert (F2 : forall q0, in_bounds (ceils sh cs) q0 -> firstn (length sh) q0 = q0).
    { intros q0 Hq0. rewrite <- Lg, <- (in_bounds_length _ _ Hq0). apply firstn_all. }
    destruct (carry_ok (length sh) q Hq ltac:(lia)) as (q' & E' & Hb & _ & Hr); [rewrite F1, F2 by exact Hq; exact Hn|].
    rewrite F1, !F2 in Hr by assumption. rewrite E'. cbn [bind]. exists q'. rewrite <- Hr. auto.
  Qed.
  Lemma it_last_ok q : row_pos (ceils sh cs) q + 1 = N ->
    it_next g N (mk_it q (row_pos (ceils sh cs) q) (boxes q cs sh)) = Ok (mk_it q N (boxes q cs sh)).
  Proof.
    intros E. unfold it_next. cbn [it_linear it_index it_slices]. rewrite E, Z.eqb_refl. reflexivity.
  Qed.
  Lemma zeros_in : 0 < N -> in_bounds (ceils sh cs) (repeat 0 (length sh)) /\ row_pos (ceils sh cs) (repeat 0 (length sh)) = 0.
  Proof.
    intros Hn. assert (Hp : Forall (fun d => 0 < d) (ceils sh cs)) by (apply Accum2_Proofs.pos_of_prod; [apply ceils_shape; exact H|exact Hn]).
    rewrite <- (ceils_length sh cs H). clear - Hp. induction Hp as [|d l Hd _ [IH1 IH2]]; cbn [length repeat]; [split; [constructor|reflexivity]|].
    split; [constructor; [lia|exact IH1]|]. cbn [row_pos]. rewrite IH2. lia.
  Qed.
  Lemma it_begin_ok : it_begin g = Ok (mk_it (repeat 0 (length sh)) 0 (boxes (repeat 0 (length sh)) cs sh)).
  Proof. unfold it_begin. cbn [g_shape g]. apply it_make_ok. apply repeat_length. Qed.

  (** A loop over the chunks. *)
  Lemma loop_ok {S} (P : Z -> S -> Prop) (step : chunk_it -> S -> res S) s0 : P 0 s0 ->
    (forall q s, in_bounds (ceils sh cs) q -> P (row_pos (ceils sh cs) q) s ->
       exists s', step (mk_it q (row_pos (ceils sh cs) q) (boxes q cs sh)) s = Ok s' /\ P (row_pos (ceils sh cs) q + 1) s') ->
    exists it it' s', it_begin g = Ok it /\
      for_up (fun _ '(it, s) => let* s' := step it s in let* it' := it_next g N it in Ok (it', s')) 0 (Z.to_nat N) (it, s0) = Ok (it', s') /\ P N s'.
  Proof.
    intros H0 Hstep. eexists. destruct (Z.eq_dec N 0) as [Z0|NZ].
    { rewrite Z0. do 2 eexists. split; [apply it_begin_ok|]. split; [reflexivity|exact H0]. }
    assert (HN : 0 < N) by (pose proof (prod_nonneg _ (ceils_shape sh cs H)); unfold N in *; lia).
    destruct (zeros_in HN) as [Hz1 Hz2].
    destruct (for_up_inv (fun n '(it, s) => P (Z.of_nat n) s /\ (Z.of_nat n < N -> exists q, in_bounds (ceils sh cs) q /\ row_pos (ceils sh cs) q = Z.of_nat n /\
        it = mk_it q (row_pos (ceils sh cs) q) (boxes q cs sh)))
      (fun _ '(it, s) => let* s' := step it s in let* it' := it_next g N it in Ok (it', s')) 0 (Z.to_nat N)
      (mk_it (repeat 0 (length sh)) 0 (boxes (repeat 0 (length sh)) cs sh), s0)) as ([it' s'] & E & HP & _).
    - split; [exact H0|]. intros _. exists (repeat 0 (length sh)). rewrite Hz2. auto.
    - intros i [it s] Hi [HP Hq]. destruct (Hq ltac:(lia)) as (q & Hq1 & Hq2 & ->).
      rewrite <- Hq2 in HP. destruct (Hstep q s Hq1 HP) as (s' & E & HP'). rewrite E. cbn [bind].
      destruct (Z.eq_dec (row_pos (ceils sh cs) q + 1) N) as [EN|NN].
      + rewrite (it_last_ok q EN). cbn [bind]. eexists. split; [reflexivity|]. cbn beta iota. split; [|intros; lia].
        replace (Z.of_nat (Datatypes.S i)) with (row_pos (ceils sh cs) q + 1) by lia. exact HP'.
      + destruct (it_next_ok q Hq1 ltac:(lia)) as (q' & E' & Hq' & Hr'). rewrite E'. cbn [bind]. eexists. split; [reflexivity|]. cbn beta iota.
        replace (Z.of_nat (Datatypes.S i)) with (row_pos (ceils sh cs) q + 1) by lia. split; [exact HP'|]. intros _. exists q'. auto.
    - exists it', s'. split; [apply it_begin_ok|]. split; [exact E|]. cbn in HP. rewrite Z2Nat.id in HP by lia. exact HP.
  Qed.

  Lemma it_after_ok n : (n < Z.to_nat N)%nat -> exists q, it_after g N n = Ok (mk_it q (row_pos (ceils sh cs) q) (boxes q cs sh)) /\
    in_bounds (ceils sh cs) q /\ row_pos (ceils sh cs) q = Z.of_nat n.
  Proof.
    induction n as [|n IH]; intros Hn.
    - destruct zeros_in as [Hz1 Hz2]; [lia|]. exists (repeat 0 (length sh)). rewrite Hz2. split; [apply it_begin_ok|auto].
    - destruct IH as (q & E & Hq & Hr); [lia|]. cbn [it_after]. rewrite E. cbn [bind].
      destruct (it_next_ok q Hq ltac:(lia)) as (q' & E' & Hq' & Hr'). exists q'. split; [exact E'|]. split; [exact Hq'|lia].
  Qed.
  Lemma it_end_ok it : 0 < N -> it_after g N (Z.to_nat N) = Ok it -> it_linear it = N.
  Proof.
    intros HN E. destruct (Z.to_nat N) as [|n] eqn:En; [lia|]. cbn [it_after] in E.
    destruct (it_after_ok n ltac:(lia)) as (q & E' & Hq & Hr). rewrite E' in E. cbn [bind] in E.
    rewrite it_last_ok in E by lia. injection E as <-. reflexivity.
  Qed.
End It.
