(** Proofs about svector: memory and the single operations. *)
From Coq Require Import List ZArith Bool Arith Lia.
From Verif Require Import Prelude PreludeFacts Svector_Model Svector_Spec.
Import ListNotations.
Open Scope nat_scope.

Section P.
Context {V : Type} (N : nat) (zero : V).
Implicit Types (h : heap V) (l m : list V) (blk : block V).

Definition live h b := exists blk, nth_error h b = Some (Some blk).
Definition splice blk i l : block V := firstn i blk ++ map Some l ++ skipn (i + length l) blk.

Lemma live_lt h b : live h b -> b < length h.
Proof. intros (blk & E). apply nth_error_Some. congruence. Qed.
Lemma read_ok h b i blk v : nth_error h b = Some (Some blk) -> nth_error blk i = Some (Some v) -> mem_read h b i = Ok v.
Proof. intros E1 E2. unfold mem_read. rewrite E1, E2. reflexivity. Qed.
Lemma read_inv h b i v : mem_read h b i = Ok v -> exists blk, nth_error h b = Some (Some blk) /\ nth_error blk i = Some (Some v).
Proof.
  unfold mem_read. destruct (nth_error h b) as [[blk|]|] eqn:E1; try discriminate. destruct (nth_error blk i) as [[x|]|] eqn:E2; try discriminate.
  intros E. injection E as ->. eauto.
Qed.
Lemma write_ok asg h b i blk v : nth_error h b = Some (Some blk) -> i < length blk ->
  mem_write true asg h b i v = Ok (upd h b (Some (upd blk i (Some v)))).
Proof.
  intros E1 E2. unfold mem_write. rewrite E1. destruct (nth_error blk i) as [[x|]|] eqn:E; [reflexivity| |].
  - cbn. rewrite andb_false_r. reflexivity.
  - apply nth_error_None in E. lia.
Qed.

Lemma skipn_twice {A} (x : list A) : forall i j, skipn i (skipn j x) = skipn (j + i) x.
Proof. induction x as [|a x IH]; intros i [|j]; cbn; auto. destruct i; reflexivity. Qed.
Lemma splice_nil blk i : splice blk i [] = blk.
Proof. unfold splice. cbn. rewrite Nat.add_0_r. apply firstn_skipn. Qed.
Lemma upd_firstn_skipn {A} (x : list A) i a : i < length x -> upd x i a = firstn i x ++ a :: skipn (S i) x.
Proof.
  revert i. induction x as [|y x IH]; intros [|i] H; cbn in *; try lia; [reflexivity|]. rewrite IH by lia. reflexivity.
Qed.
Lemma splice_cons blk i v l : i + S (length l) <= length blk -> splice (upd blk i (Some v)) (S i) l = splice blk i (v :: l).
Proof.
  intros H. unfold splice. rewrite upd_firstn_skipn by lia. cbn [map app length].
  assert (L : length (firstn i blk) = i) by (apply firstn_length_le; lia).
  rewrite (firstn_app (S i)), L. replace (S i - i) with 1 by lia. rewrite firstn_all2 by lia. cbn [firstn].
  rewrite skipn_app, L. rewrite skipn_all2 by lia. replace (S i + length l - i) with (S (length l)) by lia. cbn [app].
  rewrite <- app_assoc. cbn [app]. do 3 f_equal.
  cbn [skipn]. change (match blk with [] => [] | _ :: l0 => skipn i l0 end) with (skipn (S i) blk). rewrite skipn_twice. f_equal. lia.
Qed.
Lemma splice_length blk i l : i + length l <= length blk -> length (splice blk i l) = length blk.
Proof. intros H. unfold splice. rewrite !app_length, map_length, firstn_length, skipn_length. lia. Qed.

Lemma copy_list_ok asg : forall l h b i blk, nth_error h b = Some (Some blk) -> i + length l <= length blk ->
  copy_list true asg h l b i = Ok (upd h b (Some (splice blk i l))).
Proof.
  induction l as [|v l IH]; intros h b i blk E H; cbn [copy_list length] in *.
  - rewrite splice_nil, upd_nth_self by assumption. reflexivity.
  - rewrite (write_ok asg h b i blk v) by (try assumption; lia). cbn [bind].
    assert (Hb : b < length h) by (apply nth_error_Some; congruence).
    rewrite (IH _ b (S i) (upd blk i (Some v))).
    + rewrite upd_upd_same, splice_cons by lia. reflexivity.
    + apply nth_error_upd_same. assumption.
    + rewrite upd_length. lia.
Qed.

(** The cells of a block from position i hold l. *)
Definition cells blk i l := forall k v, nth_error l k = Some v -> nth_error blk (i + k) = Some (Some v).
Lemma cells_tl blk i v l : cells blk i (v :: l) -> cells blk (S i) l.
Proof. intros H k x E. specialize (H (S k) x E). replace (S i + k) with (i + S k) by lia. exact H. Qed.

Lemma copy_fwd_list asg : forall l h sb si sblk db di blk,
  nth_error h sb = Some (Some sblk) -> cells sblk si l -> nth_error h db = Some (Some blk) -> di + length l <= length blk ->
  (sb <> db \/ di <= si) -> copy_fwd true asg h sb si db di (length l) = copy_list true asg h l db di.
Proof.
  induction l as [|v l IH]; intros h sb si sblk db di blk Es Hc Ed Hl Hd; [reflexivity|]. cbn [copy_fwd copy_list length] in *.
  assert (Hr : nth_error sblk si = Some (Some v)) by (rewrite <- (Nat.add_0_r si); apply Hc; reflexivity).
  rewrite (read_ok _ _ _ _ _ Es Hr). cbn [bind]. rewrite (write_ok asg h db di blk v) by (try assumption; lia). cbn [bind].
  assert (Hb : db < length h) by (apply nth_error_Some; congruence).
  destruct (Nat.eq_dec sb db) as [->|Hne].
  - assert (blk = sblk) by congruence. subst blk.
    apply (IH _ db (S si) (upd sblk di (Some v)) db (S di) (upd sblk di (Some v))).
    + apply nth_error_upd_same. assumption.
    + intros k x E. rewrite nth_error_upd_other by lia. apply (cells_tl _ _ _ _ Hc). exact E.
    + apply nth_error_upd_same. assumption.
    + rewrite upd_length. lia.
    + right. lia.
  - apply (IH _ sb (S si) sblk db (S di) (upd blk di (Some v))).
    + rewrite nth_error_upd_other by congruence. exact Es.
    + eapply cells_tl. exact Hc.
    + apply nth_error_upd_same. assumption.
    + rewrite upd_length. lia.
    + left. exact Hne.
Qed.

Lemma copy_bwd_ok : forall l h b si di blk, nth_error h b = Some (Some blk) -> cells blk si l -> di + length l <= length blk -> si <= di ->
  copy_bwd true h b si b di (length l) = Ok (upd h b (Some (splice blk di l))).
Proof.
  induction l as [|v l IH] using rev_ind; intros h b si di blk E Hc Hl Hd.
  - cbn. rewrite splice_nil, upd_nth_self by assumption. reflexivity.
  - rewrite app_length in *. cbn [length] in *. rewrite Nat.add_1_r in *. cbn [copy_bwd].
    assert (Hr : nth_error blk (si + length l) = Some (Some v)).
    { apply Hc. rewrite nth_error_app2, Nat.sub_diag by lia. reflexivity. }
    rewrite (read_ok _ _ _ _ _ E Hr). cbn [bind]. rewrite (write_ok true h b _ blk v) by (try assumption; lia). cbn [bind].
    assert (Hb : b < length h) by (apply nth_error_Some; congruence).
    rewrite (IH _ b si di (upd blk (di + length l) (Some v))).
    + rewrite upd_upd_same. do 3 f_equal. unfold splice. rewrite upd_firstn_skipn by lia.
      assert (L : length (firstn (di + length l) blk) = di + length l) by (apply firstn_length_le; lia).
      rewrite firstn_app, L, firstn_firstn. replace (Nat.min di (di + length l)) with di by lia.
      replace (di - (di + length l)) with 0 by lia. rewrite skipn_app, L, Nat.sub_diag. rewrite (skipn_all2 (firstn (di + length l) blk)) by lia. cbn [firstn skipn app].
      rewrite app_nil_r, map_app, app_length. cbn [map length app]. rewrite <- app_assoc. cbn [app]. replace (di + (length l + 1)) with (S (di + length l)) by lia. reflexivity.
    + apply nth_error_upd_same. assumption.
    + intros k x Ex. assert (k < length l) by (apply nth_error_Some; congruence).
      rewrite nth_error_upd_other by lia. apply Hc. rewrite nth_error_app1 by lia. exact Ex.
    + rewrite upd_length. lia.
    + lia.
Qed.

(** Arguments that do not live in block b. *)
Definition arg_apart h b (a : arg V) v :=
  match a with AVal x => x = v | ARef b' i' => b' <> b /\ mem_read h b' i' = Ok v end.
Lemma read_other h b x b' i : b' <> b -> mem_read (upd h b x) b' i = mem_read h b' i.
Proof. intros H. unfold mem_read. rewrite nth_error_upd_other by congruence. reflexivity. Qed.
Lemma fill_ok : forall n h b i a v blk, arg_apart h b a v -> nth_error h b = Some (Some blk) -> i + n <= length blk ->
  fill true h b i n a = Ok (upd h b (Some (splice blk i (repeat v n)))).
Proof.
  intros n h b i a v blk Ha E Hl. transitivity (copy_list true true h (repeat v n) b i); [|apply copy_list_ok; [exact E|rewrite repeat_length; lia]].
  revert h i blk Ha E Hl. induction n as [|n IH]; intros h i blk Ha E Hl; [reflexivity|]. cbn [fill repeat copy_list].
  assert (Hr : arg_read h a = Ok v) by (destruct a as [x|b' i']; cbn in *; [congruence|apply Ha]).
  rewrite Hr. cbn [bind]. rewrite (write_ok true h b i blk v) by (try assumption; lia). cbn [bind].
  apply (IH _ _ (upd blk i (Some v))).
  - destruct a as [x|b' i']; cbn in *; [exact Ha|]. destruct Ha as [H1 H2]. split; [exact H1|]. rewrite read_other by assumption. exact H2.
  - apply nth_error_upd_same. apply nth_error_Some. congruence.
  - rewrite upd_length. lia.
Qed.

(** ** Objects *)
Definition owns h (o : obj) l :=
  exists rest, nth_error h (o_begin o) = Some (Some (map Some l ++ rest)) /\ o_size o = length l /\
    o_cap o = length l + length rest /\ N <= o_cap o /\
    exists inl, nth_error h (o_inline o) = Some (Some inl) /\ length inl = inline_cap N.

Definition frame h (o : obj) h' (o' : obj) :=
  (forall b, b < length h -> b <> o_begin o -> nth_error h' b = nth_error h b) /\
  o_inline o' = o_inline o /\
  (o_begin o' = o_begin o \/ length h <= o_begin o') /\
  length h <= length h' /\
  (forall b, live h' b -> b = o_begin o' \/ b = o_inline o \/ (b <> o_begin o /\ live h b)).

Lemma frame_refl h o n : frame h o h (with_size o n).
Proof.
  split; [auto|]. split; [reflexivity|]. split; [left; reflexivity|]. split; [lia|]. intros b Hb.
  destruct (Nat.eq_dec b (o_begin o)) as [->|]; [left; reflexivity|auto].
Qed.
Lemma frame_trans h o h1 o1 h2 o2 : frame h o h1 o1 -> frame h1 o1 h2 o2 -> frame h o h2 o2.
Proof.
  intros (A1 & A2 & A3 & A4 & A5) (B1 & B2 & B3 & B4 & B5). split; [|split; [|split; [|split]]].
  - intros b H1 H2. rewrite B1; [apply A1; assumption|lia|]. destruct A3 as [->|]; [exact H2|lia].
  - congruence.
  - destruct B3 as [->|]; [exact A3|right; lia].
  - lia.
  - intros b Hb. destruct (B5 b Hb) as [H|[H|[H1 H2]]]; [auto|right; left; congruence|].
    destruct (A5 b H2) as [H|[H|H]]; [contradiction|auto|auto].
Qed.

Lemma splice_owned l (rest : block V) i m : i <= length l ->
  splice (map Some l ++ rest) i m = map Some (firstn i l ++ m ++ skipn (i + length m) l) ++ skipn (i + length m - length l) rest.
Proof.
  intros H. unfold splice. rewrite firstn_app, map_length. replace (i - length l) with 0 by lia. cbn [firstn]. rewrite app_nil_r.
  rewrite skipn_app, map_length, !map_app, <- !app_assoc, firstn_map, skipn_map. reflexivity.
Qed.

(** Overwriting cells and moving the end. *)
Lemma set_splice h o l blk i m n : owns h o l -> nth_error h (o_begin o) = Some (Some blk) ->
  i <= length l -> i + length m <= o_cap o -> n <= length (firstn i l ++ m ++ skipn (i + length m) l) ->
  let h' := upd h (o_begin o) (Some (splice blk i m)) in
  owns h' (with_size o n) (firstn n (firstn i l ++ m ++ skipn (i + length m) l)) /\ frame h o h' (with_size o n).
Proof.
  intros (rest & E1 & E2 & E3 & E4 & inl & E5 & E6) Eb Hi Hm Hn h'. assert (blk = map Some l ++ rest) by congruence. subst blk.
  assert (Hb : o_begin o < length h) by (apply nth_error_Some; congruence).
  set (L := firstn i l ++ m ++ skipn (i + length m) l) in *.
  assert (LL : length L + length (skipn (i + length m - length l) rest) = o_cap o).
  { unfold L. rewrite !app_length, !skipn_length, firstn_length. lia. }
  split.
  - exists (map Some (skipn n L) ++ skipn (i + length m - length l) rest). cbn [with_size o_begin o_size o_cap o_inline].
    split; [unfold h'; rewrite nth_error_upd_same by assumption; rewrite splice_owned by assumption; fold L; rewrite app_assoc, <- map_app, firstn_skipn; reflexivity|].
    assert (Lf : length (firstn n L) = n) by (apply firstn_length_le; exact Hn).
    split; [symmetry; exact Lf|]. split; [rewrite app_length, map_length, skipn_length, Lf; lia|]. split; [exact E4|].
    unfold h'. destruct (Nat.eq_dec (o_begin o) (o_inline o)) as [Eq|Ne].
    + rewrite <- Eq, nth_error_upd_same by assumption. eexists. split; [reflexivity|]. rewrite splice_length.
      * rewrite <- Eq, E1 in E5. injection E5 as E5. rewrite <- E6, <- E5. reflexivity.
      * rewrite app_length, map_length. lia.
    + exists inl. rewrite nth_error_upd_other by congruence. auto.
  - split; [intros b _ Hne; unfold h'; apply nth_error_upd_other; congruence|]. split; [reflexivity|]. split; [left; reflexivity|].
    split; [unfold h'; rewrite upd_length; lia|]. intros b (x & Hx). cbn. destruct (Nat.eq_dec b (o_begin o)) as [->|Hne]; [auto|].
    right. right. split; [exact Hne|]. exists x. unfold h' in Hx. rewrite nth_error_upd_other in Hx by congruence. exact Hx.
Qed.

Lemma owns_shrink h o l n : owns h o l -> n <= length l -> owns h (with_size o n) (firstn n l).
Proof.
  intros (rest & E1 & E2 & E3 & E4 & E5) Hn. exists (map Some (skipn n l) ++ rest). cbn.
  rewrite app_assoc, <- map_app, firstn_skipn. split; [exact E1|]. rewrite app_length, map_length, skipn_length, firstn_length_le by assumption.
  split; [reflexivity|]. split; [lia|]. auto.
Qed.

Lemma owns_cells h o l blk : owns h o l -> nth_error h (o_begin o) = Some (Some blk) -> cells blk 0 l /\ length blk = o_cap o.
Proof.
  intros (rest & E1 & E2 & E3 & _) E. assert (blk = map Some l ++ rest) by congruence. subst blk. split.
  - intros k v Hk. cbn. rewrite nth_error_app1 by (rewrite map_length; apply nth_error_Some; congruence). rewrite nth_error_map, Hk. reflexivity.
  - rewrite app_length, map_length. lia.
Qed.
Lemma owns_block h o l : owns h o l -> exists blk, nth_error h (o_begin o) = Some (Some blk).
Proof. intros (rest & E & _). eauto. Qed.
Lemma owns_size h o l : owns h o l -> o_size o = length l.
Proof. intros (rest & _ & E & _). exact E. Qed.
Lemma owns_cap h o l : owns h o l -> length l <= o_cap o /\ N <= o_cap o.
Proof. intros (rest & _ & _ & E & E' & _). lia. Qed.
Lemma owns_read h o l k v : owns h o l -> nth_error l k = Some v -> mem_read h (o_begin o) k = Ok v.
Proof.
  intros Ho Hk. destruct (owns_block _ _ _ Ho) as (blk & E). eapply read_ok; [exact E|]. apply (owns_cells _ _ _ _ Ho E). exact Hk.
Qed.
Lemma cells_skip blk l i : cells blk 0 l -> cells blk i (skipn i l).
Proof. intros H k v E. apply (H (i + k)). rewrite <- E. apply eq_sym, nth_error_skipn. Qed.
Lemma cells_firstn blk i l n : cells blk i l -> cells blk i (firstn n l).
Proof.
  intros H k v E. apply H. assert (Hk : k < n).
  { destruct (Nat.lt_ge_cases k n); [assumption|]. exfalso. assert (Hn : nth_error (firstn n l) k = None) by (apply nth_error_None; rewrite firstn_length; lia). congruence. }
  rewrite nth_error_firstn in E by assumption. exact E.
Qed.

(** ** grow *)
Lemma grow_ok h o l mc : owns h o l -> N <= mc \/ N <= length l ->
  exists h' o', s_grow true h o mc = Ok (h', o') /\ owns h' o' l /\ frame h o h' o' /\ length l < o_cap o' /\ mc <= o_cap o' /\
    o_begin o' = length h /\ (on_stack o = true -> forall b, b < length h -> nth_error h' b = nth_error h b).
Proof.
  intros Ho HN. pose proof Ho as (rest & E1 & E2 & E3 & E4 & inl & E5 & E6). unfold s_grow.
  set (nc := if 2 * o_size o + 1 <? mc then mc else 2 * o_size o + 1). unfold mem_alloc. cbv beta iota zeta. fold nc.
  assert (Hnc : length l < nc /\ mc <= nc /\ N <= nc).
  { unfold nc. rewrite E2. destruct (Nat.ltb_spec (2 * length l + 1) mc); lia. }
  assert (Hb : o_begin o < length h) by (apply nth_error_Some; congruence).
  assert (Hi : o_inline o < length h) by (apply nth_error_Some; congruence).
  set (h1 := h ++ [Some (repeat None nc)]).
  assert (X1 : nth_error h1 (o_begin o) = Some (Some (map Some l ++ rest))) by (unfold h1; rewrite nth_error_app1 by assumption; exact E1).
  assert (X2 : nth_error h1 (length h) = Some (Some (repeat None nc))) by (unfold h1; rewrite nth_error_app2, Nat.sub_diag by lia; reflexivity).
  rewrite E2. rewrite (copy_fwd_list false l h1 (o_begin o) 0 (map Some l ++ rest) (length h) 0 (repeat None nc)); try assumption.
  2:{ apply (owns_cells h o l _ Ho E1). }
  2:{ rewrite repeat_length. lia. }
  2:{ left. lia. }
  rewrite (copy_list_ok false l h1 (length h) 0 (repeat None nc)) by (try assumption; rewrite repeat_length; lia). cbn [bind].
  set (blk := splice (repeat None nc) 0 l). set (h2 := upd h1 (length h) (Some blk)).
  assert (Hblk : blk = map Some l ++ repeat None (nc - length l)).
  { unfold blk, splice. cbn [firstn app]. f_equal. cbn [Nat.add]. clearbody nc. clear. revert nc. induction (length l) as [|n IH]; intros [|nc]; cbn; auto. }
  assert (L1 : length h1 = S (length h)) by (unfold h1; rewrite app_length; cbn; lia).
  assert (Y : forall b, b < length h -> nth_error h2 b = nth_error h b).
  { intros b Hlt. unfold h2. rewrite nth_error_upd_other by lia. unfold h1. apply nth_error_app1. exact Hlt. }
  assert (Yn : nth_error h2 (length h) = Some (Some blk)) by (unfold h2; apply nth_error_upd_same; lia).
  assert (L2 : length h2 = S (length h)) by (unfold h2; rewrite upd_length; exact L1).
  assert (Hown : forall h3, nth_error h3 (length h) = Some (Some blk) -> nth_error h3 (o_inline o) = Some (Some inl) ->
            owns h3 (mk_obj (o_inline o) (length h) (length l) nc) l).
  { intros h3 Z1 Z2. exists (repeat None (nc - length l)). cbn. rewrite Z1, Hblk, repeat_length. split; [reflexivity|]. split; [reflexivity|].
    split; [lia|]. split; [lia|]. exists inl. auto. }
  destruct (on_stack o) eqn:Est.
  - apply Nat.eqb_eq in Est. cbn [bind]. do 2 eexists. split; [reflexivity|]. split; [apply Hown; [exact Yn|rewrite Y by assumption; exact E5]|].
    split; [|cbn; split; [lia|split; [lia|split; [reflexivity|intros _; exact Y]]]].
    split; [intros b H1 _; apply Y; exact H1|]. split; [reflexivity|]. split; [right; cbn; lia|]. split; [lia|].
    intros b Hbl. pose proof (live_lt _ _ Hbl) as Hlt. rewrite L2 in Hlt. cbn.
    destruct (Nat.eq_dec b (length h)) as [->|]; [auto|]. destruct (Nat.eq_dec b (o_begin o)) as [->|]; [auto|].
    right. right. split; [assumption|]. destruct Hbl as (x & Hx). exists x. rewrite Y in Hx by lia. exact Hx.
  - apply Nat.eqb_neq in Est. unfold mem_free. rewrite (Y _ Hb), E1. cbn [bind].
    set (h3 := upd h2 (o_begin o) None).
    assert (Y3 : forall b, b <> o_begin o -> nth_error h3 b = nth_error h2 b) by (intros b Hne; unfold h3; apply nth_error_upd_other; congruence).
    do 2 eexists. split; [reflexivity|].
    split; [apply Hown; [rewrite Y3 by lia; exact Yn|rewrite Y3 by congruence; rewrite Y by assumption; exact E5]|].
    split; [|cbn; split; [lia|split; [lia|split; [reflexivity|discriminate]]]].
    split; [intros b H1 H2; rewrite Y3 by assumption; apply Y; exact H1|]. split; [reflexivity|]. split; [right; cbn; lia|].
    split; [unfold h3; rewrite upd_length; lia|].
    intros b Hbl. pose proof (live_lt _ _ Hbl) as Hlt. unfold h3 in Hlt. rewrite upd_length, L2 in Hlt. cbn. destruct Hbl as (x & Hx).
    destruct (Nat.eq_dec b (o_begin o)) as [->|Hne].
    + unfold h3 in Hx. rewrite nth_error_upd_same in Hx by lia. discriminate.
    + destruct (Nat.eq_dec b (length h)) as [->|]; [auto|]. right. right. split; [exact Hne|].
      exists x. rewrite Y3, Y in Hx by lia. exact Hx.
Qed.

Lemma grow_if_ok h o l n : owns h o l ->
  exists h' o', grow_if N true h o n = Ok (h', o') /\ owns h' o' l /\ frame h o h' o' /\ n <= o_cap o'.
Proof.
  intros Ho. pose proof (owns_cap _ _ _ Ho) as [C1 C2]. unfold grow_if. destruct (Nat.ltb_spec N n) as [H1|H1]; destruct (Nat.ltb_spec (o_cap o) n) as [H2|H2]; cbn [andb].
  2-4: exists h, o; (split; [reflexivity|]); (split; [exact Ho|]); (split; [|lia]); destruct o; apply frame_refl.
  destruct (grow_ok h o l n Ho) as (h' & o' & E & H & F & _ & G & _); [lia|]. exists h', o'. auto.
Qed.
End P.
