(** The index arithmetic of the strided loop. *)
From Coq Require Import List ZArith Bool Lia.
From Verif Require Import Prelude PreludeFacts Strides_Model Strides_Spec Strides_Proofs
  Stepper_Model Stepper_Spec Stepper_Proofs Stepper2_Proofs Stepper3_Proofs Stepper4_Proofs Container_Proofs Assign_Model Assign_Spec.
Import ListNotations.
Open Scope Z_scope.

(** ** next_idx *)
Fixpoint col_succ (s r : list Z) : list Z :=
  match s, r with
  | d :: s', x :: r' => if d <=? x + 1 then 0 :: col_succ s' r' else (x + 1) :: r'
  | _, _ => r
  end.

Lemma col_succ_length : forall s r, length (col_succ s r) = length r.
Proof. induction s as [|d s IH]; intros [|x r]; cbn; auto. destruct (d <=? x + 1); cbn; auto. Qed.

Lemma col_succ_ok : forall s r, in_bounds s r ->
  in_bounds s (col_succ s r) /\
  (col_pos s r + 1 < prod s -> col_pos s (col_succ s r) = col_pos s r + 1) /\
  (col_pos s r + 1 = prod s -> col_succ s r = repeat 0 (length s)).
Proof.
  intros s r H. induction H as [|d x s r Hd H (IH1 & IH2 & IH3)]; cbn [col_succ].
  - split; [constructor|]. cbn. rewrite prod_nil. split; [lia|reflexivity].
  - rewrite prod_cons. pose proof (col_pos_bound s r H) as Hb. destruct (Z.leb_spec d (x + 1)) as [E|E].
    + assert (x = d - 1) by lia. subst x. split; [constructor; [lia|assumption]|]. cbn [col_pos]. split.
      * intros Hlt. rewrite IH2 by nia. ring.
      * intros Heq. cbn [length repeat]. f_equal. apply IH3. nia.
    + split; [constructor; [lia|assumption]|]. cbn [col_pos]. split; [intros; ring|]. intros Heq. exfalso. nia.
Qed.

Lemma next_idx_col_ok : forall s2 s1 i1 i2, length i1 = length s1 -> length i2 = length s2 ->
  next_idx_col (length i2) (i1 ++ i2) (s1 ++ s2) = Ok (i1 ++ col_succ s2 i2).
Proof.
  induction s2 as [|d s2 IH]; intros s1 i1 i2 H1 H2; destruct i2 as [|x i2]; try discriminate; cbn [length next_idx_col]; [reflexivity|].
  rewrite app_length. cbn [length]. replace (length i1 + S (length i2) - S (length i2))%nat with (length i1) by lia.
  rewrite (rdm i1 x i2) by reflexivity. cbn [bind]. rewrite (rdm s1 d s2) by assumption. cbn [bind col_succ].
  destruct (d <=? x + 1).
  - rewrite wrm by reflexivity. cbn [bind]. replace (i1 ++ 0 :: i2) with ((i1 ++ [0]) ++ i2) by (rewrite <- app_assoc; reflexivity).
    replace (s1 ++ d :: s2) with ((s1 ++ [d]) ++ s2) by (rewrite <- app_assoc; reflexivity).
    rewrite IH; [|rewrite !app_length; cbn; lia|cbn in H2; lia]. rewrite <- app_assoc. reflexivity.
  - apply wrm. reflexivity.
Qed.

Lemma next_idx_row_ok : forall s1 s2 i1 i2, length i1 = length s1 -> 
  next_idx_row (length i1) (rev i1 ++ i2) (rev s1 ++ s2) = Ok (rev (col_succ s1 i1) ++ i2).
Proof.
  induction s1 as [|d s1 IH]; intros s2 i1 i2 H1; destruct i1 as [|x i1]; try discriminate; cbn [length next_idx_row]; [reflexivity|].
  cbn [rev]. rewrite <- !app_assoc. cbn [app]. rewrite (rdm (rev i1) x i2) by (rewrite rev_length; reflexivity). cbn [bind].
  rewrite (rdm (rev s1) d s2) by (rewrite rev_length; cbn in H1; lia). cbn [bind col_succ].
  destruct (d <=? x + 1).
  - rewrite wrm by (rewrite rev_length; reflexivity). cbn [bind]. rewrite IH by (cbn in H1; lia). cbn [rev]. rewrite <- app_assoc. reflexivity.
  - rewrite wrm by (rewrite rev_length; reflexivity). cbn [rev]. rewrite <- app_assoc. reflexivity.
Qed.

Definition ord (row : bool) : layout := if row then row_major else column_major.
Lemma ord_rc row : ord row = row_major \/ ord row = column_major.
Proof. destruct row; auto. Qed.

Lemma repeat_rev {A} (x : A) n : rev (repeat x n) = repeat x n.
Proof.
  induction n; [reflexivity|]. cbn [repeat rev]. rewrite IHn. clear IHn. induction n; [reflexivity|]. cbn. f_equal. assumption.
Qed.

Lemma next_idx_ok row s r : in_bounds s r -> exists r', next_idx row r s = Ok r' /\ in_bounds s r' /\
  (order_pos (ord row) s r + 1 < prod s -> order_pos (ord row) s r' = order_pos (ord row) s r + 1) /\
  (order_pos (ord row) s r + 1 = prod s -> r' = repeat 0 (length s)).
Proof.
  intros H. pose proof (in_bounds_length _ _ H) as HL. destruct row; cbn [ord order_pos next_idx].
  - pose proof (in_bounds_rev _ _ H) as Hr. destruct (col_succ_ok _ _ Hr) as (A & B & C).
    exists (rev (col_succ (rev s) (rev r))). 
    assert (LS : length (col_succ (rev s) (rev r)) = length s) by (rewrite col_succ_length, rev_length; assumption).
    split; [|split; [|split]].
    + pose proof (next_idx_row_ok (rev s) [] (rev r) [] ltac:(rewrite !rev_length; assumption)) as E.
      rewrite !rev_involutive, !app_nil_r, rev_length in E. exact E.
    + apply in_bounds_rev in A. rewrite rev_involutive in A. exact A.
    + rewrite !(row_col_rev s) by (rewrite ?rev_length; congruence). rewrite rev_involutive. intros Hlt. apply B. rewrite prod_rev. exact Hlt.
    + rewrite (row_col_rev s) by assumption. intros Heq. rewrite C by (rewrite prod_rev; exact Heq). rewrite repeat_rev, rev_length. reflexivity.
  - destruct (col_succ_ok _ _ H) as (A & B & C). exists (col_succ s r). split; [|auto].
    pose proof (next_idx_col_ok s [] [] r eq_refl HL) as E. exact E.
Qed.

(** ** nth_idx *)
Lemma row_pos_snoc : forall s d i x, length i = length s -> row_pos (s ++ [d]) (i ++ [x]) = row_pos s i * d + x.
Proof.
  induction s as [|e s IH]; intros d [|j i] x H; try discriminate; cbn [app row_pos].
  - rewrite prod_nil. ring.
  - rewrite IH by (cbn in H; lia). rewrite prod_app. replace (prod [d]) with d by (rewrite prod_cons, prod_nil; ring). ring.
Qed.

Lemma skipn_nth_cons {A} (l : list A) i d : (i < length l)%nat -> skipn i l = nth i l d :: skipn (S i) l.
Proof. revert i. induction l; intros [|i] H; cbn in *; try lia; auto. apply IHl. lia. Qed.
Lemma firstn_nth_snoc {A} (l : list A) i d : (i < length l)%nat -> firstn (S i) l = firstn i l ++ [nth i l d].
Proof. revert i. induction l; intros [|i] H; cbn in *; try lia; auto. f_equal. apply IHl. lia. Qed.
Lemma firstn_upd_same {A} (l : list A) i v : firstn i (upd l i v) = firstn i l.
Proof. revert i. induction l; intros [|i]; cbn; auto. f_equal. apply IHl. Qed.
Lemma skipn_upd_same {A} (l : list A) i v : skipn (S i) (upd l i v) = skipn (S i) l.
Proof. revert i. induction l; intros [|i]; cbn; auto. destruct l; [reflexivity|]. exact (IHl i). Qed.

Lemma nth_idx_ok row s n idx : Forall (fun d => 0 < d) s -> 0 <= n < prod s -> length idx = length s ->
  exists r, nth_idx row n idx s = Ok r /\ in_bounds s r /\ order_pos (ord row) s r = n.
Proof.
  intros Hpos Hn Hlen. unfold nth_idx.
  assert (Hfp : forall i, 0 < prod (firstn i s)) by (intros; apply prod_pos'; apply Forall_firstn'; assumption).
  assert (Hsp : forall i, 0 < prod (skipn i s)) by (intros; apply prod_pos'; apply Forall_skipn'; assumption).
  assert (Hnp : forall i, (i < length s)%nat -> 0 < nth i s 0).
  { intros i Hi. rewrite Forall_forall in Hpos. apply Hpos. apply nth_In. assumption. }
  destruct row; cbn [ord order_pos].
  - destruct (for_down_inv (fun i (ss : list Z) => length ss = length s /\
        forall j, (i <= j < length s)%nat -> nth j ss 0 = prod (skipn (S j) s))
      (fun i ss => if (i + 1 =? length s)%nat then wr ss i 1
                   else let* x := rd ss (i + 1) in let* d := rd s (i + 1) in wr ss i (x * d))
      (length s) (repeat 0 (length s))) as (ss & E & L1 & L2).
    { split; [apply repeat_length|]. intros; lia. }
    { intros i ss Hi (H1 & H2). destruct (Nat.eqb_spec (i + 1) (length s)) as [Ee|Ee].
      - rewrite wr_ok by lia. eexists. split; [reflexivity|]. rewrite upd_length. split; [assumption|]. intros j Hj.
        assert (j = i) by lia. subst j. rewrite nth_upd_same by lia. rewrite skipn_all2 by lia. rewrite prod_nil. reflexivity.
      - rewrite (rd_nth' ss (i + 1) 0), (rd_nth' s (i + 1) 0) by lia. cbn [bind]. rewrite wr_ok by lia.
        eexists. split; [reflexivity|]. rewrite upd_length. split; [assumption|]. intros j Hj.
        destruct (Nat.eq_dec j i) as [->|Nj].
        + rewrite nth_upd_same by lia. rewrite H2 by lia. rewrite (skipn_nth_cons s (S i) 0) by lia. rewrite prod_cons.
          replace (i + 1)%nat with (S i) by lia. ring.
        + rewrite nth_upd_other by lia. apply H2. lia. }
    rewrite E. cbn [bind].
    destruct (for_up_inv (fun i (st : Z * list Z) => let '(m, r) := st in length r = length s /\
        in_bounds (firstn i s) (firstn i r) /\ 0 <= m < prod (skipn i s) /\
        n = row_pos (firstn i s) (firstn i r) * prod (skipn i s) + m)
      (fun i st => (let '(n, idx) := st in fun ss => let* x := rd ss i in let* q := cdiv n x in let* idx := wr idx i q in Ok (n - q * x, idx)) ss)
      0 (length s) (n, idx)) as ([m r] & E2 & I1 & I2 & I3 & I4).
    { cbn [firstn skipn row_pos]. split; [assumption|]. split; [constructor|]. split; [assumption|]. ring. }
    { intros i [m r] Hi (I1 & I2 & I3 & I4). rewrite (rd_nth' ss i 0) by lia. cbn [bind]. rewrite L2 by lia.
      unfold cdiv. pose proof (Hsp (S i)) as HP. destruct (Z.eqb_spec (prod (skipn (S i) s)) 0); [lia|]. cbn [bind].
      rewrite wr_ok by lia. cbn [bind]. eexists. split; [reflexivity|]. cbv beta iota. rewrite upd_length. split; [assumption|].
      rewrite Z.quot_div_nonneg by lia. set (P := prod (skipn (S i) s)) in *.
      rewrite (skipn_nth_cons s i 0), prod_cons in I3, I4 by lia. fold P in I3, I4.
      rewrite (firstn_nth_snoc s i 0) by lia. rewrite (firstn_nth_snoc (upd r i (m / P)) i 0) by (rewrite upd_length; lia).
      rewrite firstn_upd_same, nth_upd_same by lia.
      assert (Hq : 0 <= m / P < nth i s 0). { split; [apply Z.div_pos; lia|]. apply Z.div_lt_upper_bound; lia. }
      pose proof (Z.div_mod m P ltac:(lia)) as Hdm. pose proof (Z.mod_pos_bound m P HP) as Hmb.
      split; [|split].
      - apply in_bounds_app; [assumption|]. constructor; [assumption|constructor].
      - lia.
      - rewrite row_pos_snoc by (symmetry; rewrite !firstn_length; lia). rewrite I4 at 1. ring. }
    cbn [plus] in *. rewrite E2. cbn [bind]. exists r. split; [reflexivity|].
    rewrite (firstn_all s), (firstn_all2 r) in I2, I4 by lia. rewrite skipn_all, prod_nil in I3, I4. split; [assumption|]. lia.
  - destruct (for_up_inv (fun i (ss : list Z) => length ss = length s /\
        forall j, (j < i)%nat -> nth j ss 0 = prod (firstn j s))
      (fun i ss => if (i =? 0)%nat then wr ss i 1
                   else let* x := rd ss (i - 1) in let* d := rd s (i - 1) in wr ss i (x * d))
      0 (length s) (repeat 0 (length s))) as (ss & E & L1 & L2).
    { split; [apply repeat_length|]. intros; lia. }
    { intros i ss Hi (H1 & H2). destruct (Nat.eqb_spec i 0) as [Ee|Ee].
      - subst i. rewrite wr_ok by lia. eexists. split; [reflexivity|]. rewrite upd_length. split; [assumption|]. intros j Hj.
        assert (j = 0)%nat by lia. subst j. rewrite nth_upd_same by lia. cbn [firstn]. rewrite prod_nil. reflexivity.
      - rewrite (rd_nth' ss (i - 1) 0), (rd_nth' s (i - 1) 0) by lia. cbn [bind]. rewrite wr_ok by lia.
        eexists. split; [reflexivity|]. rewrite upd_length. split; [assumption|]. intros j Hj.
        destruct (Nat.eq_dec j i) as [->|Nj].
        + rewrite nth_upd_same by lia. rewrite H2 by lia. replace i with (S (i - 1)) at 3 by lia.
          rewrite (firstn_nth_snoc s (i - 1) 0) by lia. rewrite prod_app, prod_cons, prod_nil. ring.
        + rewrite nth_upd_other by lia. apply H2. lia. }
    rewrite E. cbn [bind]. cbn [plus] in L2.
    destruct (for_down_inv (fun i (st : Z * list Z) => let '(m, r) := st in length r = length s /\
        in_bounds (skipn i s) (skipn i r) /\ 0 <= m < prod (firstn i s) /\
        n = m + prod (firstn i s) * col_pos (skipn i s) (skipn i r))
      (fun i st => (let '(n, idx) := st in fun ss => let* x := rd ss i in let* q := cdiv n x in let* idx := wr idx i q in Ok (n - q * x, idx)) ss)
      (length s) (n, idx)) as ([m r] & E2 & I1 & I2 & I3 & I4).
    { rewrite (skipn_all s), (skipn_all2 idx), (firstn_all s) by lia. cbn [col_pos]. split; [assumption|]. split; [constructor|]. split; [assumption|]. ring. }
    { intros i [m r] Hi (I1 & I2 & I3 & I4). rewrite (rd_nth' ss i 0) by lia. cbn [bind]. rewrite L2 by lia.
      unfold cdiv. pose proof (Hfp i) as HP. destruct (Z.eqb_spec (prod (firstn i s)) 0); [lia|]. cbn [bind].
      rewrite wr_ok by lia. cbn [bind]. eexists. split; [reflexivity|]. cbv beta iota. rewrite upd_length. split; [assumption|].
      rewrite Z.quot_div_nonneg by lia. set (P := prod (firstn i s)) in *.
      rewrite (firstn_nth_snoc s i 0), prod_app, prod_cons, prod_nil in I3, I4 by lia. fold P in I3, I4.
      rewrite (skipn_nth_cons s i 0) by lia. rewrite (skipn_nth_cons (upd r i (m / P)) i 0) by (rewrite upd_length; lia).
      rewrite skipn_upd_same, nth_upd_same by lia.
      assert (Hq : 0 <= m / P < nth i s 0). { split; [apply Z.div_pos; lia|]. apply Z.div_lt_upper_bound; lia. }
      pose proof (Z.div_mod m P ltac:(lia)) as Hdm. pose proof (Z.mod_pos_bound m P HP) as Hmb.
      split; [|split].
      - constructor; assumption.
      - lia.
      - cbn [col_pos]. rewrite I4 at 1. ring. }
    rewrite E2. cbn [bind]. exists r. split; [reflexivity|]. cbn [skipn firstn] in *. rewrite prod_nil in *. split; [assumption|]. lia.
Qed.
