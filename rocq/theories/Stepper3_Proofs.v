(** Proofs about steppers and iterators, continued: the steppers of expressions. *)
From Coq Require Import List ZArith Lia Bool.
From Verif Require Import Prelude PreludeFacts Strides_Model Strides_Spec Strides_Proofs
  Broadcast_Model Broadcast_Spec Broadcast_Proofs Broadcast2_Proofs
  Stepper_Model Stepper_Spec Stepper_Proofs Stepper2_Proofs.
Import ListNotations.
Open Scope Z_scope.

Lemma sexp_ind' {V} (P : sexp V -> Prop) :
  (forall v, P (XScalar v)) -> (forall c b, P (XStrided c b)) -> (forall s f, P (XIndexed s f)) ->
  (forall f args, Forall P args -> P (XFun f args)) -> forall e, P e.
Proof.
  intros H1 H2 H3 H4. fix IH 1. intros [v|c b|s f|f args].
  - apply H1.
  - apply H2.
  - apply H3.
  - apply H4. induction args; constructor; auto.
Qed.

(** Shape of the state *)
Fixpoint x_shaped {V} (e : sexp V) (st : sstate) : Prop :=
  match e, st with
  | XScalar _, TUnit => True
  | XStrided _ _, TPtr _ => True
  | XIndexed esh _, TIdx m => length m = length esh
  | XFun _ args, TNode ss =>
      (fix go args ss := match args, ss with
                         | [], [] => True
                         | a :: args', s :: ss' => x_shaped a s /\ go args' ss'
                         | _, _ => False
                         end) args ss
  | _, _ => False
  end.

Fixpoint x_at {V} (sh : list Z) (e : sexp V) (ix : list Z) (st : sstate) : Prop :=
  match e, st with
  | XScalar _, TUnit => True
  | XStrided c _, TPtr p =>
      length ix = length sh /\ p = k_begin c + dot (skipn (k_offset c sh) ix) (k_strides c)
  | XIndexed esh _, TIdx m =>
      length m = length esh /\ length ix = length sh /\
      forall j, (j < length esh)%nat ->
        nth j esh 0 = 1 \/ nth j m 0 = nth (j + (length sh - length esh)) ix 0
  | XFun _ args, TNode ss =>
      (fix go args ss := match args, ss with
                         | [], [] => True
                         | a :: args', s :: ss' => x_at sh a ix s /\ go args' ss'
                         | _, _ => False
                         end) args ss
  | _, _ => False
  end.

Lemma shaped_fun {V} (f : list V -> V) args st :
  x_shaped (XFun f args) st <-> exists ss, st = TNode ss /\ Forall2 x_shaped args ss.
Proof.
  split.
  - destruct st as [| | |ss]; try (intros []). intros H. exists ss. split; [reflexivity|].
    revert ss H. induction args as [|a args IH]; intros [|s ss] H; try (exfalso; exact H); try constructor.
    + apply H.
    + apply IH. apply H.
  - intros (ss & -> & H). cbn. induction H; cbn; auto.
Qed.

Lemma at_fun {V} sh (f : list V -> V) args ix st :
  x_at sh (XFun f args) ix st <-> exists ss, st = TNode ss /\ Forall2 (fun a s => x_at sh a ix s) args ss.
Proof.
  split.
  - destruct st as [| | |ss]; try (intros []). intros H. exists ss. split; [reflexivity|].
    revert ss H. induction args as [|a args IH]; intros [|s ss] H; try (exfalso; exact H); try constructor.
    + apply H.
    + apply IH. apply H.
  - intros (ss & -> & H). cbn. induction H; cbn; auto.
Qed.

Lemma all_leaves_fun {V} (P : list Z -> sexp V -> Prop) (f : list V -> V) args :
  all_leaves P (XFun f args) <-> Forall (all_leaves P) args.
Proof.
  cbn. induction args; cbn; split; intros H; try constructor; try inversion H; subst; try tauto.
Qed.

Lemma x_at_shaped {V} sh (e : sexp V) : forall ix st, x_at sh e ix st -> x_shaped e st.
Proof.
  induction e as [v|c b|s f|f args IH] using sexp_ind'; intros ix st H.
  - destruct st; auto.
  - destruct st; cbn in *; auto.
  - destruct st; cbn in *; auto. tauto.
  - apply at_fun in H. destruct H as (ss & -> & H). apply shaped_fun. exists ss. split; [reflexivity|].
    clear f. revert ss H. induction IH as [|a args Ha _ IH2]; intros ss H; inversion H; subst; constructor; eauto.
Qed.

Definition x_endst {V} (sh : list Z) (l : layout) (e : sexp V) (st : sstate) : Prop :=
  x_shaped e st /\ (sh <> [] -> reversible l e -> x_at sh e (endx l sh) st).

(** Generic facts on tuples of steppers *)
Lemma node_ok {V} (g : stepper_ops sstate -> sstate -> res sstate) (P Q : sexp V -> sstate -> Prop) sh args :
  Forall (fun a => forall s, P a s -> exists s', g (x_ops sh a) s = Ok s' /\ Q a s') args ->
  forall ss, Forall2 P args ss ->
  exists ss', node_op g (map (x_ops sh) args) (TNode ss) = Ok (TNode ss') /\ Forall2 Q args ss'.
Proof.
  intros HF ss H. unfold node_op.
  enough (exists ss', zipM g (map (x_ops sh) args) ss = Ok ss' /\ Forall2 Q args ss') as (ss' & E & HQ).
  { exists ss'. rewrite E. auto. }
  induction H as [|a s args ss Ha _ IH].
  - exists []. split; [reflexivity|constructor].
  - inversion HF as [|? ? H1 H2]; subst. destruct (H1 s Ha) as (s' & Es & HQ). destruct (IH H2) as (ss' & Ess & HQ').
    exists (s' :: ss'). cbn [map zipM]. rewrite Es. cbn [bind]. rewrite Ess. auto.
Qed.

Lemma Forall_imp2 {A} (P Q R : A -> Prop) l : Forall P l -> Forall Q l -> (forall a, P a -> Q a -> R a) -> Forall R l.
Proof. intros HP HQ H. induction HP; inversion HQ; subst; constructor; auto. Qed.

(** ** Strided leaves *)
Lemma dot_skip_upd : forall (pre : list Z) x y post off st, (off <= length pre)%nat ->
  (length pre - off < length st)%nat ->
  dot (skipn off (pre ++ y :: post)) st =
  dot (skipn off (pre ++ x :: post)) st + (y - x) * nth (length pre - off) st 0.
Proof.
  intros pre x y post off st H1 H2. rewrite !skipn_app.
  replace (off - length pre)%nat with 0%nat by lia. cbn [skipn].
  assert (Lp : (length (skipn off pre) = length pre - off)%nat) by apply skipn_length.
  rewrite <- Lp in *. revert st H2. generalize (skipn off pre). intros p.
  induction p as [|a p IH]; intros [|s st] H2; cbn [length] in *; try lia.
  - cbn [app dot nth]. ring.
  - cbn [app dot nth]. rewrite IH by lia. ring.
Qed.

Lemma dot_skip_same : forall (pre : list Z) x y post off st, (length pre < off)%nat ->
  dot (skipn off (pre ++ y :: post)) st = dot (skipn off (pre ++ x :: post)) st.
Proof.
  intros. rewrite !skipn_app. rewrite !(skipn_all2 pre) by lia. cbn [app].
  destruct (off - length pre)%nat eqn:E; [lia|]. reflexivity.
Qed.

Lemma axis_at s j : (j < length s)%nat -> axis s (length s - 1 - j) = nth j s 0.
Proof.
  intros H. unfold axis. rewrite rev_nth by lia. replace (length s - Datatypes.S (length s - 1 - j))%nat with j by lia.
  apply nth_indep. lia.
Qed.

Lemma fits_nth s sh : fits s sh -> forall j, (j < length s)%nat ->
  nth j s 0 = 1 \/ nth j s 0 = nth (j + (length sh - length s)) sh 0.
Proof.
  intros [HL H] j Hj. specialize (H (length s - 1 - j)%nat). rewrite axis_at in H by assumption.
  replace (length s - 1 - j)%nat with (length sh - 1 - (j + (length sh - length s)))%nat in H by lia.
  rewrite axis_at in H by lia. exact H.
Qed.

Lemma rd_nth' {A} (l : list A) k d : (k < length l)%nat -> rd l k = Ok (nth k l d).
Proof. intros H. unfold rd. rewrite (nth_error_nth' l d) by assumption. reflexivity. Qed.

Lemma for_up_acc : forall (f : nat -> Z) (g : nat -> Z -> res Z) n a b,
  (forall i x, (a <= i < a + n)%nat -> g i x = Ok (x + f i)) ->
  for_up g a n b = Ok (b + fold_right Z.add 0 (map f (seq a n))).
Proof.
  intros f g. induction n as [|n IH]; intros a b H; cbn [for_up seq map fold_right].
  - f_equal. ring.
  - rewrite H by lia. cbn [bind]. rewrite IH by (intros; apply H; lia). f_equal. ring.
Qed.

Lemma dot_sum : forall ix st, length ix = length st ->
  dot ix st = fold_right Z.add 0 (map (fun i => nth i st 0 * nth i ix 0) (seq 0 (length st))).
Proof.
  induction ix as [|i ix IH]; intros [|s st] H; try discriminate; [reflexivity|].
  cbn [dot length seq map fold_right nth]. rewrite <- seq_shift, map_map. cbn [nth]. rewrite IH by (cbn in H; lia). ring.
Qed.

Lemma sum_ext : forall (f g : nat -> Z) l, (forall i, In i l -> f i = g i) ->
  fold_right Z.add 0 (map f l) = fold_right Z.add 0 (map g l).
Proof. intros f g l H. rewrite (map_ext_in f g l) by exact H. reflexivity. Qed.

(** The end pointer is the address of the end index. *)
Lemma strided_end_ok : forall c sh l, l = row_major \/ l = column_major ->
  strided_ok c -> fits (k_shape c) sh -> k_shape c <> [] ->
  strided_data_end (k_shape c) (k_strides c) (k_begin c) l (k_offset c sh) =
  Ok (k_begin c + dot (skipn (k_offset c sh) (endx l sh)) (k_strides c)).
Proof.
  intros c sh l Hl (L1 & L2 & Hst) Hf Hne. pose proof (fits_nth _ _ Hf) as Hn. destruct Hf as [HL _].
  set (off := k_offset c sh). unfold strided_data_end. destruct (k_shape c) as [|d0 t0] eqn:Es; [congruence|].
  rewrite <- Es in *. clear Hne.
  set (n := length (k_shape c)) in *. assert (Hn0 : (0 < n)%nat) by (unfold n; rewrite Es; cbn; lia). clear Es d0 t0.
  rewrite (for_up_acc (fun i => nth i (k_strides c) 0 * (nth i (k_shape c) 0 - 1))).
  2: { intros i x Hi. rewrite (rd_nth' (k_strides c) i 0) by lia. cbn [bind].
       rewrite (rd_nth' (k_shape c) i 0) by lia. reflexivity. }
  cbn [bind].
  assert (Hoff : (off + n = length sh)%nat) by (unfold off, k_offset; fold n; lia).
  assert (Lend : length (endx l sh) = length sh).
  { destruct Hl as [ -> | -> ]; [apply endx_length|]. cbn. destruct sh; [reflexivity|]. cbn. rewrite map_length. reflexivity. }
  assert (Ls : length (skipn off (endx l sh)) = length (k_strides c)) by (rewrite skipn_length; lia).
  rewrite (dot_sum _ _ Ls). rewrite L1.
  assert (NS : forall i, nth i (skipn off (endx l sh)) 0 = nth (off + i) (endx l sh) 0) by (intros; apply nth_skipn).
  assert (SE : forall i, (i < n)%nat ->
     nth i (k_strides c) 0 * (nth i (k_shape c) 0 - 1) = nth i (k_strides c) 0 * (nth (off + i) sh 0 - 1)).
  { intros i Hi. destruct (Hst i) as [H1 _]; [lia|]. destruct (Hn i Hi) as [E|E].
    - rewrite H1 by assumption. ring.
    - rewrite E. replace (off + i)%nat with (i + (length sh - n))%nat by lia. reflexivity. }
  destruct Hl as [ -> | -> ].
  - (* row major *)
    rewrite (rd_nth' (k_strides c) (n - 1) 0) by lia. cbn [bind]. f_equal.
    replace (seq 0 n) with (seq 0 (n - 1 + 1)) by (f_equal; lia). rewrite seq_app, !map_app, !fold_right_app.
    cbn [seq map fold_right plus].
    assert (FA : forall l1 z, fold_right Z.add z l1 = fold_right Z.add 0 l1 + z)
      by (induction l1; intros; cbn [fold_right]; [lia|]; rewrite IHl1; lia).
    rewrite (FA _ (_ + 0)). rewrite (FA (map (fun i => nth i (k_strides c) 0 * nth i _ 0) _) (_ + 0)).
    destruct (exists_last (l := sh)) as (s & d & Esh). { intros E. rewrite E in *. cbn in *. lia. }
    assert (Hle : (length s = off + (n - 1))%nat) by (rewrite Esh, app_length in Hoff; cbn in Hoff; lia).
    rewrite (SE (n - 1)%nat) by lia. rewrite NS, Esh, endx_row_app.
    rewrite !app_nth2 by (rewrite ?map_length; lia). rewrite map_length.
    replace (off + (n - 1) - length s)%nat with 0%nat by lia. cbn [nth].
    assert (EQ : forall i, In i (seq 0 (n - 1)) -> nth i (k_strides c) 0 * (nth i (k_shape c) 0 - 1) =
      nth i (k_strides c) 0 * nth i (skipn off (map (fun e => e - 1) s ++ [d])) 0).
    { intros i Hi. apply in_seq in Hi. rewrite SE by lia. rewrite Esh, nth_skipn.
      rewrite !app_nth1 by (rewrite ?map_length; lia).
      rewrite (nth_indep (map _ s) 0 (0 - 1)) by (rewrite map_length; lia).
      rewrite (map_nth (fun e => e - 1)). reflexivity. }
    rewrite (sum_ext _ _ _ EQ). ring.
  - (* column major *)
    destruct sh as [|d t]; [cbn in *; lia|].
    assert (EQ1 : forall i, (i < n)%nat -> (0 < off + i)%nat ->
       nth i (k_strides c) 0 * (nth i (k_shape c) 0 - 1) =
       nth i (k_strides c) 0 * nth i (skipn off (endx column_major (d :: t))) 0).
    { intros i Hi Hp. rewrite SE by lia. rewrite NS. cbn [endx col_endx].
      destruct (off + i)%nat as [|m] eqn:Em; [lia|]. cbn [nth].
      rewrite (nth_indep (map _ t) 0 (0 - 1)) by (rewrite map_length; cbn [length] in Hoff; lia).
      rewrite (map_nth (fun e => e - 1)). reflexivity. }
    destruct (Nat.eqb_spec off 0) as [E0|E0].
    + rewrite (rd_nth' (k_strides c) 0 0) by lia. cbn [bind]. f_equal.
      destruct n as [|n']; [lia|]. cbn [seq map fold_right].
      rewrite (sum_ext _ (fun i => nth i (k_strides c) 0 * nth i (skipn off (endx column_major (d :: t))) 0)).
      2: { intros i Hi. apply in_seq in Hi. apply EQ1; lia. }
      rewrite (SE 0%nat) by lia. rewrite NS, E0. cbn [endx col_endx nth plus]. ring.
    + f_equal. f_equal. apply sum_ext. intros i Hi. apply in_seq in Hi. apply EQ1; lia.
Qed.

Section Laws.
Context {V : Type} (l : layout) (sh : list Z).
Hypothesis Hl : l = row_major \/ l = column_major.

Lemma x_laws_strided : forall c buf, fits (k_shape c) sh -> strided_ok c ->
  laws (x_ops sh (@XStrided V c buf)) l sh (x_at sh (XStrided c buf)) (x_endst sh l (XStrided c buf)).
Proof.
  intros c buf Hf Hs. pose proof Hs as (L1 & L2 & Hst). pose proof (fits_nth _ _ Hf) as Hn. pose proof Hf as [HL _].
  set (off := k_offset c sh).
  assert (Hoff : (off + length (k_shape c) = length sh)%nat) by (unfold off, k_offset; lia).
  assert (LEN : forall (pre : list Z) x y post, length (pre ++ x :: post) = length sh -> length (pre ++ y :: post) = length sh)
    by (intros; rewrite app_length in *; auto).
  assert (AX : forall (pre : list Z) x post, length (pre ++ x :: post) = length sh -> (off <= length pre)%nat ->
     (length pre - off < length (k_shape c))%nat).
  { intros pre x post H Ho. rewrite app_length in H. cbn in H. lia. }
  assert (BS : forall pre d, nth_error sh (length pre) = Some d -> (off <= length pre)%nat ->
     (length pre - off < length (k_shape c))%nat ->
     nth (length pre - off) (k_backstrides c) 0 = (d - 1) * nth (@length Z pre - off) (k_strides c) 0).
  { intros pre d Hd Ho Ha. destruct (Hst _ Ha) as [H1 H2]. rewrite H2.
    apply nth_error_nth with (d := 0) in Hd. destruct (Hn _ Ha) as [E|E].
    - rewrite H1 by assumption. ring.
    - rewrite E. replace (length pre - off + (length sh - length (k_shape c)))%nat with (length pre) by lia.
      rewrite Hd. ring. }
  constructor.
  - intros pre x post n d st Hd Hb Hn0 Hlt Hat. destruct st as [|p| |]; try (exfalso; exact Hat).
    destruct Hat as [Hlen Hp]. cbn [x_ops ptr_ops s_step ptr_op xs_ops]. fold off. unfold xs_step.
    destruct (Nat.leb_spec off (length pre)) as [Ho|Ho].
    + specialize (AX _ _ _ Hlen Ho). rewrite (rd_nth' _ _ 0) by lia. cbn [bind].
      eexists. split; [reflexivity|]. split; [eauto|]. fold off.
      rewrite (dot_skip_upd pre x (x + n)) by lia. rewrite Hp. fold off. ring.
    + cbn [bind]. eexists. split; [reflexivity|]. split; [eauto|]. fold off.
      rewrite (dot_skip_same pre x (x + n)) by lia. exact Hp.
  - intros pre x post n st Hb Hn0 Hat. destruct st as [|p| |]; try (exfalso; exact Hat).
    destruct Hat as [Hlen Hp]. cbn [x_ops ptr_ops s_step_back ptr_op xs_ops]. fold off. unfold xs_step_back.
    destruct (Nat.leb_spec off (length pre)) as [Ho|Ho].
    + specialize (AX _ _ _ Hlen Ho). rewrite (rd_nth' _ _ 0) by lia. cbn [bind].
      eexists. split; [reflexivity|]. split; [eauto|]. fold off.
      rewrite (dot_skip_upd pre x (x - n)) by lia. rewrite Hp. fold off. ring.
    + cbn [bind]. eexists. split; [reflexivity|]. split; [eauto|]. fold off.
      rewrite (dot_skip_same pre x (x - n)) by lia. exact Hp.
  - intros pre x post d st Hd Hb Hx Hat. destruct st as [|p| |]; try (exfalso; exact Hat).
    destruct Hat as [Hlen Hp]. cbn [x_ops ptr_ops s_reset ptr_op xs_ops]. fold off. unfold xs_reset.
    destruct (Nat.leb_spec off (length pre)) as [Ho|Ho].
    + specialize (AX _ _ _ Hlen Ho). rewrite (rd_nth' _ _ 0) by lia. cbn [bind].
      eexists. split; [reflexivity|]. split; [eauto|]. fold off.
      rewrite (dot_skip_upd pre x 0) by lia. rewrite (BS pre d) by assumption. rewrite Hp. fold off. rewrite Hx. ring.
    + cbn [bind]. eexists. split; [reflexivity|]. split; [eauto|]. fold off.
      rewrite (dot_skip_same pre x 0) by lia. exact Hp.
  - intros pre post d st Hd Hb Hat. destruct st as [|p| |]; try (exfalso; exact Hat).
    destruct Hat as [Hlen Hp]. cbn [x_ops ptr_ops s_reset_back ptr_op xs_ops]. fold off. unfold xs_reset_back.
    destruct (Nat.leb_spec off (length pre)) as [Ho|Ho].
    + specialize (AX _ _ _ Hlen Ho). rewrite (rd_nth' _ _ 0) by lia. cbn [bind].
      eexists. split; [reflexivity|]. split; [eauto|]. fold off.
      rewrite (dot_skip_upd pre 0 (d - 1)) by lia. rewrite (BS pre d) by assumption. rewrite Hp. fold off. ring.
    + cbn [bind]. eexists. split; [reflexivity|]. split; [eauto|]. fold off.
      rewrite (dot_skip_same pre 0 (d - 1)) by lia. exact Hp.
  - intros st H. assert (exists p, st = TPtr p) as [p ->].
    { destruct H as [[ix H]|[H _]]; destruct st; try (exfalso; exact H); eauto. }
    cbn [x_ops ptr_ops s_to_begin ptr_op xs_ops bind]. eexists. split; [reflexivity|].
    split; [apply repeat_length|]. fold off. 
    assert (E : forall n m st, dot (skipn n (repeat 0 m)) st = 0).
    { intros n m. revert n. induction m as [|m IHm]; intros [|n] s; destruct s; cbn; auto.
      - specialize (IHm 0%nat s). cbn in IHm. rewrite IHm. lia. }
    rewrite E. ring.
  - intros st [ix H]. destruct st as [|p| |]; try (exfalso; exact H).
    cbn [x_ops ptr_ops s_to_end ptr_op xs_ops bind]. fold off.
    destruct (list_eq_dec Z.eq_dec (k_shape c) []) as [E0|E0].
    + unfold strided_data_end. rewrite E0. cbn [bind]. eexists. split; [reflexivity|]. split; [exact I|].
      intros _ [Hr _]. congruence.
    + unfold off. rewrite strided_end_ok by auto. cbn [bind]. eexists. split; [reflexivity|]. split; [exact I|].
      intros _ _. split; [|reflexivity].
      destruct Hl as [ -> | -> ]; [apply endx_length|]. cbn. destruct sh; [reflexivity|]. cbn. rewrite map_length. reflexivity.
Qed.

Lemma x_laws_indexed : forall esh f, fits esh sh -> esh <> [] ->
  laws (x_ops sh (@XIndexed V esh f)) l sh (x_at sh (XIndexed esh f)) (x_endst sh l (XIndexed esh f)).
Proof.
  intros esh f Hf Hne. pose proof (fits_nth _ _ Hf) as Hn. pose proof Hf as [HL _].
  set (off := (length sh - length esh)%nat).
  assert (Hoff : (off + length esh = length sh)%nat) by (unfold off; lia).
  assert (LEN : forall (pre : list Z) x y post, length (pre ++ x :: post) = length sh -> length (pre ++ y :: post) = length sh)
    by (intros; rewrite app_length in *; auto).
  assert (AX : forall (pre : list Z) x post, length (pre ++ x :: post) = length sh -> (off <= length pre)%nat ->
     (length pre - off < length esh)%nat).
  { intros pre x post H Ho. rewrite app_length in H. cbn in H. lia. }
  (* effect of writing one axis of the index *)
  assert (WR : forall pre x y post m v, x_at sh (XIndexed esh f) (pre ++ x :: post) (TIdx m) ->
     (off <= length pre)%nat -> (nth (length pre - off) esh 0 = 1 \/ v = y) ->
     x_at sh (XIndexed esh f) (pre ++ y :: post) (TIdx (upd m (length pre - off) v))).
  { intros pre x y post m v (M1 & M2 & M3) Ho Hv. specialize (AX _ _ _ M2 Ho).
    split; [rewrite upd_length; exact M1|]. split; [eauto|]. intros j Hj. fold off in M3 |- *.
    destruct (Nat.eq_dec j (length pre - off)) as [->|Hne'].
    - destruct Hv as [Hv|Hv]; [left; exact Hv|]. right. rewrite nth_upd_same by lia.
      replace (length pre - off + off)%nat with (length pre) by lia.
      rewrite app_nth2, Nat.sub_diag by lia. exact Hv.
    - destruct (M3 j Hj) as [E|E]; [left; exact E|]. right. rewrite nth_upd_other by lia. rewrite E.
      destruct (Nat.lt_ge_cases (j + off) (length pre)) as [C|C].
      + rewrite !app_nth1 by lia. reflexivity.
      + rewrite !app_nth2 by lia. destruct (j + off - length pre)%nat eqn:Ee; [lia|]. reflexivity. }
  assert (SK : forall pre x y post m, x_at sh (XIndexed esh f) (pre ++ x :: post) (TIdx m) ->
     (length pre < off)%nat -> x_at sh (XIndexed esh f) (pre ++ y :: post) (TIdx m)).
  { intros pre x y post m (M1 & M2 & M3) Ho. split; [exact M1|]. split; [eauto|]. intros j Hj.
    destruct (M3 j Hj) as [E|E]; [left; exact E|right]. rewrite E. fold off.
    rewrite !app_nth2 by lia. destruct (j + off - length pre)%nat eqn:Ee; [lia|]. reflexivity. }
  assert (RM : forall pre x post m, x_at sh (XIndexed esh f) (pre ++ x :: post) (TIdx m) -> (off <= length pre)%nat ->
     rd m (length pre - off) = Ok (nth (length pre - off) m 0) /\
     (nth (length pre - off) esh 0 = 1 \/ nth (length pre - off) m 0 = x) /\ (length pre - off < length m)%nat).
  { intros pre x post m (M1 & M2 & M3) Ho. specialize (AX _ _ _ M2 Ho). split; [apply rd_nth'; lia|].
    split; [|lia]. destruct (M3 _ AX) as [E|E]; [left; exact E|right]. rewrite E. fold off.
    replace (length pre - off + off)%nat with (length pre) by lia. rewrite app_nth2, Nat.sub_diag by lia. reflexivity. }
  constructor.
  - intros pre x post n d st Hd Hb Hn0 Hlt Hat. destruct st as [| |m|]; try (exfalso; exact Hat).
    cbn [x_ops idx_ops s_step idx_op ix_ops]. fold off. unfold ix_step.
    destruct (Nat.leb_spec off (length pre)) as [Ho|Ho].
    + destruct (RM _ _ _ _ Hat Ho) as (R1 & R2 & R3). rewrite R1. cbn [bind]. rewrite wr_ok by assumption. cbn [bind].
      eexists. split; [reflexivity|]. eapply WR; eauto. destruct R2 as [R2|R2]; [left; exact R2|right; rewrite R2; reflexivity].
    + cbn [bind]. eexists. split; [reflexivity|]. eapply SK; eauto.
  - intros pre x post n st Hb Hn0 Hat. destruct st as [| |m|]; try (exfalso; exact Hat).
    cbn [x_ops idx_ops s_step_back idx_op ix_ops]. fold off. unfold ix_step_back.
    destruct (Nat.leb_spec off (length pre)) as [Ho|Ho].
    + destruct (RM _ _ _ _ Hat Ho) as (R1 & R2 & R3). rewrite R1. cbn [bind]. rewrite wr_ok by assumption. cbn [bind].
      eexists. split; [reflexivity|]. eapply WR; eauto. destruct R2 as [R2|R2]; [left; exact R2|right; rewrite R2; reflexivity].
    + cbn [bind]. eexists. split; [reflexivity|]. eapply SK; eauto.
  - intros pre x post d st Hd Hb Hx Hat. destruct st as [| |m|]; try (exfalso; exact Hat).
    cbn [x_ops idx_ops s_reset idx_op ix_ops]. fold off. unfold ix_reset.
    destruct (Nat.leb_spec off (length pre)) as [Ho|Ho].
    + destruct (RM _ _ _ _ Hat Ho) as (R1 & R2 & R3). rewrite wr_ok by assumption. cbn [bind].
      eexists. split; [reflexivity|]. eapply WR; eauto.
    + cbn [bind]. eexists. split; [reflexivity|]. eapply SK; eauto.
  - intros pre post d st Hd Hb Hat. destruct st as [| |m|]; try (exfalso; exact Hat).
    cbn [x_ops idx_ops s_reset_back idx_op ix_ops]. fold off. unfold ix_reset_back.
    destruct (Nat.leb_spec off (length pre)) as [Ho|Ho].
    + destruct (RM _ _ _ _ Hat Ho) as (R1 & R2 & R3).
      assert (Hj : (length pre - off < length esh)%nat) by (destruct Hat as (M1 & _); lia).
      rewrite (rd_nth' esh _ 0) by assumption. cbn [bind]. rewrite wr_ok by assumption. cbn [bind].
      eexists. split; [reflexivity|]. eapply WR; eauto. destruct (Hn _ Hj) as [E|E]; [left; exact E|right].
      rewrite E. apply nth_error_nth with (d := 0) in Hd.
      fold off. replace (length pre - off + off)%nat with (length pre) by lia. rewrite Hd. reflexivity.
    + cbn [bind]. eexists. split; [reflexivity|]. eapply SK; eauto.
  - intros st H. assert (exists m, st = TIdx m /\ length m = length esh) as (m & -> & Hm).
    { destruct H as [[ix H]|[H _]]; destruct st; try (exfalso; exact H); eauto. exists m. split; [reflexivity|apply H]. }
    cbn [x_ops idx_ops s_to_begin idx_op ix_ops bind]. eexists. split; [reflexivity|].
    assert (Nz : forall j n, nth j (repeat 0 n) 0 = 0).
    { intros j n. revert j. induction n; intros [|j]; cbn; auto. }
    assert (Nm : forall (j : nat) (m : list Z), nth j (map (fun _ => 0) m) 0 = 0).
    { intros j m0. revert j. induction m0; intros [|j]; cbn; auto. }
    split; [rewrite map_length; exact Hm|]. split; [apply repeat_length|]. intros j Hj. right.
    rewrite Nz, Nm. reflexivity.
  - intros st [ix H]. destruct st as [| |m|]; try (exfalso; exact H).
    cbn [x_ops idx_ops s_to_end idx_op ix_ops]. unfold ix_to_end.
    assert (Hpos : (0 < length esh)%nat) by (destruct esh; [congruence|cbn; lia]).
    set (ld := match l with row_major => (length esh - 1)%nat | _ => 0%nat end).
    assert (Hld : (ld < length esh)%nat) by (unfold ld; destruct l; lia).
    rewrite (rd_nth' esh ld 0) by assumption. cbn [bind]. rewrite wr_ok by (rewrite map_length; assumption). cbn [bind].
    eexists. split; [reflexivity|]. split; [cbn; rewrite upd_length, map_length; reflexivity|].
    intros Hsh [_ Er]. subst l. cbn in ld. split; [rewrite upd_length, map_length; reflexivity|].
    split; [apply endx_length|]. intros j Hj. fold off.
    destruct (exists_last Hsh) as (s & d & Es). 
    assert (Ls : (length s = off + (length esh - 1))%nat) by (rewrite Es, app_length in Hoff; cbn in Hoff; lia).
    destruct (Nat.eq_dec j ld) as [->|Hj'].
    + destruct (Hn ld Hld) as [E|E]; [left; exact E|]. right. rewrite nth_upd_same by (rewrite map_length; assumption).
      rewrite E. fold off. rewrite Es, endx_row_app. unfold ld. 
      rewrite !app_nth2 by (rewrite ?map_length; lia). rewrite map_length. reflexivity.
    + destruct (Hn j Hj) as [E|E]; [left; exact E|]. right. rewrite nth_upd_other by lia.
      rewrite (nth_indep (map _ esh) 0 (0 - 1)) by (rewrite map_length; lia).
      rewrite (map_nth (fun e => e - 1)). rewrite E. fold off. rewrite Es, endx_row_app.
      unfold ld in Hj'. rewrite !app_nth1 by (rewrite ?map_length; lia).
      rewrite (nth_indep (map _ s) 0 (0 - 1)) by (rewrite map_length; lia).
      rewrite (map_nth (fun e => e - 1)). reflexivity.
Qed.

Lemma dot_zeros : forall n m st, dot (skipn n (repeat 0 m)) st = 0.
Proof.
  intros n m. revert n. induction m as [|m IHm]; intros [|n] s; destruct s; cbn; auto.
  specialize (IHm 0%nat s). cbn in IHm. rewrite IHm. lia.
Qed.

Lemma nth_repeat0 : forall j n, nth j (repeat 0 n) 0 = 0.
Proof. intros j n. revert j. induction n; intros [|j]; cbn; auto. Qed.
Lemma nth_map0 : forall (j : nat) (m : list Z), nth j (map (fun _ => 0) m) 0 = 0.
Proof. intros j m0. revert j. induction m0; intros [|j]; cbn; auto. Qed.

Lemma to_begin_ok : forall e : sexp V, operands_ok sh e -> forall st, x_shaped e st ->
  exists st', s_to_begin (x_ops sh e) st = Ok st' /\ x_at sh e (repeat 0 (length sh)) st'.
Proof.
  induction e as [v|c b|s f|f args IH] using sexp_ind'; intros Hok st Hs.
  - destruct st; try contradiction. exists TUnit. cbn. auto.
  - destruct st; try contradiction. eexists. split; [reflexivity|]. split; [apply repeat_length|].
    rewrite dot_zeros. unfold ptr_op. cbn. ring.
  - destruct st; try contradiction. cbn in Hs. eexists. split; [reflexivity|].
    split; [rewrite map_length; exact Hs|]. split; [apply repeat_length|]. intros j Hj. right.
    rewrite nth_repeat0, nth_map0. reflexivity.
  - unfold operands_ok in Hok. apply all_leaves_fun in Hok. apply shaped_fun in Hs. destruct Hs as (ss & -> & Hs).
    destruct (node_ok (fun o => s_to_begin o) (fun a s => x_shaped a s)
                  (fun a s => x_at sh a (repeat 0 (length sh)) s) sh args) with (ss := ss) as (ss' & E & HQ); auto.
    { eapply Forall_imp2; [exact IH|exact Hok|]. cbn. intros a H1 H2. apply H1. exact H2. }
    exists (TNode ss'). split; [exact E|]. apply at_fun. eauto.
Qed.

Lemma x_laws : forall e : sexp V, operands_ok sh e ->
  laws (x_ops sh e) l sh (x_at sh e) (x_endst sh l e).
Proof.
  induction e as [v|c b|s f|f args IH] using sexp_ind'; intros Hok.
  - constructor; intros; cbn.
    + destruct st; try contradiction. exists TUnit. auto.
    + destruct st; try contradiction. exists TUnit. auto.
    + destruct st; try contradiction. exists TUnit. auto.
    + destruct st; try contradiction. exists TUnit. auto.
    + exists TUnit. destruct H as [[ix H]|[H _]]; destruct st; try contradiction; auto.
    + exists TUnit. destruct H as [ix H]; destruct st; try contradiction. split; [reflexivity|]. split; cbn; auto.
  - destruct Hok as [H1 H2]. apply x_laws_strided; assumption.
  - destruct Hok as [H1 H2]. apply x_laws_indexed; assumption.
  - unfold operands_ok in Hok. apply all_leaves_fun in Hok.
    pose proof (Forall_imp2 _ _ (fun a => laws (x_ops sh a) l sh (x_at sh a) (x_endst sh l a)) _ IH Hok (fun a H1 H2 => H1 H2)) as HL.
    pose proof Hok as Hok0. apply all_leaves_fun with (f := f) in Hok0.
    clear IH Hok.
    constructor.
    + intros pre x post n d st Hd Hb Hn Hlt Hat. apply at_fun in Hat. destruct Hat as (ss & -> & Hat).
      destruct (node_ok (fun o => s_step o (length pre) n) (fun a s => x_at sh a (pre ++ x :: post) s)
                  (fun a s => x_at sh a (pre ++ (x + n) :: post) s) sh args) with (ss := ss) as (ss' & E & HQ); auto.
      { eapply Forall_impl; [|exact HL]. cbn. intros a La s Ha. eapply l_step; eauto. }
      exists (TNode ss'). split; [exact E|]. apply at_fun. eauto.
    + intros pre x post n st Hb Hn Hat. apply at_fun in Hat. destruct Hat as (ss & -> & Hat).
      destruct (node_ok (fun o => s_step_back o (length pre) n) (fun a s => x_at sh a (pre ++ x :: post) s)
                  (fun a s => x_at sh a (pre ++ (x - n) :: post) s) sh args) with (ss := ss) as (ss' & E & HQ); auto.
      { eapply Forall_impl; [|exact HL]. cbn. intros a La s Ha. eapply l_back; eauto. }
      exists (TNode ss'). split; [exact E|]. apply at_fun. eauto.
    + intros pre x post d st Hd Hb Hx Hat. apply at_fun in Hat. destruct Hat as (ss & -> & Hat).
      destruct (node_ok (fun o => s_reset o (length pre)) (fun a s => x_at sh a (pre ++ x :: post) s)
                  (fun a s => x_at sh a (pre ++ 0 :: post) s) sh args) with (ss := ss) as (ss' & E & HQ); auto.
      { eapply Forall_impl; [|exact HL]. cbn. intros a La s Ha. eapply l_reset; eauto. }
      exists (TNode ss'). split; [exact E|]. apply at_fun. eauto.
    + intros pre post d st Hd Hb Hat. apply at_fun in Hat. destruct Hat as (ss & -> & Hat).
      destruct (node_ok (fun o => s_reset_back o (length pre)) (fun a s => x_at sh a (pre ++ 0 :: post) s)
                  (fun a s => x_at sh a (pre ++ (d - 1) :: post) s) sh args) with (ss := ss) as (ss' & E & HQ); auto.
      { eapply Forall_impl; [|exact HL]. cbn. intros a La s Ha. eapply l_reset_back; eauto. }
      exists (TNode ss'). split; [exact E|]. apply at_fun. eauto.
    + intros st H. apply to_begin_ok; [|destruct H as [[ix H]|[H _]]; [eapply x_at_shaped; eauto|exact H]].
      exact Hok0.
    + intros st [ix H]. apply at_fun in H. destruct H as (ss & -> & H).
      destruct (node_ok (fun o => s_to_end o l) (fun a s => x_at sh a ix s)
                  (fun a s => x_endst sh l a s) sh args) with (ss := ss) as (ss' & E & HQ); auto.
      { eapply Forall_impl; [|exact HL]. cbn. intros a La s Ha. eapply l_end; eauto. }
      exists (TNode ss'). split; [exact E|]. split.
      * apply shaped_fun. exists ss'. split; [reflexivity|]. clear -HQ. induction HQ; constructor; auto. apply H.
      * intros Hs Hr. apply at_fun. exists ss'. split; [reflexivity|]. unfold reversible in Hr.
        apply all_leaves_fun in Hr. clear -HQ Hr Hs.
        induction HQ; inversion Hr; subst; constructor; auto. apply H; assumption.
Qed.
End Laws.
