(** Iteration with any stepper obeying the laws of Stepper_Proofs. *)
From Coq Require Import List ZArith Lia Bool.
From Verif Require Import Prelude PreludeFacts Strides_Model Strides_Spec Strides_Proofs
  Broadcast_Proofs Stepper_Model Stepper_Spec Stepper_Proofs Stepper2_Proofs Stepper3_Proofs Stepper4_Proofs.
Import ListNotations.
Open Scope Z_scope.

Lemma posn_zeros : forall l sh, l = row_major \/ l = column_major -> posn l sh (repeat 0 (length sh)) = 0.
Proof.
  intros l sh [ -> | -> ]; cbn [posn]; [|apply col_pos_zeros].
  rewrite row_col_rev by apply repeat_length.
  replace (rev (repeat 0 (length sh))) with (repeat 0 (length sh)); [apply col_pos_zeros|].
  generalize (length sh). intros n. induction n as [|k IH]; [reflexivity|]. cbn [repeat rev]. rewrite <- IH.
  rewrite <- repeat_cons. reflexivity.
Qed.

Lemma make_end {S} (l : layout) (sh : list Z) (st : S) : l = row_major \/ l = column_major ->
  is_shape sh -> it_make sh l st true = Ok (st, endx l sh, prod sh).
Proof.
  intros Hl Hs. pose proof (it_make_end_ok l sh (XScalar 0) Hl I TUnit Hs) as H. unfold it_make in *.
  match goal with |- bind ?c _ = _ => destruct c as [ix| |] end; cbn [bind] in *; try discriminate.
  injection H as -> <-. reflexivity.
Qed.

Section Gen.
Context {S V : Type} (ops : stepper_ops S) (l : layout) (sh : list Z).
Context (at_ : list Z -> S -> Prop) (end_ : S -> Prop).
Hypothesis Hl : l = row_major \/ l = column_major.
Hypothesis L : wlaws ops l sh at_ end_.
Hypothesis Hpos : Forall (fun d => 0 < d) sh.

Definition gvalid (k : Z) (it : @iter S) : Prop :=
  let '(st, ix, lin) := it in lin = k /\ valid l sh at_ end_ k ix st.

Lemma g_inc_step : forall k ix st, valid l sh at_ end_ k ix st -> k < prod sh ->
  exists ix' st', (match l with row_major => row_increment ops sh ix st | _ => col_increment ops sh ix st end)
    = Ok (ix', st') /\ valid l sh at_ end_ (k + 1) ix' st'.
Proof. intros. destruct Hl as [El|El]; rewrite El in *; [eapply rv_inc|eapply cv_inc]; eauto. Qed.

Lemma g_inc : forall k it, gvalid k it -> k < prod sh ->
  exists it', it_inc ops sh l it = Ok it' /\ gvalid (k + 1) it'.
Proof.
  intros k [[st ix] lin] [Hk Hv] Hlt. unfold it_inc.
  destruct (g_inc_step k ix st Hv Hlt) as (ix' & st' & E & H).
  rewrite E. cbn [bind]. eexists. split; [reflexivity|]. split; [lia|assumption].
Qed.

Lemma g_inc_k : forall n k it, gvalid k it -> k + Z.of_nat n <= prod sh ->
  exists it', it_inc_k ops sh l n it = Ok it' /\ gvalid (k + Z.of_nat n) it'.
Proof.
  induction n as [|n IH]; intros k it Hv Hle; cbn [it_inc_k].
  - exists it. split; [reflexivity|]. rewrite Z.add_0_r. exact Hv.
  - destruct (g_inc k it Hv) as (it1 & E & Hv1); [lia|]. rewrite E. cbn [bind].
    destruct (IH (k + 1) it1 Hv1) as (it2 & E2 & Hv2); [lia|]. exists it2. split; [exact E2|].
    replace (k + Z.of_nat (Datatypes.S n)) with (k + 1 + Z.of_nat n) by lia. exact Hv2.
Qed.

Lemma g_walk : forall n k ix st, valid l sh at_ end_ k ix st -> k + Z.of_nat n <= prod sh ->
  exists ix' st', walk ops sh l n ix st = Ok (ix', st') /\ valid l sh at_ end_ (k + Z.of_nat n) ix' st'.
Proof.
  induction n as [|n IH]; intros k ix st Hv Hle; cbn [walk].
  - exists ix, st. rewrite Z.add_0_r. auto.
  - destruct (g_inc_step k ix st Hv) as (ix' & st' & E & H); [lia|].
    rewrite E. cbn [bind]. destruct (IH (k + 1) ix' st' H) as (ix2 & st2 & E2 & H2); [lia|].
    exists ix2, st2. split; [exact E2|]. replace (k + Z.of_nat (Datatypes.S n)) with (k + 1 + Z.of_nat n) by lia. exact H2.
Qed.

Lemma g_begin : forall b, at_ (repeat 0 (length sh)) b -> gvalid 0 (b, repeat 0 (length sh), 0).
Proof.
  intros b Hb. split; [reflexivity|]. left. split; [apply zeros_in_bounds; exact Hpos|].
  split; [apply posn_zeros; exact Hl|exact Hb].
Qed.

Lemma g_end : forall st, end_ st -> gvalid (prod sh) (st, endx l sh, prod sh).
Proof. intros st H. split; [reflexivity|]. right. auto. Qed.

Lemma g_at : forall k it ix, gvalid k it -> in_bounds sh ix -> order_pos l sh ix = k ->
  at_ ix (fst (fst it)).
Proof.
  intros k [[st iy] lin] ix [_ Hv] Hb Hk. pose proof (order_pos_bound l sh ix Hl Hb) as B.
  destruct Hv as [(Hb' & Hp & Ha)|(Hp & _)]; [|lia].
  assert (iy = ix) by (eapply order_pos_inj; eauto; rewrite posn_order in Hp; lia).
  subst. exact Ha.
Qed.

Lemma g_walk_at : forall b ix, at_ (repeat 0 (length sh)) b -> in_bounds sh ix ->
  exists st, walk ops sh l (Z.to_nat (order_pos l sh ix)) (repeat 0 (length sh)) b = Ok (ix, st) /\ at_ ix st.
Proof.
  intros b ix Hb Hx. pose proof (order_pos_bound l sh ix Hl Hx) as B.
  destruct (g_begin b Hb) as [_ Hv].
  destruct (g_walk (Z.to_nat (order_pos l sh ix)) 0 _ _ Hv) as (ix' & st' & E & H); [lia|].
  exists st'. rewrite E. destruct H as [(Hb' & Hp' & Ha)|(Hp' & _)]; [|lia].
  assert (ix' = ix) by (eapply order_pos_inj; eauto; rewrite posn_order in Hp'; lia).
  subst ix'. auto.
Qed.

(** Backward: the end state must represent the end index. *)
Hypothesis Hend : forall st, sh <> [] -> end_ st -> at_ (endx l sh) st.

Lemma g_dec_step : forall k ix st, valid l sh at_ end_ k ix st -> 0 < k ->
  exists ix' st', (match l with row_major => row_decrement ops sh ix st | _ => col_decrement ops sh ix st end)
    = Ok (ix', st') /\ valid l sh at_ end_ (k - 1) ix' st'.
Proof. intros. destruct Hl as [El|El]; rewrite El in *; [eapply rv_dec|eapply cv_dec]; eauto. Qed.
Lemma g_inc_n : forall k ix st n, valid l sh at_ end_ k ix st -> 0 <= n -> k + n <= prod sh ->
  exists ix' st', inc_n ops sh l ix st n = Ok (ix', st') /\ valid l sh at_ end_ (k + n) ix' st'.
Proof. intros. unfold inc_n. destruct Hl as [El|El]; rewrite El in *; [eapply rv_inc_n|eapply cv_inc_n]; eauto. Qed.
Lemma g_dec_n : forall k ix st n, valid l sh at_ end_ k ix st -> 0 <= n <= k ->
  exists ix' st', dec_n ops sh l ix st n = Ok (ix', st') /\ valid l sh at_ end_ (k - n) ix' st'.
Proof. intros. unfold dec_n. destruct Hl as [El|El]; rewrite El in *; [eapply rv_dec_n|eapply cv_dec_n]; eauto. Qed.

Lemma g_move : forall m k it, gvalid k it -> 0 <= k <= prod sh -> 0 <= moved m k <= prod sh ->
  exists it', do_move ops sh l m it = Ok it' /\ gvalid (moved m k) it'.
Proof.
  intros [| |n|n] k [[st ix] lin] [Hlin Hv] Hk Hm; cbn [do_move moved] in *.
  - apply g_inc; [split; assumption|lia].
  - unfold it_dec. destruct (g_dec_step k ix st Hv) as (ix' & st' & E & HH); [lia|]. rewrite E. cbn [bind].
    eexists. split; [reflexivity|]. split; [lia|assumption].
  - unfold it_add. destruct (Z.leb_spec 0 n).
    + destruct (g_inc_n k ix st n Hv) as (ix' & st' & E & HH); try lia. rewrite E. cbn [bind].
      eexists. split; [reflexivity|]. split; [lia|assumption].
    + destruct (g_dec_n k ix st (- n) Hv) as (ix' & st' & E & HH); try lia. rewrite E. cbn [bind].
      eexists. split; [reflexivity|]. replace (k - - n) with (k + n) in HH by lia. split; [lia|assumption].
  - unfold it_sub. destruct (Z.leb_spec 0 n).
    + destruct (g_dec_n k ix st n Hv) as (ix' & st' & E & HH); try lia. rewrite E. cbn [bind].
      eexists. split; [reflexivity|]. split; [lia|assumption].
    + destruct (g_inc_n k ix st (- n) Hv) as (ix' & st' & E & HH); try lia. rewrite E. cbn [bind].
      eexists. split; [reflexivity|]. replace (k + - n) with (k - n) in HH by lia. split; [lia|assumption].
Qed.

Lemma g_moves : forall ms k it, gvalid k it -> 0 <= k <= prod sh -> stays (prod sh) k ms ->
  exists it', do_moves ops sh l ms it = Ok it' /\ gvalid (final k ms) it' /\ 0 <= final k ms <= prod sh.
Proof.
  induction ms as [|m ms IH]; intros k it Hv Hk Hs; cbn [do_moves stays final fold_left] in *.
  - eauto.
  - destruct Hs as [H1 H2]. destruct (g_move m k it Hv Hk H1) as (it1 & E & Hv1). rewrite E. cbn [bind].
    apply IH; assumption.
Qed.
End Gen.

(** ** The laws with an updated index instead of a split one *)
Record ulaws {S} (ops : stepper_ops S) (l : layout) (sh : list Z)
  (at_ : list Z -> S -> Prop) (end_ : S -> Prop) : Prop := mk_ulaws {
  u_step : forall ix k n st, (k < length sh)%nat -> in_bounds sh ix ->
    0 <= n -> nth k ix 0 + n < nth k sh 0 -> at_ ix st ->
    exists st', s_step ops k n st = Ok st' /\ at_ (upd ix k (nth k ix 0 + n)) st';
  u_back : forall ix k n st, (k < length ix)%nat -> (in_bounds sh ix \/ ix = endx l sh) ->
    0 <= n <= nth k ix 0 -> at_ ix st ->
    exists st', s_step_back ops k n st = Ok st' /\ at_ (upd ix k (nth k ix 0 - n)) st';
  u_reset : forall ix k st, (k < length sh)%nat -> in_bounds sh ix ->
    nth k ix 0 = nth k sh 0 - 1 -> at_ ix st ->
    exists st', s_reset ops k st = Ok st' /\ at_ (upd ix k 0) st';
  u_reset_back : forall ix k st, (k < length sh)%nat -> in_bounds sh ix -> nth k ix 0 = 0 -> at_ ix st ->
    exists st', s_reset_back ops k st = Ok st' /\ at_ (upd ix k (nth k sh 0 - 1)) st';
  u_begin : forall st, ((exists ix, at_ ix st) \/ end_ st) ->
    exists st', s_to_begin ops st = Ok st' /\ at_ (repeat 0 (length sh)) st';
  u_end : forall st, (exists ix, at_ ix st) -> exists st', s_to_end ops l st = Ok st' /\ end_ st'
}.

Lemma split_at {A} (ix : list A) k : (k < length ix)%nat ->
  exists pre x post, ix = pre ++ x :: post /\ k = length pre.
Proof.
  intros H. destruct (nth_error ix k) as [x|] eqn:E; [|apply nth_error_None in E; lia].
  exists (firstn k ix), x, (skipn (S k) ix). split; [|rewrite firstn_length_le; lia].
  rewrite <- (firstn_skipn k ix) at 1. f_equal. apply skipn_cons_nth. exact E.
Qed.

Lemma nth_mid {A} (d : A) pre x post : nth (length pre) (pre ++ x :: post) d = x.
Proof. rewrite app_nth2, Nat.sub_diag by lia. reflexivity. Qed.

Lemma ulaws_of_laws {S} (ops : stepper_ops S) l sh at_ end_ : laws ops l sh at_ end_ -> ulaws ops l sh at_ end_.
Proof.
  intros [L1 L2 L3 L4 L5 L6]. split; try assumption.
  - intros ix k n st Hk Hb Hn Hx Ha. pose proof (in_bounds_length _ _ Hb) as Hlen.
    destruct (split_at ix k) as (pre & x & post & -> & ->); [lia|]. rewrite nth_mid in *. rewrite upd_mid.
    eapply L1; eauto. apply nth_error_nth'. exact Hk.
  - intros ix k n st Hk Hb Hn Ha.
    destruct (split_at ix k) as (pre & x & post & -> & ->); [lia|]. rewrite nth_mid in *. rewrite upd_mid.
    eapply L2; eauto.
  - intros ix k st Hk Hb Hx Ha. pose proof (in_bounds_length _ _ Hb) as Hlen.
    destruct (split_at ix k) as (pre & x & post & -> & ->); [lia|]. rewrite nth_mid in *. rewrite upd_mid.
    eapply L3; eauto. apply nth_error_nth'. exact Hk.
  - intros ix k st Hk Hb Hx Ha. pose proof (in_bounds_length _ _ Hb) as Hlen.
    destruct (split_at ix k) as (pre & x & post & -> & ->); [lia|]. rewrite nth_mid in *. rewrite upd_mid. subst x.
    eapply L4; eauto. apply nth_error_nth'. exact Hk.
Qed.

Lemma laws_of_ulaws {S} (ops : stepper_ops S) l sh at_ end_ : ulaws ops l sh at_ end_ -> laws ops l sh at_ end_.
Proof.
  intros [L1 L2 L3 L4 L5 L6]. split; try assumption.
  - intros pre x post n d st Hd Hb Hn Hx Ha.
    assert (Hk : (length pre < length sh)%nat) by (apply nth_error_Some; congruence).
    pose proof (nth_error_nth _ _ 0 Hd) as Ed.
    destruct (L1 (pre ++ x :: post) (length pre) n st Hk Hb Hn) as (st' & Es & Ha'); auto.
    { rewrite nth_mid. lia. }
    rewrite nth_mid, upd_mid in Ha'. eauto.
  - intros pre x post n st Hb Hn Ha.
    destruct (L2 (pre ++ x :: post) (length pre) n st) as (st' & Es & Ha'); auto.
    { rewrite app_length. cbn. lia. }
    { rewrite nth_mid. lia. }
    rewrite nth_mid, upd_mid in Ha'. eauto.
  - intros pre x post d st Hd Hb Hx Ha.
    assert (Hk : (length pre < length sh)%nat) by (apply nth_error_Some; congruence).
    pose proof (nth_error_nth _ _ 0 Hd) as Ed.
    destruct (L3 (pre ++ x :: post) (length pre) st Hk Hb) as (st' & Es & Ha'); auto.
    { rewrite nth_mid. lia. }
    rewrite upd_mid in Ha'. eauto.
  - intros pre post d st Hd Hb Ha.
    assert (Hk : (length pre < length sh)%nat) by (apply nth_error_Some; congruence).
    pose proof (nth_error_nth _ _ 0 Hd) as Ed.
    destruct (L4 (pre ++ 0 :: post) (length pre) st Hk Hb) as (st' & Es & Ha'); auto.
    { rewrite nth_mid. lia. }
    rewrite upd_mid, Ed in Ha'. eauto.
Qed.
