(** Immediate reduction: from flat positions to indices. *)
From Coq Require Import List ZArith Lia Bool.
From Verif Require Import Prelude PreludeFacts Strides_Model Strides_Spec Strides_Proofs Stepper_Proofs Assign4_Proofs
  Reduce_Model Reduce_Spec Reduce_Proofs Reduce4_Proofs Reduce5_Proofs Reduce8_Proofs.
Import ListNotations.
Open Scope Z_scope.

Lemma row_pos_app : forall s1 s2 p1 p2, length p1 = length s1 ->
  row_pos (s1 ++ s2) (p1 ++ p2) = row_pos s1 p1 * prod s2 + row_pos s2 p2.
Proof.
  induction s1 as [|d s1 IH]; intros s2 [|x p1] p2 H; try discriminate H; [reflexivity|].
  cbn [app row_pos]. rewrite IH by (cbn in H; lia). rewrite prod_app. ring.
Qed.
Lemma row_pos_repeat0 : forall s n, row_pos s (repeat 0 n) = 0.
Proof. induction s; intros [|n]; cbn; try reflexivity. apply IHs. Qed.

(** ** Enumerating the indices *)
Lemma next_idx_gen : forall sh pre, in_bounds sh pre -> forall post shp, length post = length shp ->
  (exists pre', next_idx (sh ++ shp) (length sh) (pre ++ post) = Ok (false, pre' ++ post) /\ in_bounds sh pre' /\ row_pos sh pre' = row_pos sh pre + 1) \/
  (next_idx (sh ++ shp) (length sh) (pre ++ post) = Ok (true, repeat 0 (length sh) ++ post) /\ row_pos sh pre = prod sh - 1).
Proof.
  induction sh as [|d sh IH] using rev_ind; intros pre Hb post shp Hl.
  - inversion Hb; subst. right. split; [reflexivity|rewrite prod_nil; reflexivity].
  - pose proof (Forall2_app_inv_l _ _ Hb) as (p0 & p1 & H0 & H1 & ->). inversion H1 as [|? x ? t Hx Ht]; subst. inversion Ht; subst. clear H1 Ht.
    pose proof (in_bounds_length _ _ H0) as L0.
    rewrite app_length. cbn [length]. rewrite Nat.add_1_r. cbn [next_idx].
    assert (E1 : rd ((p0 ++ [x]) ++ post) (length sh) = Ok x).
    { apply rd_ok. rewrite <- app_assoc, nth_error_app2 by lia. rewrite L0, Nat.sub_diag. reflexivity. }
    assert (E2 : rd ((sh ++ [d]) ++ shp) (length sh) = Ok d).
    { apply rd_ok. rewrite <- app_assoc, nth_error_app2 by lia. rewrite Nat.sub_diag. reflexivity. }
    assert (E3 : forall v, wr ((p0 ++ [x]) ++ post) (length sh) v = Ok (p0 ++ v :: post)).
    { intros v. rewrite wr_ok by (rewrite !app_length; cbn; lia). rewrite <- app_assoc, <- L0. cbn [app]. rewrite upd_mid. reflexivity. }
    rewrite E1. cbn [bind]. rewrite E2. cbn [bind].
    rewrite !row_pos_snoc by assumption. rewrite prod_app, prod_cons, prod_nil.
    destruct (d - 1 <=? x) eqn:E.
    + apply Z.leb_le in E. rewrite E3. cbn [bind]. assert (x = d - 1) by lia. subst x.
      destruct (IH p0 H0 (0 :: post) (d :: shp)) as [(p' & Ep & Hp & Hr)|[Ep Hr]]; [cbn; lia| |].
      * left. exists (p' ++ [0]). rewrite <- !app_assoc. cbn [app]. split; [exact Ep|]. split.
        -- apply Forall2_app; [exact Hp|]. constructor; [lia|constructor].
        -- rewrite row_pos_snoc by (apply in_bounds_length; exact Hp). lia.
      * right. rewrite <- app_assoc. cbn [app]. rewrite Ep. split; [|nia]. f_equal. f_equal.
        cbn [repeat]. rewrite repeat_cons, <- app_assoc. reflexivity.
    + apply Z.leb_gt in E. left. rewrite E3. cbn [bind]. exists (p0 ++ [x + 1]). split; [rewrite <- app_assoc; reflexivity|]. split.
      * apply Forall2_app; [exact H0|]. constructor; [lia|constructor].
      * rewrite row_pos_snoc by assumption. lia.
Qed.

Lemma index_at sh n : Forall (fun d => 0 < d) sh -> (n < Z.to_nat (prod sh))%nat ->
  in_bounds sh (nth n (row_indices sh) []) /\ row_pos sh (nth n (row_indices sh) []) = Z.of_nat n.
Proof.
  intros Hp. induction n as [|n IH]; intros Hn.
  - pose proof (zeros_in_bounds sh Hp) as Hz. pose proof (row_indices_nth sh _ Hz) as E. rewrite row_pos_repeat0 in E.
    change (Z.to_nat 0) with 0%nat in E. rewrite (nth_error_nth _ _ [] E). split; [exact Hz|apply row_pos_repeat0].
  - destruct IH as [H1 H2]; [lia|]. destruct (next_idx_gen sh _ H1 [] [] eq_refl) as [(p & _ & Hb & Hr)|[_ Hr]]; [|lia].
    pose proof (row_indices_nth sh p Hb) as E. replace (Z.to_nat (row_pos sh p)) with (S n) in E by lia.
    rewrite (nth_error_nth _ _ [] E). split; [exact Hb|lia].
Qed.
Lemma index_eq sh ix n : in_bounds sh ix -> row_pos sh ix = Z.of_nat n -> nth n (row_indices sh) [] = ix.
Proof.
  intros H E. pose proof (row_indices_nth sh ix H) as F. rewrite E, Nat2Z.id in F. apply nth_error_nth. exact F.
Qed.
Lemma next_index sh n : Forall (fun d => 0 < d) sh -> (S n < Z.to_nat (prod sh))%nat ->
  next_idx sh (length sh) (nth n (row_indices sh) []) = Ok (false, nth (S n) (row_indices sh) []).
Proof.
  intros Hp Hn. destruct (index_at sh n Hp) as [H1 H2]; [lia|].
  destruct (next_idx_gen sh _ H1 [] [] eq_refl) as [(p & E & Hb & Hr)|[_ Hr]]; [|lia].
  rewrite !app_nil_r in E. rewrite E. f_equal. f_equal. symmetry. apply index_eq; [exact Hb|lia].
Qed.
Lemma last_index sh : Forall (fun d => 0 < d) sh ->
  exists ix, next_idx sh (length sh) (nth (Z.to_nat (prod sh) - 1) (row_indices sh) []) = Ok (true, ix).
Proof.
  intros Hp. pose proof (prod_pos sh Hp). destruct (index_at sh (Z.to_nat (prod sh) - 1) Hp) as [H1 H2]; [lia|].
  destruct (next_idx_gen sh _ H1 [] [] eq_refl) as [(p & E & Hb & Hr)|[E _]].
  - pose proof (row_pos_bound _ _ Hb). lia.
  - rewrite !app_nil_r in E. eauto.
Qed.

(** ** Reduced shapes and indices *)
Lemma without_app axes : forall l1 k l2, without axes k (l1 ++ l2) = without axes k l1 ++ without axes (k + Z.of_nat (length l1)) l2.
Proof.
  induction l1 as [|x l1 IH]; intros k l2; [cbn; rewrite Z.add_0_r; reflexivity|].
  cbn [app without length]. rewrite IH. replace (k + 1 + Z.of_nat (length l1)) with (k + Z.of_nat (S (length l1))) by lia.
  destruct (in_dec Z.eq_dec k axes); reflexivity.
Qed.
Lemma replaced_app axes v : forall l1 k l2, replaced axes v k (l1 ++ l2) = replaced axes v k l1 ++ replaced axes v (k + Z.of_nat (length l1)) l2.
Proof.
  induction l1 as [|x l1 IH]; intros k l2; [cbn; rewrite Z.add_0_r; reflexivity|].
  cbn [app replaced length]. rewrite IH. replace (k + 1 + Z.of_nat (length l1)) with (k + Z.of_nat (S (length l1))) by lia. reflexivity.
Qed.
Lemma without_all axes : forall l k, (forall j, (j < length l)%nat -> In (k + Z.of_nat j) axes) -> without axes k l = [].
Proof.
  induction l as [|x l IH]; intros k H; [reflexivity|]. cbn [without]. destruct (in_dec Z.eq_dec k axes) as [_|n].
  - apply IH. intros j Hj. replace (k + 1 + Z.of_nat j) with (k + Z.of_nat (S j)) by lia. apply H. cbn. lia.
  - exfalso. apply n. replace k with (k + Z.of_nat 0) by lia. apply H. cbn. lia.
Qed.
Lemma without_none axes : forall l k, (forall j, (j < length l)%nat -> ~ In (k + Z.of_nat j) axes) -> without axes k l = l.
Proof.
  induction l as [|x l IH]; intros k H; [reflexivity|]. cbn [without]. destruct (in_dec Z.eq_dec k axes) as [i|_].
  - exfalso. apply (H 0%nat); [cbn; lia|]. rewrite Z.add_0_r. exact i.
  - f_equal. apply IH. intros j Hj. replace (k + 1 + Z.of_nat j) with (k + Z.of_nat (S j)) by lia. apply H. cbn. lia.
Qed.
Lemma replaced_all axes v : forall l k, (forall j, (j < length l)%nat -> In (k + Z.of_nat j) axes) -> replaced axes v k l = repeat v (length l).
Proof.
  induction l as [|x l IH]; intros k H; [reflexivity|]. cbn [replaced length repeat]. destruct (in_dec Z.eq_dec k axes) as [_|n].
  - f_equal. apply IH. intros j Hj. replace (k + 1 + Z.of_nat j) with (k + Z.of_nat (S j)) by lia. apply H. cbn. lia.
  - exfalso. apply n. replace k with (k + Z.of_nat 0) by lia. apply H. cbn. lia.
Qed.
Lemma replaced_none axes v : forall l k, (forall j, (j < length l)%nat -> ~ In (k + Z.of_nat j) axes) -> replaced axes v k l = l.
Proof.
  induction l as [|x l IH]; intros k H; [reflexivity|]. cbn [replaced]. destruct (in_dec Z.eq_dec k axes) as [i|_].
  - exfalso. apply (H 0%nat); [cbn; lia|]. rewrite Z.add_0_r. exact i.
  - f_equal. apply IH. intros j Hj. replace (k + 1 + Z.of_nat j) with (k + Z.of_nat (S j)) by lia. apply H. cbn. lia.
Qed.

(** The same with a starting position, for induction. *)
Definition rsh (keep : bool) (axes : list Z) (k : Z) (sh : list Z) : list Z := if keep then replaced axes 1 k sh else without axes k sh.
Definition rix (keep : bool) (axes : list Z) (k : Z) (ix : list Z) : list Z := if keep then replaced axes 0 k ix else without axes k ix.

Lemma rix_cons keep axes k x l : rix keep axes k (x :: l) =
  if in_dec Z.eq_dec k axes then (if keep then 0 :: rix keep axes (k + 1) l else rix keep axes (k + 1) l) else x :: rix keep axes (k + 1) l.
Proof. unfold rix. destruct keep; cbn [replaced without]; destruct (in_dec Z.eq_dec k axes); reflexivity. Qed.
Lemma rsh_cons keep axes k x l : rsh keep axes k (x :: l) =
  if in_dec Z.eq_dec k axes then (if keep then 1 :: rsh keep axes (k + 1) l else rsh keep axes (k + 1) l) else x :: rsh keep axes (k + 1) l.
Proof. unfold rsh. destruct keep; cbn [replaced without]; destruct (in_dec Z.eq_dec k axes); reflexivity. Qed.
Lemma rix_nil keep axes k : rix keep axes k [] = [].
Proof. destruct keep; reflexivity. Qed.
Lemma rsh_nil keep axes k : rsh keep axes k [] = [].
Proof. destruct keep; reflexivity. Qed.

Lemma rsh_pos keep axes : forall sh k, Forall (fun d => 0 < d) sh -> Forall (fun d => 0 < d) (rsh keep axes k sh).
Proof.
  induction sh as [|d sh IH]; intros k H; [rewrite rsh_nil; constructor|]. inversion H; subst. rewrite rsh_cons.
  destruct (in_dec Z.eq_dec k axes), keep; auto; constructor; auto; lia.
Qed.
Lemma rix_bounds keep axes : forall sh k ix, in_bounds sh ix -> in_bounds (rsh keep axes k sh) (rix keep axes k ix).
Proof.
  induction sh as [|d sh IH]; intros k ix H; inversion H; subst; [rewrite rsh_nil, rix_nil; constructor|].
  rewrite rsh_cons, rix_cons. destruct (in_dec Z.eq_dec k axes), keep; try (apply IH; assumption); constructor; try lia; apply IH; assumption.
Qed.
Lemma rix_onto keep axes : forall sh k rx, Forall (fun d => 0 < d) sh -> in_bounds (rsh keep axes k sh) rx -> exists ix, in_bounds sh ix /\ rix keep axes k ix = rx.
Proof.
  induction sh as [|d sh IH]; intros k rx Hp H.
  - rewrite rsh_nil in H. inversion H; subst. exists []. split; [constructor|apply rix_nil].
  - inversion Hp; subst. rewrite rsh_cons in H. destruct (in_dec Z.eq_dec k axes) as [i|i] eqn:Ed.
    + destruct keep.
      * inversion H as [|? x ? t Hx Ht]; subst. destruct (IH _ _ H3 Ht) as (ix & H4 & <-). exists (0 :: ix). split; [constructor; [lia|exact H4]|].
        rewrite rix_cons, Ed. f_equal. lia.
      * destruct (IH _ _ H3 H) as (ix & H4 & <-). exists (0 :: ix). split; [constructor; [lia|exact H4]|]. rewrite rix_cons, Ed. reflexivity.
    + inversion H as [|? x ? t Hx Ht]; subst. destruct (IH _ _ H3 Ht) as (ix & H4 & <-). exists (x :: ix). split; [constructor; [lia|exact H4]|].
      rewrite rix_cons, Ed. reflexivity.
Qed.

(** The first visit of a result position *)
Definition clear (axes : list Z) (k : Z) (ix : list Z) : Prop := replaced axes 0 k ix = ix.
Lemma clear_first keep axes : forall sh k a b, in_bounds sh a -> in_bounds sh b -> clear axes k b -> row_pos sh a < row_pos sh b ->
  row_pos (rsh keep axes k sh) (rix keep axes k a) < row_pos (rsh keep axes k sh) (rix keep axes k b).
Proof.
  induction sh as [|d sh IH]; intros k a b Ha Hb Hc Hlt; inversion Ha as [|? x ? a' Hx Ha']; inversion Hb as [|? y ? b' Hy Hb']; subst.
  - cbn in Hlt. lia.
  - unfold clear in Hc. cbn [replaced] in Hc. injection Hc as Hc1 Hc2. cbn [row_pos] in Hlt. rewrite rsh_cons, !rix_cons.
    pose proof (row_pos_bound _ _ Ha'). pose proof (row_pos_bound _ _ Hb').
    destruct (in_dec Z.eq_dec k axes) as [i|i].
    + assert (y = 0) by lia. subst y. assert (x = 0) by nia. subst x.
      specialize (IH (k + 1) a' b' Ha' Hb' Hc2 ltac:(nia)). destruct keep; [cbn [row_pos]; lia|exact IH].
    + cbn [row_pos]. pose proof (row_pos_bound _ _ (rix_bounds keep axes sh (k + 1) a' Ha')). pose proof (row_pos_bound _ _ (rix_bounds keep axes sh (k + 1) b' Hb')).
      destruct (Z.eq_dec x y) as [ -> |].
      * specialize (IH (k + 1) a' b' Ha' Hb' Hc2 ltac:(nia)). lia.
      * assert (x < y) by nia. nia.
Qed.
Lemma cleared_bounds axes : forall sh k ix, in_bounds sh ix -> in_bounds sh (replaced axes 0 k ix).
Proof. induction sh; intros k ix H; inversion H; subst; cbn; constructor; [destruct (in_dec Z.eq_dec k axes); lia|apply IHsh; assumption]. Qed.
Lemma cleared_same keep axes : forall ix k, rix keep axes k (replaced axes 0 k ix) = rix keep axes k ix.
Proof.
  induction ix as [|x ix IH]; intros k; [reflexivity|]. cbn [replaced]. rewrite !rix_cons, !IH. destruct (in_dec Z.eq_dec k axes); reflexivity.
Qed.
Lemma cleared_le axes : forall sh k ix, in_bounds sh ix -> row_pos sh (replaced axes 0 k ix) <= row_pos sh ix.
Proof.
  induction sh as [|d sh IH]; intros k ix H; inversion H; subst; cbn [replaced row_pos]; [lia|].
  specialize (IH (k + 1) l' ltac:(assumption)). pose proof (row_pos_bound _ _ H4).
  destruct (in_dec Z.eq_dec k axes); nia.
Qed.
