(** Immediate reduction: the result. *)
From Coq Require Import List ZArith Lia Bool Sorted.
From Verif Require Import Prelude PreludeFacts Strides_Model Strides_Spec Strides_Proofs Stepper_Proofs Assign4_Proofs Manip_Proofs Container_Model Container_Spec Container_Proofs
  Reduce_Model Reduce_Spec Reduce_Proofs Reduce3_Proofs Reduce4_Proofs Reduce5_Proofs Reduce8_Proofs Reduce9_Proofs Reduce10_Proofs Reduce11_Proofs Reduce12_Proofs.
Import ListNotations.
Open Scope Z_scope.

Lemma nth_error_ext {A} : forall (l l' : list A), (forall n, nth_error l n = nth_error l' n) -> l = l'.
Proof.
  induction l as [|x l IH]; intros [|y l'] H; [reflexivity|specialize (H 0%nat); discriminate|specialize (H 0%nat); discriminate|].
  f_equal; [specialize (H 0%nat); cbn in H; congruence|]. apply IH. intros n. exact (H (S n)).
Qed.

(** ** Elements in storage order *)
Lemma col_row sh ix : length ix = length sh -> col_pos sh ix = row_pos (rev sh) (rev ix).
Proof. intros H. rewrite row_col_rev by (rewrite !rev_length; exact H). rewrite !rev_involutive. reflexivity. Qed.

Lemma canon_of sh st : Forall (fun d => 0 < d) sh -> length st = length sh ->
  (forall ix, in_bounds sh ix -> dot ix st = row_pos sh ix) ->
  (forall i, (i < length sh)%nat -> nth i sh 0 = 1 -> nth i st 0 = 0) -> canon_row sh st.
Proof.
  intros Hp Hl Hd Hu. split; [exact Hl|]. intros i Hi. destruct (Z.eqb_spec (nth i sh 0) 1) as [E|E]; [apply Hu; assumption|].
  set (a := firstn i sh). set (d := nth i sh 0) in *. set (b := skipn (S i) sh).
  assert (Es : sh = a ++ d :: b) by (unfold a, b, d; rewrite <- (firstn_skipn i sh) at 1; f_equal; apply skipn_nth; exact Hi).
  set (a' := firstn i st). set (b' := skipn (S i) st).
  assert (Et : st = a' ++ nth i st 0 :: b') by (unfold a', b'; rewrite <- (firstn_skipn i st) at 1; f_equal; apply skipn_nth; lia).
  assert (La : length a = i) by (unfold a; rewrite firstn_length_le; lia). assert (La' : length a' = i) by (unfold a'; rewrite firstn_length_le; lia).
  assert (Hd2 : 1 < d). { assert (0 < d) by (rewrite Forall_forall in Hp; apply Hp; unfold d; apply nth_In; exact Hi). lia. }
  rewrite Es in Hp. apply Forall_app in Hp. destruct Hp as [Hpa Hpb]. assert (Hpb' : Forall (fun d => 0 < d) b) by (inversion Hpb; assumption).
  assert (B : in_bounds sh (repeat 0 (length a) ++ 1 :: repeat 0 (length b))).
  { rewrite Es at 1. apply Forall2_app; [apply zeros_in_bounds; exact Hpa|]. constructor; [lia|apply zeros_in_bounds; exact Hpb']. }
  specialize (Hd _ B). assert (Z0 : forall n s, dot (repeat 0 n) s = 0) by (induction n; intros [|s0 s]; cbn; try reflexivity; apply IHn).
  rewrite Et in Hd. rewrite dot_app in Hd by (rewrite repeat_length; lia). cbn [dot] in Hd. rewrite !Z0 in Hd.
  rewrite Es in Hd at 1. rewrite row_pos_app in Hd by (rewrite repeat_length; reflexivity). cbn [row_pos] in Hd. rewrite !row_pos_repeat0 in Hd. lia.
Qed.

Section Data.
Context {V : Type} (c : cont V) (ev : list Z -> V).
Hypothesis Hc : consistent c.
Hypothesis Hl : is_order (ct_layout c).
Hypothesis He : forall jx, in_bounds (ct_shape c) jx -> elt c jx = Ok (ev jx).
Lemma offset_rank jx : in_bounds (ct_shape c) jx -> element_offset (ct_strides c) jx = rank (ct_layout c) (ct_shape c) jx.
Proof. destruct Hc as (_ & _ & _ & _ & l & _ & El & E). intros H. rewrite E, (El Hl) by exact H. reflexivity. Qed.
Lemma data_at jx : in_bounds (ct_shape c) jx -> nth_error (ct_data c) (Z.to_nat (rank (ct_layout c) (ct_shape c) jx)) = Some (ev jx).
Proof.
  intros H. specialize (He jx H). unfold elt, rdz in He. rewrite offset_rank in He by exact H. pose proof (rank_bound (ct_layout c) _ _ H).
  destruct (rank _ _ _ <? 0) eqn:E; [apply Z.ltb_lt in E; lia|]. apply rd_ok_inv in He. exact He.
Qed.
Lemma data_list : ct_data c = map ev (indices_of (ct_layout c) (ct_shape c)).
Proof.
  destruct Hc as (Hs & _ & _ & Hd & _). pose proof (indices_of_length _ _ Hl Hs) as L.
  apply nth_error_ext. intros n. destruct (Nat.lt_ge_cases n (length (ct_data c))) as [Hn|Hn].
  - assert (exists jx, in_bounds (ct_shape c) jx /\ rank (ct_layout c) (ct_shape c) jx = Z.of_nat n) as (jx & B & E).
    { destruct (Forall_dec (fun d => 0 < d) (fun d => Z_lt_dec 0 d) (ct_shape c)) as [Hp|Hp].
      - destruct Hl as [E|E]; rewrite E; cbn [rank].
        + destruct (index_at (ct_shape c) n Hp) as [B1 B2]; [lia|]. eauto.
        + destruct (index_at (rev (ct_shape c)) n) as [B1 B2]; [apply Forall_rev; exact Hp|rewrite prod_rev; lia|].
          eexists (rev _). split; [apply in_bounds_rev in B1; rewrite rev_involutive in B1; exact B1|].
          rewrite col_row by (rewrite rev_length, (in_bounds_length _ _ B1), rev_length; reflexivity). rewrite rev_involutive. exact B2.
      - exfalso. apply Hp. apply (Stepper4_Proofs.prod_nonneg_pos). exact Hs. lia. }
    pose proof (data_at jx B) as X. rewrite E, Nat2Z.id in X. rewrite X. symmetry.
    pose proof (indices_of_nth _ _ jx Hl B) as Y. rewrite nth_error_map.
    replace (Z.to_nat (Stepper_Spec.order_pos (ct_layout c) (ct_shape c) jx)) with n in Y.
    + rewrite Y. reflexivity.
    + destruct Hl as [E'|E']; rewrite E' in *; cbn [rank Stepper_Spec.order_pos] in *; lia.
  - rewrite (proj2 (nth_error_None _ _)) by exact Hn. symmetry. apply nth_error_None. rewrite map_length. lia.
Qed.
End Data.

(** ** The shape of the result *)
Lemma drop_shape_ok axes : forall rest done_ (pre : list Z) junk, length junk = nkept axes (Z.of_nat (length done_)) (length rest) ->
  exists n', for_up (fun i '(shape, idx) => if mem_axis i axes then Ok (shape, idx) else
      let* x := rd (done_ ++ rest) i in let* shape := wr shape idx x in Ok (shape, S idx)) (length done_) (length rest) (pre ++ junk, length pre)
  = Ok (pre ++ without axes (Z.of_nat (length done_)) rest, n').
Proof.
  induction rest as [|x rest IH]; intros done_ pre junk H; cbn [length for_up without nkept] in *.
  - destruct junk; [|discriminate]. eexists. reflexivity.
  - pose proof (mem_axis_spec (length done_) axes) as Hm. replace (Z.of_nat (length done_) + 1) with (Z.of_nat (length (done_ ++ [x]))) in * by (rewrite app_length; cbn; lia).
    assert (Es : S (length done_) = length (done_ ++ [x])) by (rewrite app_length; cbn; lia).
    assert (Ed : done_ ++ x :: rest = (done_ ++ [x]) ++ rest) by (rewrite <- app_assoc; reflexivity).
    destruct (mem_axis (length done_) axes) eqn:Em; cbn [bind].
    + destruct (in_dec Z.eq_dec (Z.of_nat (length done_)) axes) as [_|Hn]; [|exfalso; apply Hn, Hm; reflexivity].
      rewrite Es, Ed. apply IH. exact H.
    + destruct (in_dec Z.eq_dec (Z.of_nat (length done_)) axes) as [Hi|_]; [apply Hm in Hi; discriminate|].
      destruct junk as [|y junk]; [discriminate|].
      erewrite rd_ok by (rewrite nth_error_app2, Nat.sub_diag by lia; reflexivity). cbn [bind]. rewrite wr_mid. cbn [bind].
      rewrite Es, Ed. specialize (IH (done_ ++ [x]) (pre ++ [x]) junk). rewrite <- (app_assoc pre) in IH. cbn [app] in IH.
      replace (length (pre ++ [x])) with (S (length pre)) in IH by (rewrite app_length; cbn; lia).
      rewrite <- (app_assoc pre) in IH. cbn [app] in IH. apply IH. cbn in H. lia.
Qed.

Lemma shape_computation_ok esh axes keep : valid_axes (length esh) axes ->
  shape_computation esh axes keep = Ok (red_shape keep axes esh).
Proof.
  intros Hv. pose proof (valid_axes_length _ _ Hv) as Hle. destruct Hv as [HS HF]. unfold shape_computation, red_shape. destruct keep.
  - pose proof (keep_shape_ok axes esh [] [] (repeat 0 (length esh)) eq_refl) as E. cbn [app length] in E. rewrite E by apply repeat_length. reflexivity.
  - destruct (Nat.ltb_spec (length esh) (length axes)); [lia|].
    pose proof (nkept_valid (length esh) axes 0 HS HF) as Hn.
    destruct (drop_shape_ok axes esh [] [] (repeat 0 (length esh - length axes))) as [n' E].
    + rewrite repeat_length. cbn [length]. change (Z.of_nat 0) with 0. lia.
    + cbn [app length] in E. change (Z.of_nat 0) with 0 in E. rewrite E. reflexivity.
Qed.

Lemma red_shape_pos keep axes sh : Forall (fun d => 0 < d) sh -> Forall (fun d => 0 < d) (red_shape keep axes sh).
Proof. intros H. exact (rsh_pos keep axes sh 0 H). Qed.
Lemma red_shape_is keep axes sh : is_shape sh -> is_shape (red_shape keep axes sh).
Proof.
  intros H. unfold red_shape. assert (G : forall k, is_shape (rsh keep axes k sh)).
  { induction H as [|d s Hd Hs IH]; intros k; [rewrite rsh_nil; constructor|]. rewrite rsh_cons. destruct (in_dec Z.eq_dec k axes), keep; try apply IH; constructor; try apply IH; lia. }
  exact (G 0).
Qed.

(** ** All axes reduced *)
Lemma all_in dim axes : valid_axes dim axes -> length axes = dim -> forall j, (j < dim)%nat -> In (Z.of_nat j) axes.
Proof.
  intros [HS HF] Hl j Hj. pose proof (nkept_valid dim axes 0 HS HF) as Hn. assert (H0 : nkept axes 0 dim = 0%nat) by lia. clear -H0 Hj.
  assert (G : forall n k j, nkept axes k n = 0%nat -> (j < n)%nat -> In (k + Z.of_nat j) axes).
  { induction n; intros k i Hz Hi; [lia|]. cbn in Hz. destruct (in_dec Z.eq_dec k axes) as [i0|]; [|discriminate].
    destruct i as [|i]; [rewrite Z.add_0_r; exact i0|]. replace (k + Z.of_nat (S i)) with (k + 1 + Z.of_nat i) by lia. apply IHn; [exact Hz|lia]. }
  exact (G dim 0 j H0 Hj).
Qed.

(** ** Reduced axes of extent 1 *)
Lemma unit_pos keep axes : forall sh k ix, (forall j, (j < length sh)%nat -> In (k + Z.of_nat j) axes -> nth j sh 0 = 1) -> in_bounds sh ix ->
  row_pos (rsh keep axes k sh) (rix keep axes k ix) = row_pos sh ix /\ prod (rsh keep axes k sh) = prod sh.
Proof.
  induction sh as [|d sh IH]; intros k ix Hu H; inversion H as [|? x ? ix' Hx Hix]; subst; [rewrite rsh_nil, rix_nil; auto|].
  destruct (IH (k + 1) ix') as [E1 E2]; [|exact Hix|].
  { intros j Hj Hin. apply (Hu (S j)); [cbn; lia|]. replace (k + Z.of_nat (S j)) with (k + 1 + Z.of_nat j) by lia. exact Hin. }
  rewrite rsh_cons, rix_cons. destruct (in_dec Z.eq_dec k axes) as [i|i].
  - assert (d = 1) by (apply (Hu 0%nat); [cbn; lia|rewrite Z.add_0_r; exact i]). subst d. assert (x = 0) by lia. subst x.
    destruct keep; cbn [row_pos]; rewrite ?prod_cons, E1, E2; split; lia.
  - cbn [row_pos]. rewrite !prod_cons, E1, E2. auto.
Qed.
Lemma unit_prod keep axes : forall sh k, (forall j, (j < length sh)%nat -> In (k + Z.of_nat j) axes -> nth j sh 0 = 1) -> prod (rsh keep axes k sh) = prod sh.
Proof.
  induction sh as [|d sh IH]; intros k Hu; [rewrite rsh_nil; reflexivity|].
  assert (E2 : prod (rsh keep axes (k + 1) sh) = prod sh).
  { apply IH. intros j Hj Hin. apply (Hu (S j)); [cbn; lia|]. replace (k + Z.of_nat (S j)) with (k + 1 + Z.of_nat j) by lia. exact Hin. }
  rewrite rsh_cons. destruct (in_dec Z.eq_dec k axes) as [i|i].
  - assert (d = 1) by (apply (Hu 0%nat); [cbn; lia|rewrite Z.add_0_r; exact i]). subst d. destruct keep; rewrite ?prod_cons, E2; lia.
  - rewrite !prod_cons, E2. reflexivity.
Qed.
Lemma unit_onto keep axes : forall sh k rx, (forall j, (j < length sh)%nat -> In (k + Z.of_nat j) axes -> nth j sh 0 = 1) ->
  in_bounds (rsh keep axes k sh) rx -> exists ix, in_bounds sh ix /\ rix keep axes k ix = rx.
Proof.
  induction sh as [|d sh IH]; intros k rx Hu H.
  - rewrite rsh_nil in H. inversion H; subst. exists []. split; [constructor|apply rix_nil].
  - assert (IH' : forall rx, in_bounds (rsh keep axes (k + 1) sh) rx -> exists ix, in_bounds sh ix /\ rix keep axes (k + 1) ix = rx).
    { intros r Hr. apply IH; [|exact Hr]. intros j Hj Hin. apply (Hu (S j)); [cbn; lia|]. replace (k + Z.of_nat (S j)) with (k + 1 + Z.of_nat j) by lia. exact Hin. }
    rewrite rsh_cons in H. destruct (in_dec Z.eq_dec k axes) as [i|i] eqn:Ed.
    + assert (d = 1) by (apply (Hu 0%nat); [cbn; lia|rewrite Z.add_0_r; exact i]). subst d. destruct keep.
      * inversion H as [|? x ? t Hx Ht]; subst. destruct (IH' _ Ht) as (ix & H4 & <-). exists (0 :: ix). split; [constructor; [lia|exact H4]|].
        rewrite rix_cons, Ed. f_equal. lia.
      * destruct (IH' _ H) as (ix & H4 & <-). exists (0 :: ix). split; [constructor; [lia|exact H4]|]. rewrite rix_cons, Ed. reflexivity.
    + inversion H as [|? x ? t Hx Ht]; subst. destruct (IH' _ Ht) as (ix & H4 & <-). exists (x :: ix). split; [constructor; [lia|exact H4]|].
      rewrite rix_cons, Ed. reflexivity.
Qed.
Lemma unit_rank l keep axes sh ix : is_order l -> (forall j, (j < length sh)%nat -> In (Z.of_nat j) axes -> nth j sh 0 = 1) -> in_bounds sh ix ->
  rank l (red_shape keep axes sh) (red_index keep axes ix) = rank l sh ix.
Proof.
  intros Hl Hu Hb. destruct Hl as [ -> | -> ]; cbn [rank].
  - apply (unit_pos keep axes sh 0 ix); [|exact Hb]. intros j Hj Hi. apply Hu; [exact Hj|exact Hi].
  - rewrite !col_row by (first [apply in_bounds_length, (rix_bounds keep axes sh 0 ix Hb) | apply in_bounds_length; exact Hb]).
    rewrite <- red_shape_mirror, <- red_index_mirror, (in_bounds_length _ _ Hb).
    apply (unit_pos keep (mirrored (length sh) axes) (rev sh) 0 (rev ix)); [|apply in_bounds_rev; exact Hb].
    intros j Hj Hi. rewrite rev_length in Hj. rewrite Z.add_0_l, mirrored_in in Hi. rewrite rev_nth by exact Hj. apply Hu; [lia|].
    replace (Z.of_nat (length sh - S j)) with (Z.of_nat (length sh) - 1 - Z.of_nat j) by lia. exact Hi.
Qed.

Lemma filter_unique {A} (p : A -> bool) (x : A) : forall l, NoDup l -> In x l -> p x = true -> (forall y, In y l -> p y = true -> y = x) -> filter p l = [x].
Proof.
  induction l as [|y l IH]; intros Hn Hi Hp Hu; [destruct Hi|]. inversion Hn as [|? ? Hni Hn']; subst. cbn [filter]. destruct Hi as [ -> |Hi].
  - rewrite Hp. f_equal. apply filter_nothing. intros z Hz. destruct (p z) eqn:Ez; [|reflexivity]. exfalso. apply Hni. rewrite <- (Hu z); [exact Hz|right; exact Hz|exact Ez].
  - destruct (p y) eqn:Ey.
    + exfalso. apply Hni. rewrite (Hu y); [exact Hi|left; reflexivity|exact Ey].
    + apply IH; auto. intros z Hz. apply Hu. right. exact Hz.
Qed.
Lemma row_indices_in : forall sh ix, In ix (row_indices sh) <-> in_bounds sh ix.
Proof.
  induction sh as [|d sh IH]; intros ix; cbn [row_indices].
  - split; [intros [ <- |[]]; constructor|intros H; inversion H; left; reflexivity].
  - rewrite in_flat_map. split.
    + intros (i & Hi & H). apply in_map_iff in H. destruct H as (jx & <- & Hj). apply in_seq in Hi. constructor; [lia|apply IH; exact Hj].
    + intros H. inversion H as [|? x ? t Hx Ht]; subst. exists (Z.to_nat x). split; [apply in_seq; lia|]. apply in_map_iff. exists t. split; [f_equal; lia|apply IH; exact Ht].
Qed.
Lemma row_indices_nodup : forall sh, NoDup (row_indices sh).
Proof.
  induction sh as [|d sh IH]; cbn [row_indices]; [repeat constructor; intros []|].
  generalize (seq_NoDup (Z.to_nat d) 0). generalize (seq 0 (Z.to_nat d)). induction l as [|i l IHl]; intros Hn; cbn [flat_map]; [constructor|].
  inversion Hn as [|? ? Hni Hn']; subst.
  assert (G : forall (l1 l2 : list (list Z)), NoDup l1 -> NoDup l2 -> (forall x, In x l1 -> ~ In x l2) -> NoDup (l1 ++ l2)).
  { induction l1 as [|z l1 IH1]; intros l2 N1 N2 Hd; [exact N2|]. inversion N1; subst. cbn. constructor.
    - rewrite in_app_iff. intros [X|X]; [contradiction|]. apply (Hd z); [left; reflexivity|exact X].
    - apply IH1; auto. intros x Hx. apply Hd. right. exact Hx. }
  apply G; [|apply IHl; exact Hn'|].
  - apply FinFun.Injective_map_NoDup; [intros a b E; injection E as E; exact E|exact IH].
  - intros x Hx Hx'. apply in_map_iff in Hx. destruct Hx as (a & <- & _). apply in_flat_map in Hx'. destruct Hx' as (i' & Hi' & Hm).
    apply in_map_iff in Hm. destruct Hm as (b & E & _). injection E as E _. assert (i = i') by lia. subst. contradiction.
Qed.
Lemma indices_of_in l sh ix : is_order l -> In ix (indices_of l sh) <-> in_bounds sh ix.
Proof.
  intros [ -> | -> ]; cbn [indices_of]; [apply row_indices_in|]. rewrite in_map_iff. split.
  - intros (y & <- & Hy). apply row_indices_in, in_bounds_rev in Hy. rewrite rev_involutive in Hy. exact Hy.
  - intros H. exists (rev ix). split; [apply rev_involutive|]. apply row_indices_in, in_bounds_rev. exact H.
Qed.
Lemma indices_of_nodup l sh : is_order l -> NoDup (indices_of l sh).
Proof.
  intros [ -> | -> ]; cbn [indices_of]; [apply row_indices_nodup|]. apply FinFun.Injective_map_NoDup; [|apply row_indices_nodup].
  intros a b E. apply (f_equal (@rev Z)) in E. rewrite !rev_involutive in E. exact E.
Qed.
Lemma unit_block l keep axes sh jx : is_order l -> (forall j, (j < length sh)%nat -> In (Z.of_nat j) axes -> nth j sh 0 = 1) -> in_bounds sh jx ->
  block l keep axes sh (red_index keep axes jx) = [jx].
Proof.
  intros Hl Hu Hb. unfold block. apply filter_unique.
  - apply indices_of_nodup, Hl.
  - apply indices_of_in; assumption.
  - destruct (list_eq_dec _ _ _); [reflexivity|contradiction].
  - intros y Hy Ey. destruct (list_eq_dec _ _ _) as [e|]; [|discriminate]. apply indices_of_in in Hy; [|exact Hl].
    apply (rank_inj l sh); [exact Hy|exact Hb|]. rewrite <- (unit_rank l keep axes sh y), <- (unit_rank l keep axes sh jx) by assumption. rewrite e. reflexivity.
Qed.
