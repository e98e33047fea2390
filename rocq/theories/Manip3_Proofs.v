(** Proofs about flip and rot90. *)
From Coq Require Import List ZArith Bool Lia Permutation.
From Verif Require Import Prelude PreludeFacts Strides_Model Strides_Spec Strides_Proofs Slice_Model
  Container_Spec SView_Model SView_Spec SView_Proofs Manip_Model Manip_Spec Manip_Proofs Manip2_Proofs.
Import ListNotations.
Open Scope Z_scope.

Lemma dot_upd ix st a x y : length ix = length st -> (a < length st)%nat ->
  dot (upd ix a x) (upd st a y) = dot ix st - nth a ix 0 * nth a st 0 + x * y.
Proof.
  revert st a. induction ix as [|i ix IH]; intros [|s st] [|a] Hl Ha; simpl in *; try discriminate; try lia.
  rewrite IH by lia. lia.
Qed.

Lemma in_bounds_upd sh ix a n x : in_bounds sh ix -> (a < length sh)%nat -> 0 <= x < n ->
  in_bounds (upd sh a n) (upd ix a x).
Proof.
  intros H. revert a. induction H; intros [|a] Ha Hx; simpl in *; try lia.
  - constructor; auto.
  - constructor; auto. apply IHForall2; auto. lia.
Qed.

Lemma in_bounds_upd_ix sh ix a x : in_bounds sh ix -> (a < length sh)%nat -> 0 <= x < nth a sh 0 ->
  in_bounds sh (upd ix a x).
Proof.
  intros H Ha Hx. rewrite <- (upd_nth_self sh a (nth a sh 0)) at 1 by (apply nth_error_nth'; auto). apply in_bounds_upd; auto.
Qed.

Lemma mirror_bounds a sh ix : (a < length sh)%nat -> in_bounds sh ix -> in_bounds sh (mirror a sh ix).
Proof.
  intros Ha H. unfold mirror. pose proof (in_bounds_nth _ _ a H Ha). apply in_bounds_upd_ix; auto. lia.
Qed.

Lemma mirror_invol a sh ix : (a < length ix)%nat -> mirror a sh (mirror a sh ix) = ix.
Proof.
  intros Ha. unfold mirror. rewrite nth_upd_same by auto. rewrite upd_upd_same.
  replace (nth a sh 0 - 1 - (nth a sh 0 - 1 - nth a ix 0)) with (nth a ix 0) by lia. apply upd_nth_self. apply nth_error_nth'; auto.
Qed.

Lemma flip_lemma : forall (T : layout) (e : xexp) (axis : nat),
  T = row_major \/ T = column_major -> wf_exp e -> x_direct e = true -> (axis < length (x_shape e))%nat ->
  exists v, flip T e axis = Ok v /\ rearranges e v (x_shape e) (mirror axis (x_shape e)) /\
    wf_exp (as_exp v) /\ w_base v = e /\ w_layout v = dynamic.
Proof.
  intros T e axis HT He Hd Ha. pose proof He as (Hs & Hl). specialize (Hl Hd).
  unfold flip. rewrite (rd_nth 0) by lia. cbn [bind]. rewrite wr_ok by lia. cbn [bind].
  rewrite (rd_nth 0) by lia. cbn [bind].
  set (s := nth axis (x_strides e) 0). set (n := nth axis (x_shape e) 0).
  assert (HL : length (upd (x_strides e) axis (s * -1)) = length (x_shape e)) by (rewrite upd_length; auto).
  pose proof (make_view_ok T e _ _ (x_offset e + s * (n - 1)) dynamic HL) as Hm.
  eexists. split; [exact Hm|]. split; [|split; [|split; reflexivity]].
  - eapply rearranges_intro; eauto.
    + intros jx Hj. split; [apply mirror_bounds; auto|].
      rewrite get_offset_direct, src_strides_direct by auto. unfold mirror.
      pose proof (in_bounds_length _ _ Hj).
      rewrite dot_upd by lia. fold s n. lia.
    + intros ix Hi. exists (mirror axis (x_shape e) ix). split; [apply mirror_bounds; auto|].
      symmetry. apply mirror_invol. rewrite (in_bounds_length _ _ Hi). auto.
  - apply (make_view_wf _ _ _ _ _ _ _ Hs HL Hm).
Qed.

(** ** composition *)
Lemma as_exp_shape v : x_shape (as_exp v) = w_shape v.
Proof. unfold as_exp. destruct (x_direct (w_base v)); reflexivity. Qed.

Lemma rearranges_trans e v v2 sh sh2 f g : x_direct (as_exp v) = true -> wf_exp (as_exp v) ->
  rearranges e v sh f -> rearranges (as_exp v) v2 sh2 g -> rearranges e v2 sh2 (fun jx => g (f jx)).
Proof.
  intros Hd Hw (A1 & A2 & A3) (B1 & B2 & B3). rewrite as_exp_shape, A1 in B2, B3.
  assert (Hbd : x_direct (w_base v) = true) by (unfold as_exp in Hd; destruct (x_direct (w_base v)); auto).
  assert (Hst : length (w_strides v) = length sh).
  { destruct Hw as (_ & Hw). rewrite as_exp_shape, A1 in Hw. unfold as_exp in Hw. rewrite Hbd in Hw. cbn in Hw. auto. }
  split; [auto|]. split.
  - intros jx Hj. destruct (A2 jx Hj) as (C1 & C2). destruct (B2 _ C1) as (D1 & D2). split; [exact D1|].
    rewrite (as_exp_elem v (f jx) (x_elem e jx)) in D2; auto. rewrite Hst. apply in_bounds_length; auto.
  - intros ix Hi. destruct (B3 ix Hi) as (kx & K1 & ->). destruct (A3 kx K1) as (jx & J1 & ->). eauto.
Qed.

Ltac list_nth L := apply list_eq_nth; [unfold swap_at, mirror, turn; rewrite !upd_length; auto|];
  intros i Hi; unfold swap_at, mirror, turn in *; rewrite ?upd_length in Hi;
  rewrite ?nth_upd_cases by (rewrite ?upd_length; lia);
  repeat match goal with |- context [Nat.eqb ?x ?y] => destruct (Nat.eqb_spec x y) end; subst; try lia; auto.

Lemma turn1 a b sh jx : a <> b -> (a < length jx)%nat -> (b < length jx)%nat ->
  swap_at a b (mirror b sh jx) = turn a b sh jx.
Proof. intros Hab Ha Hb. list_nth jx. Qed.

Lemma turn2 a b sh jx : a <> b -> (a < length jx)%nat -> (b < length jx)%nat -> length sh = length jx ->
  mirror b sh (mirror a sh jx) = turn a b (swap_at a b sh) (turn a b sh jx).
Proof. intros Hab Ha Hb Hs. list_nth jx. Qed.

Lemma turn3 a b sh jx : a <> b -> (a < length jx)%nat -> (b < length jx)%nat -> length sh = length jx ->
  mirror b (swap_at a b sh) (swap_at a b jx) = turn a b sh (mirror b sh (mirror a sh jx)).
Proof. intros Hab Ha Hb Hs. list_nth jx. Qed.

Lemma swap_swap a b l : (a < length l)%nat -> (b < length l)%nat -> swap_at a b (swap_at a b l) = l.
Proof. intros Ha Hb. list_nth l. Qed.

Lemma swap_at_length a b l : length (swap_at a b l) = length l.
Proof. unfold swap_at. rewrite !upd_length. reflexivity. Qed.

Lemma swapped_ok n a b : (a < n)%nat -> (b < n)%nat ->
  (let* x := rdz (iota n) (Z.of_nat a) in
   let* y := rdz (iota n) (Z.of_nat b) in
   let* l := wrz (iota n) (Z.of_nat a) y in wrz l (Z.of_nat b) x) = Ok (map Z.of_nat (swap_perm n a b)).
Proof.
  intros Ha Hb.
  rewrite (rdz_ok _ _ (Z.of_nat a)); [|lia|].
  2:{ rewrite Nat2Z.id. rewrite <- (nth_iota n a) by auto. apply nth_error_nth'. rewrite iota_length. auto. }
  cbn [bind]. rewrite (rdz_ok _ _ (Z.of_nat b)); [|lia|].
  2:{ rewrite Nat2Z.id. rewrite <- (nth_iota n b) by auto. apply nth_error_nth'. rewrite iota_length. auto. }
  cbn [bind]. rewrite wrz_ok by (rewrite iota_length; lia). cbn [bind].
  rewrite wrz_ok by (rewrite upd_length, iota_length; lia). rewrite !Nat2Z.id.
  unfold swap_perm. rewrite !map_upd. reflexivity.
Qed.

Lemma quarter N : Z.rem (4 + Z.rem N 4) 4 = N mod 4.
Proof.
  pose proof (Z.quot_rem' N 4) as HE.
  pose proof (Z.rem_bound_abs N 4 ltac:(lia)) as HB.
  rewrite Z.rem_mod_nonneg by lia. rewrite HE at 2.
  replace (4 + Z.rem N 4) with (4 * Z.quot N 4 + Z.rem N 4 + (1 - Z.quot N 4) * 4) by lia.
  apply Z_mod_plus_full.
Qed.

Lemma id_view T e : T = row_major \/ T = column_major -> wf_exp e -> x_direct e = true ->
  exists v, make_view T e (x_shape e) (x_strides e) (x_offset e) (x_layout e) = Ok v /\
    rearranges e v (x_shape e) (fun jx => jx) /\ wf_exp (as_exp v) /\ w_base v = e.
Proof.
  intros HT He Hd. pose proof He as (Hs & Hl). specialize (Hl Hd).
  pose proof (make_view_ok T e _ _ (x_offset e) (x_layout e) Hl) as Hm.
  eexists. split; [exact Hm|]. split; [|split; [eapply make_view_wf; eauto|reflexivity]].
  eapply rearranges_intro; eauto.
  - intros jx Hj. split; auto. rewrite get_offset_direct, src_strides_direct by auto. reflexivity.
Qed.

Lemma rot90_lemma : forall (T : layout) (N : Z) (e : xexp) (a0 a1 : Z) (k0 k1 : nat),
  T = row_major \/ T = column_major -> wf_exp e -> x_direct e = true ->
  axis_of (length (x_shape e)) a0 k0 -> axis_of (length (x_shape e)) a1 k1 ->
  (k0 = k1 -> rot90 T N e a0 a1 = Throw runtime_error) /\
  (k0 <> k1 -> exists v, rot90 T N e a0 a1 = Ok v /\
     rearranges e v (turned_shape (Z.to_nat (N mod 4)) k0 k1 (x_shape e)) (turns (Z.to_nat (N mod 4)) k0 k1 (x_shape e)) /\
     wf_exp (as_exp v) /\ x_direct (as_exp v) = true).
Proof.
  intros T N e a0 a1 k0 k1 HT He Hd H0 H1. set (n := length (x_shape e)) in *.
  pose proof (normalize_ok _ _ _ H0) as (N0 & L0). pose proof (normalize_ok _ _ _ H1) as (N1 & L1).
  assert (Hsame : (a0 =? a1) || (Z.abs (a0 - a1) =? Z.of_nat n) = true <-> k0 = k1).
  { rewrite orb_true_iff, !Z.eqb_eq. unfold normalize_axis in N0, N1.
    destruct H0 as (R0 & _), H1 as (R1 & _).
    destruct (Z.ltb_spec a0 0), (Z.ltb_spec a1 0); lia. }
  unfold rot90. fold n. rewrite N0, N1, quarter. split.
  - intros E. rewrite (proj2 Hsame E). reflexivity.
  - intros E. destruct ((a0 =? a1) || (Z.abs (a0 - a1) =? Z.of_nat n)) eqn:Ec.
    { exfalso. apply E. apply Hsame. reflexivity. }
    clear Hsame Ec. pose proof (Z.mod_pos_bound N 4 ltac:(lia)) as HB.
    assert (HN : N mod 4 = 0 \/ N mod 4 = 1 \/ N mod 4 = 2 \/ N mod 4 = 3) by lia.
    unfold rot90_impl. fold n. rewrite !Nat2Z.id. rewrite swapped_ok by auto.
    pose proof (swap_perm_is_perm n k0 k1 L0 L1) as Hsp.
    destruct HN as [HN|[HN|[HN|HN]]]; rewrite HN; cbn [Z.eqb].
    + change (Z.to_nat 0) with 0%nat. cbn [turns turned_shape].
      destruct (id_view T e HT He Hd) as (v & V1 & V2 & V3 & V4). exists v. split; [exact V1|]. split; [exact V2|]. split; [exact V3|].
      unfold as_exp. rewrite V4, Hd. reflexivity.
    + change (1 =? 0) with false. change (1 =? 1) with true. cbn iota. cbn [bind]. change (Z.to_nat 1) with 1%nat.
      destruct (flip_lemma T e k1 HT He Hd L1) as (f & F1 & F2 & F3 & F4 & _). rewrite F1. cbn [bind].
      assert (Hdf : x_direct (as_exp f) = true) by (unfold as_exp; rewrite F4, Hd; reflexivity).
      assert (Hsf : x_shape (as_exp f) = x_shape e) by (rewrite as_exp_shape; apply F2).
      assert (Hsp' : is_perm (length (x_shape (as_exp f))) (swap_perm n k0 k1)) by (rewrite Hsf; exact Hsp).
      destruct (transpose_none_lemma T (as_exp f) _ HT F3 Hdf Hsp') as (v & V1 & V2 & V3 & V4 & _).
      exists v. split; [exact V1|]. rewrite Hsf in V2.
      split; [|split; [exact V3|unfold as_exp; rewrite V4, Hdf; reflexivity]].
      pose proof (rearranges_trans _ _ _ _ _ _ _ Hdf F3 F2 V2) as R.
      eapply rearranges_ext; [| |exact R].
      * cbn [turned_shape]. apply permute_swap; auto.
      * intros jx Hj. pose proof (in_bounds_length _ _ Hj). cbn beta. cbn [turns].
        rewrite permute_swap by (auto; unfold mirror; rewrite upd_length; auto). apply turn1; auto; lia.
    + change (2 =? 0) with false. change (2 =? 1) with false. change (2 =? 2) with true. cbn iota. change (Z.to_nat 2) with 2%nat.
      destruct (flip_lemma T e k0 HT He Hd L0) as (f & F1 & F2 & F3 & F4 & _). rewrite F1. cbn [bind].
      assert (Hdf : x_direct (as_exp f) = true) by (unfold as_exp; rewrite F4, Hd; reflexivity).
      assert (Hsf : x_shape (as_exp f) = x_shape e) by (rewrite as_exp_shape; apply F2).
      assert (L1' : (k1 < length (x_shape (as_exp f)))%nat) by (rewrite Hsf; exact L1).
      destruct (flip_lemma T (as_exp f) k1 HT F3 Hdf L1') as (v & V1 & V2 & V3 & V4 & _).
      exists v. split; [exact V1|]. rewrite Hsf in V2.
      split; [|split; [exact V3|unfold as_exp; rewrite V4, Hdf; reflexivity]].
      pose proof (rearranges_trans _ _ _ _ _ _ _ Hdf F3 F2 V2) as R.
      eapply rearranges_ext; [| |exact R].
      * cbn [turned_shape]. symmetry. apply swap_swap; auto.
      * intros jx Hj. pose proof (in_bounds_length _ _ Hj). cbn beta. cbn [turns].
        apply turn2; auto; lia.
    + change (3 =? 0) with false. change (3 =? 1) with false. change (3 =? 2) with false. cbn iota. cbn [bind]. change (Z.to_nat 3) with 3%nat.
      destruct (transpose_none_lemma T e _ HT He Hd Hsp) as (f & F1 & F2 & F3 & F4 & _). rewrite F1. cbn [bind].
      assert (Hdf : x_direct (as_exp f) = true) by (unfold as_exp; rewrite F4, Hd; reflexivity).
      assert (Hsf : x_shape (as_exp f) = swap_at k0 k1 (x_shape e)).
      { rewrite as_exp_shape. rewrite <- (permute_swap n) by auto. apply F2. }
      assert (L1' : (k1 < length (x_shape (as_exp f)))%nat) by (rewrite Hsf, swap_at_length; exact L1).
      destruct (flip_lemma T (as_exp f) k1 HT F3 Hdf L1') as (v & V1 & V2 & V3 & V4 & _).
      exists v. split; [exact V1|]. rewrite Hsf in V2.
      split; [|split; [exact V3|unfold as_exp; rewrite V4, Hdf; reflexivity]].
      pose proof (rearranges_trans _ _ _ _ _ _ _ Hdf F3 F2 V2) as R.
      eapply rearranges_ext; [| |exact R].
      * cbn [turned_shape]. rewrite swap_swap; rewrite ?swap_at_length; auto.
      * intros jx Hj. pose proof (in_bounds_length _ _ Hj). cbn beta. cbn [turns].
        rewrite permute_swap by auto. rewrite swap_swap by auto. rewrite turn3 by (auto; lia).
        rewrite turn2 by (auto; lia). reflexivity.
Qed.
