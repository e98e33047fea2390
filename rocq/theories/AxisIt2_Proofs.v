(** Proofs about the slice iterators. *)
From Coq Require Import List ZArith Lia Bool.
From Verif Require Import Prelude PreludeFacts Strides_Model Strides_Spec Strides_Proofs Access_Model Container_Model Container_Spec
  Stepper_Proofs SView_Model SView_Spec SView_Proofs Accum2_Proofs Reduce9_Proofs Manip4_Proofs AxisIt_Model AxisIt_Spec AxisIt_Proofs.
Import ListNotations.
Open Scope Z_scope.

(** * Arithmetic of the increment. [W] is the number of positions of the faster
    axes, [n] the extent, [I] the modulus. *)
Definition pos_ (n W k : Z) : Z := k / W * (n * W) + k mod W.
Definition adv (n W I : Z) (tgt : bool) (off : Z) : Z :=
  let cmp := (off + 1) mod I in
  if tgt || ((cmp <=? W + W * (n - 1)) && (W <=? cmp)) then off + 1 + W * (n - 1) else off + 1.

Lemma pos_succ n W k : 0 < W -> 0 <= k ->
  pos_ n W (k + 1) = pos_ n W k + 1 + (if k mod W =? W - 1 then W * (n - 1) else 0).
Proof.
  intros HW Hk. unfold pos_. pose proof (Z.div_mod k W ltac:(lia)) as E. pose proof (Z.mod_pos_bound k W HW) as B.
  destruct (Z.eqb_spec (k mod W) (W - 1)) as [H|H].
  - replace (k + 1) with ((k / W + 1) * W) by lia. rewrite Z.div_mul, Z.mod_mul by lia. nia.
  - assert (E1 : (k + 1) / W = k / W) by (symmetry; apply (Z.div_unique _ _ _ (k mod W + 1)); lia).
    assert (E2 : (k + 1) mod W = k mod W + 1) by (symmetry; apply (Z.mod_unique _ _ (k / W)); lia).
    rewrite E1, E2. lia.
Qed.

Lemma adv_case n W I tgt off (b : bool) : (tgt = true -> b = true) ->
  (b = true -> W <= (off + 1) mod I <= n * W) -> (b = false -> (off + 1) mod I < W \/ n * W < (off + 1) mod I) ->
  adv n W I tgt off = off + 1 + (if b then W * (n - 1) else 0).
Proof.
  intros H0 H1 H2. unfold adv. destruct b.
  - specialize (H1 eq_refl). rewrite (proj2 (Z.leb_le _ _)) by lia. rewrite (proj2 (Z.leb_le _ _)) by lia.
    rewrite orb_true_r. lia.
  - destruct tgt; [discriminate (H0 eq_refl)|]. cbn [orb]. destruct (H2 eq_refl) as [H|H].
    + rewrite (proj2 (Z.leb_gt W _)) by lia. rewrite andb_false_r. lia.
    + rewrite (proj2 (Z.leb_gt _ (W + W * (n - 1)))) by lia. cbn [andb]. lia.
Qed.

Lemma adv_flat W I tgt off : adv 1 W I tgt off = off + 1.
Proof. unfold adv. replace (W * (1 - 1)) with 0 by lia. destruct (_ || _); lia. Qed.
Lemma adv_target n W I off : adv n W I true off = off + 1 + W * (n - 1).
Proof. reflexivity. Qed.

Lemma pos_lt n W k : 0 < W -> 0 < n -> 0 <= k < W -> pos_ n W k = k.
Proof. intros. unfold pos_. rewrite Z.div_small, Z.mod_small by lia. lia. Qed.

(** The steps that are right. *)
Lemma step_ok n W I P M tgt k : 0 < W -> 0 < n -> 0 < P -> 0 < M -> 0 < I ->
  (tgt = true -> W = 1) ->
  (I = W /\ P = 1) \/ (I = n * W * M) ->
  n = 1 \/ tgt = true \/ M = 1 \/ P <= 2 ->
  (P <= 1 -> I = W \/ M = 1 \/ n = 1 \/ 2 <= M) ->
  0 <= k -> k + 1 < P * W ->
  adv n W I tgt (pos_ n W k) = pos_ n W (k + 1).
Proof.
  intros HW Hn HP HM HI Ht HIc Hok _ Hk HkP. rewrite pos_succ by lia.
  destruct (Z.eq_dec n 1) as [ -> |Hn1].
  { rewrite adv_flat. replace (W * (1 - 1)) with 0 by lia. destruct (_ =? _); lia. }
  assert (Hn2 : 2 <= n) by lia. assert (HnW : 2 * W <= n * W) by nia.
  pose proof (Z.mod_pos_bound k W HW) as B. pose proof (Z.div_mod k W ltac:(lia)) as E.
  destruct tgt.
  { specialize (Ht eq_refl). subst W. rewrite adv_target. rewrite Z.mod_1_r. reflexivity. }
  assert (Hcase : (I = W /\ P = 1) \/ (I = n * W) \/ (I = n * W * M /\ P <= 2 /\ 2 <= M)).
  { destruct HIc as [H|H]; [left; exact H|]. right. destruct Hok as [H1|[H1|[H1|H1]]]; [lia|discriminate| |].
    - left. subst M. lia.
    - destruct (Z.eq_dec M 1) as [ -> |]; [left; lia|right; lia]. }
  apply adv_case; [discriminate| |].
  - rewrite Z.eqb_eq. intros Hr. unfold pos_.
    destruct Hcase as [[ -> -> ]|[ -> |( -> & HP2 & HM2)]].
    + exfalso. assert (k / W = 0) by (apply Z.div_small; lia). nia.
    + replace (k / W * (n * W) + k mod W + 1) with (W + k / W * (n * W)) by lia.
      rewrite Z.mod_add by nia. rewrite Z.mod_small by nia. nia.
    + assert (k / W < 2) by (apply Z.div_lt_upper_bound; nia). assert (0 <= k / W) by (apply Z.div_pos; lia).
      assert (k / W = 0) by (assert (k / W <> 1) by nia; lia).
      rewrite H1, Z.mul_0_l, Z.add_0_l, Hr. assert (n * W * 2 <= n * W * M) by nia.
      rewrite Z.mod_small by lia. lia.
  - intros Hb. apply Z.eqb_neq in Hb. unfold pos_.
    destruct Hcase as [[ -> -> ]|[ -> |( -> & HP2 & HM2)]].
    + left. apply Z.mod_pos_bound; lia.
    + left. replace (k / W * (n * W) + k mod W + 1) with (k mod W + 1 + k / W * (n * W)) by lia.
      rewrite Z.mod_add by nia. rewrite Z.mod_small by nia. lia.
    + assert (k / W < 2) by (apply Z.div_lt_upper_bound; nia). assert (0 <= k / W) by (apply Z.div_pos; lia).
      assert (n * W * 2 <= n * W * M) by nia.
      rewrite Z.mod_small by nia. destruct (Z.eq_dec (k / W) 0) as [E0|E0].
      * left. rewrite E0. lia.
      * right. assert (k / W = 1) by lia. nia.
Qed.

(** The step that is wrong. *)
Lemma step_wrong n W I M k : 0 < W -> 2 <= n -> 2 <= M -> I = n * W * M -> k = 2 * W - 1 ->
  adv n W I false (pos_ n W k) = n * W + W.
Proof.
  intros HW Hn HM -> ->. assert (E : pos_ n W (2 * W - 1) = n * W + (W - 1)).
  { unfold pos_. replace (2 * W - 1) with (W - 1 + 1 * W) by lia. rewrite Z.div_add, Z.mod_add by lia.
    rewrite Z.div_small, Z.mod_small by lia. lia. }
  rewrite E. assert (n * W * 2 <= n * W * M) by nia.
  rewrite (adv_case _ _ _ _ _ false); [lia|discriminate|discriminate|]. intros _. right. rewrite Z.mod_small by nia. lia.
Qed.

Lemma pos_bound n W P k : 0 < W -> 0 < n -> 0 <= k < P * W -> 0 <= pos_ n W k < P * (n * W).
Proof.
  intros HW Hn Hk. unfold pos_. pose proof (Z.mod_pos_bound k W HW) as B. pose proof (Z.div_mod k W ltac:(lia)) as E.
  assert (0 <= k / W) by (apply Z.div_pos; lia). assert (k / W < P) by (apply Z.div_lt_upper_bound; lia). nia.
Qed.

(** * The iterator *)
Section Slice.
Context (l : layout) (e : xexp) (axis : nat) (n : Z).
Hypothesis Hl : l = row_major \/ l = column_major.
Hypothesis Pe : packed l e.
Hypothesis Pos : Forall (fun d => 0 < d) (x_shape e).
Hypothesis Sz : prod (x_shape e) < 2 ^ 64.
Hypothesis En : nth_error (x_shape e) axis = Some n.

Definition Wn : Z := prod (faster l (x_shape e) axis).
Definition Pn : Z := prod (slower l (x_shape e) axis).
Definition Mn : Z := prod (skipn 1 (slower l (x_shape e) axis)).
Definition In_ : Z := match l with row_major => prod (skipn 1 (x_shape e)) | _ => prod (removelast (x_shape e)) end.
Definition tgt_ : bool := match l with row_major => (axis =? length (x_shape e) - 1)%nat | _ => (axis =? 0)%nat end.
Definition sn : Z := if n =? 1 then 0 else Wn.

Lemma n_pos : 0 < n.
Proof. apply nth_error_In in En. rewrite Forall_forall in Pos. auto. Qed.
Lemma axis_lt : (axis < length (x_shape e))%nat.
Proof. apply nth_error_Some. rewrite En. discriminate. Qed.

Lemma packed_wf : wf_exp e.
Proof.
  destruct Pe as (_ & _ & _ & H & _). split; [|auto].
  eapply Forall_impl; [|exact Pos]. intros a Ha. cbn in Ha. lia.
Qed.

Lemma stride_eq : nth_error (x_strides e) axis = Some sn.
Proof.
  destruct Pe as (_ & _ & _ & H & Hs). specialize (Hs axis axis_lt).
  rewrite (nth_error_nth' _ 0) by (rewrite H; apply axis_lt). f_equal. rewrite Hs. unfold sn, Wn.
  destruct Hl as [ -> | -> ]; cbn [faster]; unfold row_stride, col_stride; rewrite (nth_error_nth _ _ 0 En); reflexivity.
Qed.

Lemma W_pos : 0 < Wn.
Proof. unfold Wn. apply prod_pos. destruct Hl as [ -> | -> ]; cbn [faster]; [apply Forall_skipn'|apply Forall_firstn']; exact Pos. Qed.
Lemma slower_pos : Forall (fun d => 0 < d) (slower l (x_shape e) axis).
Proof. destruct Hl as [ -> | -> ]; cbn [slower]; [apply Forall_firstn', Pos|apply Forall_rev, Forall_skipn', Pos]. Qed.
Lemma P_pos : 0 < Pn.
Proof. unfold Pn. apply prod_pos, slower_pos. Qed.
Lemma M_pos : 0 < Mn.
Proof. unfold Mn. apply prod_pos, Forall_skipn', slower_pos. Qed.

Lemma size_eq : prod (x_shape e) = Pn * n * Wn.
Proof.
  destruct (split_axis _ _ _ En) as (p & q & E & Lp). unfold Pn, Wn, slower, faster. rewrite E, <- Lp, firstn_mid, skipn_mid.
  rewrite prod_app, prod_cons. destruct Hl as [ -> | -> ]; [ring|]. rewrite prod_rev. ring.
Qed.

Lemma I_cases : (In_ = Wn /\ Pn = 1) \/ (In_ = n * Wn * Mn /\ Mn <= Pn).
Proof.
  destruct (split_axis _ _ _ En) as (p & q & E & Lp). unfold In_, Wn, Pn, Mn, slower, faster. rewrite E, <- Lp, firstn_mid, skipn_mid.
  assert (Pp : Forall (fun d => 0 < d) p /\ Forall (fun d => 0 < d) q).
  { rewrite E in Pos. apply Forall_app in Pos. destruct Pos as [A B]. inversion B; subst; auto. }
  destruct Pp as [Pp Pq]. destruct Hl as [ -> | -> ].
  - destruct p as [|a p]; cbn [app skipn]; [left; auto|]. right. rewrite prod_app, !prod_cons. split; [ring|].
    inversion Pp; subst. pose proof (prod_pos p ltac:(assumption)). nia.
  - destruct q as [|a q] using rev_ind.
    + left. rewrite removelast_last. auto.
    + right. clear IHq. replace (p ++ n :: q ++ [a]) with ((p ++ n :: q) ++ [a]) by (rewrite <- app_assoc; reflexivity).
      rewrite removelast_last, rev_app_distr. cbn [rev app skipn]. rewrite prod_app, !prod_cons, !prod_rev. split; [ring|].
      apply Forall_app in Pq. destruct Pq as [A B]. inversion B; subst. pose proof (prod_pos q A). nia.
Qed.

Lemma I_pos : 0 < In_.
Proof. pose proof W_pos. pose proof n_pos. pose proof M_pos. destruct I_cases as [[ -> _]|[ -> _]]; nia. Qed.

Lemma tgt_W : tgt_ = true <-> faster l (x_shape e) axis = [].
Proof.
  pose proof axis_lt as A. unfold tgt_. destruct Hl as [ -> | -> ]; cbn [faster].
  - rewrite Nat.eqb_eq. split; intros H.
    + apply skipn_all2. lia.
    + apply (f_equal (@length Z)) in H. rewrite skipn_length in H. cbn in H. lia.
  - rewrite Nat.eqb_eq. split; intros H; [subst; reflexivity|].
    apply (f_equal (@length Z)) in H. rewrite firstn_length in H. cbn in H. lia.
Qed.

Definition slice_state (index offset : Z) : slice_it :=
  mk_slice_it index offset (Wn * (n - 1)) Wn (Wn + Wn * (n - 1)) In_ tgt_
    (mk_sview e row_major [n] (adapted [n] [sn]) (spec_backstrides (adapted [n] [sn]) [n]) offset (x_layout e)).

Lemma n_small : 0 < n < 2 ^ 64 /\ 0 <= Wn * n < 2 ^ 64.
Proof. pose proof size_eq. pose proof W_pos. pose proof P_pos. pose proof n_pos. nia. Qed.

Lemma stride_product : to_size_t (to_size_t sn * to_size_t (n - 1)) = Wn * (n - 1).
Proof.
  pose proof n_small. pose proof W_pos. unfold sn. destruct (Z.eqb_spec n 1) as [ -> |H1].
  - replace (1 - 1) with 0 by lia. rewrite !Z.mul_0_r. reflexivity.
  - rewrite (to_size_t_small (n - 1)) by lia. rewrite to_size_t_mul. apply to_size_t_small. nia.
Qed.

Lemma slice_make_ok index offset : slice_make false e axis index offset = Ok (slice_state index offset).
Proof.
  unfold slice_make. rewrite (rd_ok _ _ _ stride_eq), (rd_ok _ _ _ En). cbn [bind].
  rewrite make_view_ok by reflexivity. cbn [bind]. destruct Pe as (_ & _ & HL & _). rewrite HL, stride_product.
  pose proof n_small as Hn. pose proof W_pos as HW.
  unfold slice_state, Wn, In_, tgt_ in *. rewrite HL.
  destruct Hl as [ -> | -> ]; cbn [faster] in *; rewrite !compute_size_prod; do 3 f_equal; apply to_size_t_small; nia.
Qed.

Lemma slice_next_ok index offset : 0 <= offset -> adv n Wn In_ tgt_ offset < 2 ^ 64 ->
  slice_next (slice_state index offset) = Ok (slice_state (index + 1) (adv n Wn In_ tgt_ offset)).
Proof.
  intros H0 H1. unfold slice_next. cbn [slice_state si_iter_size si_offset si_upper si_lower si_target si_axis_stride si_index si_view].
  pose proof I_pos as HI. rewrite (proj2 (Z.eqb_neq In_ 0)) by lia.
  pose proof W_pos. pose proof n_pos.
  assert (Hs : offset + 1 < 2 ^ 64) by (unfold adv in H1; destruct (tgt_ || _); nia).
  rewrite (to_size_t_small (offset + 1)) by lia.
  assert (Ea : (if tgt_ || (((offset + 1) mod In_ <=? Wn + Wn * (n - 1)) && (Wn <=? (offset + 1) mod In_))
    then to_size_t (offset + 1 + Wn * (n - 1)) else offset + 1) = adv n Wn In_ tgt_ offset).
  { unfold adv in *. destruct (tgt_ || _); [|reflexivity]. apply to_size_t_small. nia. }
  rewrite Ea. reflexivity.
Qed.

(** Any number of increments is possible: only the offset may be wrong. *)
Lemma slice_next_any index offset : exists o, slice_next (slice_state index offset) = Ok (slice_state (index + 1) o).
Proof.
  unfold slice_next. cbn [slice_state si_iter_size]. pose proof I_pos. rewrite (proj2 (Z.eqb_neq In_ 0)) by lia.
  eexists. reflexivity.
Qed.

Lemma slice_nexts_any : forall k index offset, exists o,
  slice_nexts k (slice_state index offset) = Ok (slice_state (index + Z.of_nat k) o).
Proof.
  induction k as [|k IH]; intros index offset.
  - exists offset. cbn [slice_nexts]. f_equal. f_equal. lia.
  - cbn [slice_nexts]. destruct (slice_next_any index offset) as (o & E). rewrite E. cbn [bind].
    destruct (IH (index + 1) o) as (o' & E'). exists o'. rewrite E'. do 2 f_equal. lia.
Qed.

Lemma slice_nexts_app : forall a b it, slice_nexts (a + b) it = (let* it := slice_nexts a it in slice_nexts b it).
Proof. induction a as [|a IH]; intros b it; [reflexivity|]. cbn [plus slice_nexts]. destruct (slice_next it); cbn [bind]; auto. Qed.

(** Increments while every step is right. *)
Lemma slice_run (N : Z) : 0 < N <= Pn * Wn ->
  (forall k, 0 <= k -> k + 1 < N -> adv n Wn In_ tgt_ (pos_ n Wn k) = pos_ n Wn (k + 1)) ->
  forall k, Z.of_nat k < N -> slice_nexts k (slice_state 0 0) = Ok (slice_state (Z.of_nat k) (pos_ n Wn (Z.of_nat k))).
Proof.
  intros HN Hstep. induction k as [|k IH]; intros Hk.
  - cbn [slice_nexts]. rewrite pos_lt; [reflexivity|apply W_pos|apply n_pos|]. pose proof W_pos. lia.
  - replace (S k) with (k + 1)%nat by lia. rewrite slice_nexts_app, IH by lia. cbn [bind slice_nexts].
    pose proof (pos_bound n Wn Pn (Z.of_nat k) W_pos n_pos ltac:(lia)) as B1.
    pose proof (pos_bound n Wn Pn (Z.of_nat k + 1) W_pos n_pos ltac:(lia)) as B2.
    pose proof size_eq as Hsz.
    rewrite slice_next_ok; [|lia|rewrite Hstep by lia; nia]. rewrite Hstep by lia. cbn [bind].
    replace (Z.of_nat (k + 1)) with (Z.of_nat k + 1) by lia. reflexivity.
Qed.

Definition others := without axis (x_shape e).
Lemma others_prod : prod others = Pn * Wn.
Proof.
  unfold others. destruct (split_axis _ _ _ En) as (p & q & E & Lp). unfold Pn, Wn, slower, faster. rewrite E, <- Lp, without_mid, firstn_mid, skipn_mid.
  rewrite prod_app. destruct Hl as [ -> | -> ]; [ring|]. rewrite prod_rev. ring.
Qed.

Lemma insert_in rest j : in_bounds others rest -> 0 <= j < n -> in_bounds (x_shape e) (insert_at axis j rest).
Proof.
  intros Hr Hj. destruct (split_axis _ _ _ En) as (p & q & E & Lp). unfold others in Hr. rewrite E in Hr |- *.
  rewrite <- Lp, without_mid in Hr. apply in_bounds_split in Hr. destruct Hr as (rp & rq & -> & Hp & Hq).
  pose proof (in_bounds_length _ _ Hp) as L1. rewrite <- Lp, <- L1, insert_mid.
  apply in_bounds_app; [exact Hp|]. constructor; [lia|exact Hq].
Qed.

(** The position of an element of a slice. *)
Lemma slot_eq rest j : in_bounds others rest -> 0 <= j < n ->
  x_elem e (insert_at axis j rest) = Slot (pos_ n Wn (rank l others rest) + j * Wn) /\
  0 <= rank l others rest < Pn * Wn.
Proof.
  intros Hr Hj. pose proof (insert_in rest j Hr Hj) as Hin.
  assert (Ex : x_elem e (insert_at axis j rest) = Slot (rank l (x_shape e) (insert_at axis j rest))).
  { destruct Pe as (D & O & L & H & Hs). unfold x_elem. rewrite D, O, Z.add_0_l. f_equal.
    rewrite element_offset_same by (rewrite H; apply in_bounds_length; exact Hin).
    assert (Est : x_strides e = match l with row_major => row_strides (x_shape e) | _ => col_strides (x_shape e) end).
    { apply (nth_ext _ _ 0 0).
      - rewrite H. destruct l; auto using row_strides_length, col_strides_length; symmetry; auto using row_strides_length, col_strides_length.
      - intros k Hk. rewrite H in Hk. rewrite Hs by exact Hk. destruct Hl as [ -> | -> ]; symmetry; [apply row_strides_nth|apply col_strides_nth]; exact Hk. }
    rewrite Est. destruct Hl as [ -> | -> ]; cbn [rank]; [apply dot_row|apply dot_col]; exact Hin. }
  rewrite Ex. clear Ex.
  assert (Hb : 0 <= rank l others rest < Pn * Wn).
  { rewrite <- others_prod. destruct Hl as [ -> | -> ]; cbn [rank]; [apply row_pos_bound|apply col_pos_bound]; exact Hr. }
  split; [|exact Hb]. f_equal. clear Hin Hb.
  destruct (split_axis _ _ _ En) as (p & q & E & Lp). unfold others in *. unfold Wn, faster. rewrite E in Hr |- *.
  rewrite <- Lp, without_mid in Hr. apply in_bounds_split in Hr. destruct Hr as (rp & rq & -> & Hp & Hq).
  rewrite <- Lp, without_mid, firstn_mid, skipn_mid. pose proof (in_bounds_length _ _ Hp) as L1.
  replace (insert_at (length p) j (rp ++ rq)) with (rp ++ j :: rq) by (rewrite <- L1, insert_mid; reflexivity).
  rewrite rank_split by exact L1. unfold pos_. destruct Hl as [ -> | -> ]; cbn [rank side_out side_in].
  - rewrite row_pos_app by exact L1. pose proof (row_pos_bound _ _ Hq) as B.
    rewrite !(Z.add_comm (row_pos p rp * prod q) (row_pos q rq)), Z.div_add by lia. rewrite Z.mod_add by lia. rewrite Z.div_small, Z.mod_small by exact B. ring.
  - rewrite col_pos_app by exact L1. pose proof (col_pos_bound _ _ Hp) as B.
    rewrite (Z.mul_comm (prod p)), Z.div_add by lia. rewrite Z.mod_add by lia. rewrite Z.div_small, Z.mod_small by exact B. ring.
Qed.

Lemma state_reads index offset j : 0 <= j < n ->
  forall c, reads (slice_deref (slice_state index offset)) [j] c <-> c = Slot (offset + j * Wn).
Proof.
  intros Hj c. cbn [slice_deref si_view slice_state].
  assert (D : dot [j] (adapted [n] [sn]) = j * Wn).
  { rewrite dot_adapted; [|constructor; [lia|constructor]|reflexivity]. cbn [dot]. unfold sn.
    destruct (Z.eqb_spec n 1); [subst; assert (j = 0) by lia; subst; lia|lia]. }
  destruct Pe as (De & _).
  assert (R : reads (mk_sview e row_major [n] (adapted [n] [sn]) (spec_backstrides (adapted [n] [sn]) [n]) offset (x_layout e)) [j]
                (Slot (offset + j * Wn))).
  { unfold reads, w_call, w_element, w_unchecked. cbn [w_strides w_offset w_base w_flat]. unfold storage_at. rewrite De.
    rewrite data_offset_ok. cbn [bind]. rewrite pad_args_full by reflexivity. rewrite D.
    rewrite element_offset_same by reflexivity. rewrite D. unfold unchecked_data_offset. rewrite layout_offset_dyn by (auto; cbn; lia).
    cbn [bind length Nat.sub]. rewrite skipn_O, D. auto. }
  split; [|intros -> ; exact R]. intros (A & _). destruct R as (B & _). congruence.
Qed.

Lemma slices_lemma rest : slices_ok l (x_shape e) axis -> in_bounds others rest ->
  exists b it, slice_begin false e axis = Ok b /\ slice_nexts (Z.to_nat (rank l others rest)) b = Ok it /\
    w_shape (slice_deref it) = [n] /\
    forall j, 0 <= j < n -> reads (slice_deref it) [j] (x_elem e (insert_at axis j rest)).
Proof.
  intros Hok Hr. pose proof n_pos as Hn.
  destruct (slot_eq rest 0 Hr ltac:(lia)) as (_ & Hb).
  unfold slice_begin. rewrite slice_make_ok. destruct Pe as (_ & O & _). rewrite O. eexists. 
  exists (slice_state (rank l others rest) (pos_ n Wn (rank l others rest))). split; [reflexivity|].
  split.
  { pose proof (slice_run (Pn * Wn)) as R. specialize (R ltac:(split; [pose proof P_pos; pose proof W_pos; nia|lia])).
    rewrite R; [rewrite Z2Nat.id by lia; reflexivity| |rewrite Z2Nat.id by lia; lia].
    intros k Hk0 Hk1. apply (step_ok n Wn In_ Pn Mn tgt_ k); auto using W_pos, P_pos, M_pos, I_pos.
    - intros T. apply tgt_W in T. unfold Wn. rewrite T. reflexivity.
    - destruct I_cases as [H|[H _]]; [left; exact H|right; exact H].
    - unfold slices_ok in Hok. rewrite (nth_error_nth _ _ 0 En) in Hok. unfold Mn, Pn. rewrite tgt_W. exact Hok.
    - destruct I_cases as [[H _]|[H _]]; [left; exact H|]. pose proof M_pos. lia. }
  split; [reflexivity|]. intros j Hj. apply state_reads; [exact Hj|]. apply (slot_eq rest j Hr Hj).
Qed.

(** When the condition fails, some slice is not the right one. *)
Lemma slices_wrong : ~ slices_ok l (x_shape e) axis ->
  exists b it rest, in_bounds others rest /\ slice_begin false e axis = Ok b /\
    slice_nexts (Z.to_nat (rank l others rest)) b = Ok it /\
    ~ reads (slice_deref it) [0] (x_elem e (insert_at axis 0 rest)).
Proof.
  intros Hno. pose proof n_pos as Hn. pose proof W_pos as HW. pose proof P_pos as HP. pose proof M_pos as HM.
  assert (N2 : n <> 1 /\ tgt_ = false /\ Mn <> 1 /\ 2 < Pn).
  { unfold slices_ok in Hno. rewrite (nth_error_nth _ _ 0 En) in Hno. repeat split.
    - intros H. apply Hno. auto.
    - destruct tgt_ eqn:T; [|reflexivity]. exfalso. apply Hno. right. left. apply tgt_W. exact T.
    - intros H. apply Hno. right. right. left. exact H.
    - apply Z.nle_gt. intros H. apply Hno. right. right. right. exact H. }
  destruct N2 as (N1 & T & M1 & P2).
  destruct I_cases as [[_ H]|[HI _]]; [lia|].
  assert (Hrest : exists rest, in_bounds others rest /\ rank l others rest = 2 * Wn).
  { assert (Hs : is_shape others).
    { destruct packed_wf as [H _]. unfold others, without, is_shape in *. apply Forall_app. split; [apply Forall_firstn', H|apply Forall_skipn', H]. }
    assert (Hlt : 0 <= 2 * Wn < prod others) by (rewrite others_prod; nia).
    destruct l.
    all: try (exists (row_unpos others (2 * Wn)); apply row_unpos_spec; [exact Hs|exact Hlt]).
    all: exists (col_unpos others (2 * Wn)); apply col_unpos_spec; [exact Hs|exact Hlt]. }
  destruct Hrest as (rest & Hr & Hk).
  unfold slice_begin. rewrite slice_make_ok. destruct Pe as (_ & O & _). rewrite O.
  exists (slice_state 0 0), (slice_state (2 * Wn) (n * Wn + Wn)), rest. split; [exact Hr|]. split; [reflexivity|]. rewrite Hk. split.
  - assert (R : forall k, Z.of_nat k < 2 * Wn -> slice_nexts k (slice_state 0 0) = Ok (slice_state (Z.of_nat k) (pos_ n Wn (Z.of_nat k)))).
    { apply slice_run; [nia|]. intros k Hk0 Hk1. apply (step_ok n Wn In_ 2 Mn tgt_ k); auto using I_pos; try lia.
      rewrite T. discriminate. }
    replace (Z.to_nat (2 * Wn)) with (Z.to_nat (2 * Wn - 1) + 1)%nat by lia. rewrite slice_nexts_app, R by lia.
    cbn [bind slice_nexts]. rewrite Z2Nat.id by lia.
    pose proof (pos_bound n Wn Pn (2 * Wn - 1) HW Hn ltac:(nia)) as B. pose proof size_eq as Hsz.
    assert (Ea : adv n Wn In_ tgt_ (pos_ n Wn (2 * Wn - 1)) = n * Wn + Wn).
    { rewrite T. apply (step_wrong n Wn In_ Mn); auto; lia. }
    rewrite slice_next_ok; rewrite ?Ea; [|lia|nia]. cbn [bind]. do 2 f_equal. lia.
  - rewrite state_reads by lia. destruct (slot_eq rest 0 Hr ltac:(lia)) as (E & _). rewrite E, Hk.
    intros H. injection H as H. unfold pos_ in H. rewrite Z.mul_comm, Z.div_mul, Z.mod_mul in H by lia. nia.
Qed.

Lemma slice_end_lemma : exists b en,
  slice_begin false e axis = Ok b /\ slice_end false e axis = Ok en /\
  forall k, exists it, slice_nexts k b = Ok it /\ (slice_equal it en = true <-> Z.of_nat k = prod others).
Proof.
  unfold slice_begin, slice_end. rewrite (drop_axis_ok _ _ _ En). cbn [bind]. rewrite !slice_make_ok.
  do 2 eexists. split; [reflexivity|]. split; [reflexivity|]. intros k.
  destruct (slice_nexts_any k 0 (x_offset e)) as (o & E). eexists. split; [exact E|].
  unfold slice_equal. cbn [si_index slice_state]. rewrite compute_size_prod, Z.eqb_eq. fold others. lia.
Qed.
End Slice.

Lemma fixed_lemma : forall (l : layout) (e : xexp) (axis : nat) (n s : Z),
  packed l e -> nth_error (x_shape e) axis = Some n -> nth_error (x_strides e) axis = Some s ->
  (2 <= length (x_shape e))%nat ->
  exists b, slice_begin true e axis = Ok b /\ forall ix, ~ in_bounds (w_shape (slice_deref b)) ix.
Proof.
  intros l e axis n s _ En Es Hlen. unfold slice_begin, slice_make. rewrite (rd_ok _ _ _ Es), (rd_ok _ _ _ En). cbn [bind].
  rewrite make_view_ok by reflexivity. cbn [bind].
  destruct (length (x_shape e)) as [|[|m]]; [lia|lia|]. 
  destruct (x_layout e); (eexists; split; [reflexivity|]; cbn [slice_deref si_view w_shape Nat.sub repeat]; intros ix H;
    inversion H as [|d i sh r Hi Hr]; subst; inversion Hr as [|d2 j sh2 r2 Hj Hr2]; subst; lia).
Qed.
