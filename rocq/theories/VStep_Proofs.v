(** Proofs about xview_stepper: steps of arbitrary size, and the positions slices select. *)
From Coq Require Import List ZArith Bool Lia.
From Verif Require Import Prelude PreludeFacts Strides_Model Strides_Spec Strides_Proofs Slice_Model Slice_Spec
  SView_Model XView_Model XView_Proofs Stepper_Model Stepper_Spec Stepper_Proofs Stepper2_Proofs Stepper3_Proofs
  StepGen_Proofs VStep_Model.
Import ListNotations.
Open Scope Z_scope.

(** * The stepper of an expression follows steps of any size and sign *)
Section Free.
Context {V : Type} (sh : list Z).

Lemma free_leaf_ptr c (buf : list V) (sgn : Z) pre x post n p :
  fits (k_shape c) sh -> strided_ok c -> length (pre ++ x :: post) = length sh ->
  p = k_begin c + dot (skipn (k_offset c sh) (pre ++ x :: post)) (k_strides c) ->
  exists s, (if (k_offset c sh <=? length pre)%nat
             then (length pre - k_offset c sh < length (k_strides c))%nat /\ s = nth (length pre - k_offset c sh) (k_strides c) 0
             else s = 0) /\
    p + sgn * n * s = k_begin c + dot (skipn (k_offset c sh) (pre ++ (x + sgn * n) :: post)) (k_strides c).
Proof.
  intros [HL _] (L1 & _) Hlen ->. unfold k_offset in *.
  destruct (Nat.leb_spec (length sh - length (k_shape c)) (length pre)) as [Ho|Ho].
  - assert (HH : (length pre - (length sh - length (k_shape c)) < length (k_strides c))%nat)
      by (rewrite app_length in Hlen; cbn in Hlen; lia).
    eexists. split; [split; [exact HH|reflexivity]|]. rewrite (dot_skip_upd pre x (x + sgn * n)) by (exact Ho || exact HH). ring.
  - exists 0. split; [reflexivity|]. rewrite (dot_skip_same pre x (x + sgn * n)) by exact Ho. ring.
Qed.

Lemma free_step : forall (e : sexp V), operands_ok sh e -> forall pre x post n st,
  length (pre ++ x :: post) = length sh -> x_at sh e (pre ++ x :: post) st ->
  exists st', s_step (x_ops sh e) (length pre) n st = Ok st' /\ x_at sh e (pre ++ (x + n) :: post) st'.
Proof.
  induction e as [v|c b|s f|f args IH] using sexp_ind'; intros Hok pre x post n st Hlen Hat.
  - destruct st; try contradiction. exists TUnit. auto.
  - destruct Hok as [Hf Hs]. destruct st as [|p| |]; try contradiction. destruct Hat as [_ Hp].
    destruct (free_leaf_ptr c b 1 pre x post n p Hf Hs Hlen Hp) as (s & Hs' & E).
    cbn [x_ops ptr_ops s_step ptr_op xs_ops]. unfold xs_step. destruct (k_offset c sh <=? length pre)%nat.
    + destruct Hs' as [Hlt ->]. rewrite (rd_nth 0) by exact Hlt. cbn [bind]. eexists. split; [reflexivity|].
      split; [rewrite app_length in *; exact Hlen|]. replace (x + n) with (x + 1 * n) by ring. rewrite <- E. ring.
    + cbn [bind]. eexists. split; [reflexivity|].
      split; [rewrite app_length in *; exact Hlen|]. replace (x + n) with (x + 1 * n) by ring. rewrite <- E, Hs'. ring.
  - destruct Hok as [Hf Hs]. pose proof Hf as [HL _]. destruct st as [| |m|]; try contradiction.
    destruct Hat as (Hm & _ & Hat). cbn [x_ops idx_ops s_step idx_op ix_ops]. unfold ix_step.
    assert (Hlen' : forall y, length (pre ++ y :: post) = length sh) by (intros; rewrite app_length in *; exact Hlen).
    destruct (Nat.leb_spec (length sh - length s) (length pre)) as [Ho|Ho].
    + assert (Hk : (length pre - (length sh - length s) < length m)%nat) by (rewrite app_length in Hlen; cbn in Hlen; lia).
      rewrite (rd_nth 0) by exact Hk. cbn [bind]. rewrite wr_ok by exact Hk. cbn [bind].
      eexists. split; [reflexivity|]. split; [rewrite upd_length; exact Hm|]. split; [apply Hlen'|].
      intros j Hj. specialize (Hat j Hj).
      destruct (Nat.eq_dec j (length pre - (length sh - length s))) as [Ej|Ej].
      * destruct Hat as [Hat|Hat]; [left; exact Hat|right]. subst j. rewrite nth_upd_same by exact Hk. rewrite Hat.
        replace (length pre - (length sh - length s) + (length sh - length s))%nat with (length pre) by lia.
        rewrite !nth_mid. reflexivity.
      * destruct Hat as [Hat|Hat]; [left; exact Hat|right]. rewrite nth_upd_other by lia. rewrite Hat.
        rewrite <- (upd_mid pre post x (x + n)). rewrite nth_upd_other by lia. reflexivity.
    + cbn [bind]. eexists. split; [reflexivity|]. split; [exact Hm|]. split; [apply Hlen'|].
      intros j Hj. destruct (Hat j Hj) as [H|H]; [left; exact H|right]. rewrite H.
      rewrite <- (upd_mid pre post x (x + n)). rewrite nth_upd_other by lia. reflexivity.
  - unfold operands_ok in Hok. apply all_leaves_fun in Hok. apply at_fun in Hat. destruct Hat as (ss & -> & Hat).
    destruct (node_ok (fun o => s_step o (length pre) n) (fun a s => x_at sh a (pre ++ x :: post) s)
                  (fun a s => x_at sh a (pre ++ (x + n) :: post) s) sh args) with (ss := ss) as (ss' & E & HQ); auto.
    { eapply Forall_imp2; [exact IH|exact Hok|]. cbn. intros a H1 H2 s Ha. apply H1; assumption. }
    exists (TNode ss'). split; [exact E|]. apply at_fun. eauto.
Qed.

Lemma free_back : forall (e : sexp V), operands_ok sh e -> forall pre x post n st,
  length (pre ++ x :: post) = length sh -> x_at sh e (pre ++ x :: post) st ->
  exists st', s_step_back (x_ops sh e) (length pre) n st = Ok st' /\ x_at sh e (pre ++ (x - n) :: post) st'.
Proof.
  induction e as [v|c b|s f|f args IH] using sexp_ind'; intros Hok pre x post n st Hlen Hat.
  - destruct st; try contradiction. exists TUnit. auto.
  - destruct Hok as [Hf Hs]. destruct st as [|p| |]; try contradiction. destruct Hat as [_ Hp].
    destruct (free_leaf_ptr c b (-1) pre x post n p Hf Hs Hlen Hp) as (s & Hs' & E).
    cbn [x_ops ptr_ops s_step_back ptr_op xs_ops]. unfold xs_step_back. destruct (k_offset c sh <=? length pre)%nat.
    + destruct Hs' as [Hlt ->]. rewrite (rd_nth 0) by exact Hlt. cbn [bind]. eexists. split; [reflexivity|].
      split; [rewrite app_length in *; exact Hlen|]. replace (x - n) with (x + -1 * n) by ring. rewrite <- E. ring.
    + cbn [bind]. eexists. split; [reflexivity|].
      split; [rewrite app_length in *; exact Hlen|]. replace (x - n) with (x + -1 * n) by ring. rewrite <- E, Hs'. ring.
  - destruct Hok as [Hf Hs]. pose proof Hf as [HL _]. destruct st as [| |m|]; try contradiction.
    destruct Hat as (Hm & _ & Hat). cbn [x_ops idx_ops s_step_back idx_op ix_ops]. unfold ix_step_back.
    assert (Hlen' : forall y, length (pre ++ y :: post) = length sh) by (intros; rewrite app_length in *; exact Hlen).
    destruct (Nat.leb_spec (length sh - length s) (length pre)) as [Ho|Ho].
    + assert (Hk : (length pre - (length sh - length s) < length m)%nat) by (rewrite app_length in Hlen; cbn in Hlen; lia).
      rewrite (rd_nth 0) by exact Hk. cbn [bind]. rewrite wr_ok by exact Hk. cbn [bind].
      eexists. split; [reflexivity|]. split; [rewrite upd_length; exact Hm|]. split; [apply Hlen'|].
      intros j Hj. specialize (Hat j Hj).
      destruct (Nat.eq_dec j (length pre - (length sh - length s))) as [Ej|Ej].
      * destruct Hat as [Hat|Hat]; [left; exact Hat|right]. subst j. rewrite nth_upd_same by exact Hk. rewrite Hat.
        replace (length pre - (length sh - length s) + (length sh - length s))%nat with (length pre) by lia.
        rewrite !nth_mid. reflexivity.
      * destruct Hat as [Hat|Hat]; [left; exact Hat|right]. rewrite nth_upd_other by lia. rewrite Hat.
        rewrite <- (upd_mid pre post x (x - n)). rewrite nth_upd_other by lia. reflexivity.
    + cbn [bind]. eexists. split; [reflexivity|]. split; [exact Hm|]. split; [apply Hlen'|].
      intros j Hj. destruct (Hat j Hj) as [H|H]; [left; exact H|right]. rewrite H.
      rewrite <- (upd_mid pre post x (x - n)). rewrite nth_upd_other by lia. reflexivity.
  - unfold operands_ok in Hok. apply all_leaves_fun in Hok. apply at_fun in Hat. destruct Hat as (ss & -> & Hat).
    destruct (node_ok (fun o => s_step_back o (length pre) n) (fun a s => x_at sh a (pre ++ x :: post) s)
                  (fun a s => x_at sh a (pre ++ (x - n) :: post) s) sh args) with (ss := ss) as (ss' & E & HQ); auto.
    { eapply Forall_imp2; [exact IH|exact Hok|]. cbn. intros a H1 H2 s Ha. apply H1; assumption. }
    exists (TNode ss'). split; [exact E|]. apply at_fun. eauto.
Qed.

(** From any state, also past the end. *)
Lemma shaped_back : forall (e : sexp V), operands_ok sh e -> forall k n st, (k < length sh)%nat ->
  x_shaped e st -> exists st', s_step_back (x_ops sh e) k n st = Ok st' /\ x_shaped e st'.
Proof.
  induction e as [v|c b|s f|f args IH] using sexp_ind'; intros Hok k n st Hk Hat.
  - destruct st; try contradiction. exists TUnit. auto.
  - destruct Hok as [[HL _] (L1 & _)]. destruct st as [|p| |]; try contradiction.
    cbn [x_ops ptr_ops s_step_back ptr_op xs_ops]. unfold xs_step_back, k_offset.
    destruct (Nat.leb_spec (length sh - length (k_shape c)) k) as [Ho|Ho].
    + rewrite (rd_nth 0) by lia. cbn [bind]. eexists. split; [reflexivity|exact I].
    + cbn [bind]. eexists. split; [reflexivity|exact I].
  - destruct Hok as [[HL _] Hs]. destruct st as [| |m|]; try contradiction. cbn in Hat.
    cbn [x_ops idx_ops s_step_back idx_op ix_ops]. unfold ix_step_back.
    destruct (Nat.leb_spec (length sh - length s) k) as [Ho|Ho].
    + rewrite (rd_nth 0) by lia. cbn [bind]. rewrite wr_ok by lia. cbn [bind].
      eexists. split; [reflexivity|]. cbn. rewrite upd_length. exact Hat.
    + cbn [bind]. eexists. split; [reflexivity|]. exact Hat.
  - unfold operands_ok in Hok. apply all_leaves_fun in Hok. apply shaped_fun in Hat. destruct Hat as (ss & -> & Hat).
    destruct (node_ok (fun o => s_step_back o k n) (fun a s => x_shaped a s) (fun a s => x_shaped a s) sh args)
      with (ss := ss) as (ss' & E & HQ); auto.
    { eapply Forall_imp2; [exact IH|exact Hok|]. cbn. intros a H1 H2 s Ha. apply H1; assumption. }
    exists (TNode ss'). split; [exact E|]. apply shaped_fun. eauto.
Qed.
End Free.

(** * Positions, also one past the end of a slice *)
Definition spos (s : slice) (x : Z) : Z :=
  match s with
  | SRange a _ => a + x
  | SStep a _ st => a + x * st
  | SAll _ => x
  | SNewaxis => 0
  | SInt v => v
  | SKeep ind =>
      if (length ind =? 1)%nat then nth 0 ind 0
      else if x <? Z.of_nat (length ind) then nth (Z.to_nat x) ind 0
           else nth (length ind - 1) ind 0 + 1 + (x - Z.of_nat (length ind))
  | SDrop _ m sz => if x <? Z.max sz 1 then drop_at m x else drop_at m (sz - 1) + 1 + (x - sz)
  end.

Fixpoint esrc (ss : list slice) (ix : list Z) : list Z :=
  match ss with
  | [] => ix
  | SInt v :: t => v :: esrc t ix
  | SNewaxis :: t => esrc t (tl ix)
  | s :: t => spos s (hd 0 ix) :: esrc t (tl ix)
  end.

Lemma esrc_axis s t ix : axis_slice s -> esrc (s :: t) ix = spos s (hd 0 ix) :: esrc t (tl ix).
Proof. intros [H1 H2]. destruct s; cbn in *; congruence || reflexivity. Qed.

Lemma spos_at s x y : axis_slice s -> 0 <= x < slice_size s -> slice_at s x = Ok y -> spos s x = y.
Proof.
  intros [H1 H2] Hx H. destruct s; cbn in *; try congruence.
  - destruct (length indices =? 1)%nat eqn:E.
    + apply rd_ok_inv in H. apply nth_error_nth. exact H.
    + destruct (Z.ltb_spec x (Z.of_nat (length indices))); [|lia].
      unfold rdz in H. destruct (x <? 0); [discriminate|]. apply rd_ok_inv in H. apply nth_error_nth. exact H.
  - rewrite Z.max_l by lia. destruct (Z.ltb_spec x size); [|lia]. congruence.
Qed.

Lemma at_spos s x : axis_slice s -> 0 <= x < slice_size s -> slice_at s x = Ok (spos s x).
Proof.
  intros [H1 H2] Hx. destruct s; cbn in *; try congruence.
  - destruct (length indices =? 1)%nat eqn:E.
    + apply Nat.eqb_eq in E. apply rd_nth. lia.
    + destruct (Z.ltb_spec x (Z.of_nat (length indices))); [|lia].
      unfold rdz. destruct (Z.ltb_spec x 0); [lia|]. apply rd_nth. lia.
  - rewrite Z.max_l by lia. destruct (Z.ltb_spec x size); [|lia]. congruence.
Qed.

Lemma rdz_nth' (l : list Z) x : 0 <= x < Z.of_nat (length l) -> rdz l x = Ok (nth (Z.to_nat x) l 0).
Proof. intros H. unfold rdz. destruct (Z.ltb_spec x 0); [lia|]. apply rd_nth. lia. Qed.

Lemma step_spos s x n : axis_slice s -> 0 <= x < slice_size s -> 0 <= n -> x + n <= slice_size s ->
  slice_step s x n = Ok (spos s (x + n) - spos s x).
Proof.
  intros [H1 H2] Hx Hn Hle. destruct s; cbn [slice_step spos slice_size is_integral is_newaxis] in *; try congruence.
  - f_equal. lia.
  - f_equal. lia.
  - f_equal. lia.
  - destruct (Nat.eqb_spec (length indices) 1) as [E|E].
    + rewrite E, (Z.sub_diag (nth 0 indices 0)). reflexivity.
    + destruct (Z.eqb_spec (Z.of_nat (length indices)) 1) as [E1|E1]; [lia|].
      destruct (Z.ltb_spec x (Z.of_nat (length indices))); [|lia].
      destruct (Z.leb_spec (Z.of_nat (length indices)) (x + n)) as [Hl|Hl].
      * destruct (Z.ltb_spec (x + n) (Z.of_nat (length indices))); [lia|].
        rewrite !rdz_nth' by lia. cbn [bind]. f_equal.
        replace (Z.to_nat (Z.of_nat (length indices) - 1)) with (length indices - 1)%nat by lia. lia.
      * destruct (Z.ltb_spec (x + n) (Z.of_nat (length indices))); [|lia].
        rewrite !rdz_nth' by lia. reflexivity.
  - rewrite Z.max_l by lia. destruct (Z.ltb_spec x size); [|lia].
    destruct (Z.leb_spec size (x + n)) as [Hl|Hl].
    + destruct (Z.ltb_spec (x + n) size); [lia|]. f_equal. lia.
    + destruct (Z.ltb_spec (x + n) size); [|lia]. reflexivity.
Qed.

Lemma src_esrc ss : forall esh ix jx, in_bounds (shp ss esh) ix -> src ss ix = Ok jx -> esrc ss ix = jx.
Proof.
  induction ss as [|s t IH]; intros esh ix jx Hb H.
  - cbn in *. congruence.
  - destruct (slice_cases s) as [A|[ -> |(v & ->)]].
    + rewrite shp_axis in Hb by auto. inversion Hb as [|d i ds is B1 B2]; subst.
      rewrite src_axis in H by auto. rewrite esrc_axis by auto. cbn [hd tl].
      apply bind_ok in H as (x & Hx & H). apply bind_ok in H as (j & Hj & H). injection H as <-.
      f_equal; [eapply spos_at; eauto|eauto].
    + cbn [shp] in Hb. inversion Hb as [|d i ds is B1 B2]; subst. cbn [src esrc tl] in *. eauto.
    + cbn [shp src esrc] in *. apply bind_ok in H as (j & Hj & H). injection H as <-. f_equal. eauto.
Qed.

Lemma esrc_len ss : forall ix, (length ss <= length ix + integral_count ss)%nat ->
  (length (esrc ss ix) + newaxis_count ss = length ix + integral_count ss)%nat.
Proof.
  induction ss as [|s t IH]; intros ix H.
  - cbn. lia.
  - rewrite ic_cons, nc_cons in *. pose proof (ic_nc_len t). cbn [length] in H. destruct (slice_cases s) as [A|[ -> |(v & ->)]].
    + rewrite esrc_axis by auto. destruct A as [A1 A2]. rewrite A1, A2 in *. destruct ix as [|i ix]; cbn [length tl] in *; [lia|].
      specialize (IH ix). lia.
    + cbn [esrc is_integral is_newaxis] in *. destruct ix as [|i ix]; cbn [length tl] in *; [lia|]. specialize (IH ix). lia.
    + cbn [esrc is_integral is_newaxis length] in *. specialize (IH ix). lia.
Qed.

Lemma nas_ok ss : forall i, is_newaxis_slice ss i = match nth_error ss i with Some s => is_newaxis s | None => false end.
Proof.
  unfold is_newaxis_slice. induction ss as [|s t IH]; intros i.
  - destruct i; reflexivity.
  - destruct i as [|i].
    + cbn. destruct t; destruct (is_newaxis s); reflexivity.
    + cbn [Nat.add newaxis_count_before nth_error]. rewrite <- IH.
      destruct (Nat.eqb_spec (newaxis_count_before t (i + 1)) (newaxis_count_before t i)) as [E|E];
      destruct (Nat.eqb_spec (newaxis_count_before t (i + 1) + (if is_newaxis s then 1 else 0)) (newaxis_count_before t i + (if is_newaxis s then 1 else 0))); try reflexivity; lia.
Qed.

(** The axis of the expression that axis k of the view runs along. *)
Definition axis_of (ss : list slice) (k : nat) : nat :=
  (integral_skip ss k - newaxis_count_before ss (integral_skip ss k))%nat.

(** Changing one index of the view changes one index of the source. *)
Lemma esrc_upd ss : forall ix k v, (k < length ix)%nat ->
  match nth_error ss (integral_skip ss k) with
  | Some s => if is_newaxis s then esrc ss (upd ix k v) = esrc ss ix
              else esrc ss (upd ix k v) = upd (esrc ss ix) (axis_of ss k) (spos s v) /\
                   nth_error (esrc ss ix) (axis_of ss k) = Some (spos s (nth k ix 0))
  | None => esrc ss (upd ix k v) = upd (esrc ss ix) (axis_of ss k) v /\
            nth_error (esrc ss ix) (axis_of ss k) = Some (nth k ix 0)
  end.
Proof.
  unfold axis_of. induction ss as [|s t IH]; intros ix k v Hk.
  - assert (En : nth_error (@nil slice) (integral_skip [] k) = None) by (destruct (integral_skip [] k); reflexivity).
    rewrite En. cbn [esrc integral_skip].
    assert (E0 : newaxis_count_before [] k = 0%nat) by (destruct k; reflexivity).
    rewrite E0, Nat.sub_0_r. split; [reflexivity|]. apply nth_error_nth'. exact Hk.
  - destruct (slice_cases s) as [A|[ -> |(w & ->)]].
    + cbn [integral_skip]. rewrite (proj1 A). destruct ix as [|i ix]; [cbn in Hk; lia|]. destruct k as [|k].
      * cbn [nth_error newaxis_count_before]. rewrite (proj2 A). cbn [upd nth Nat.sub]. rewrite !esrc_axis by auto. cbn [hd tl upd nth_error]. auto.
      * cbn [nth_error newaxis_count_before]. rewrite (proj2 A). cbn [upd nth]. rewrite !esrc_axis by auto. cbn [hd tl].
        specialize (IH ix k v ltac:(cbn in Hk; lia)).
        pose proof (ncb_le t (integral_skip t k)).
        replace (S (integral_skip t k) - (newaxis_count_before t (integral_skip t k) + 0))%nat
          with (S (integral_skip t k - newaxis_count_before t (integral_skip t k)))%nat by lia.
        cbn [upd nth_error]. destruct (nth_error t (integral_skip t k)) as [s'|].
        -- destruct (is_newaxis s'); [f_equal; exact IH|]. destruct IH as [IH1 IH2]. split; [f_equal; exact IH1|exact IH2].
        -- destruct IH as [IH1 IH2]. split; [f_equal; exact IH1|exact IH2].
    + cbn [integral_skip is_integral]. destruct ix as [|i ix]; [cbn in Hk; lia|]. destruct k as [|k].
      * cbn [nth_error is_newaxis]. reflexivity.
      * cbn [nth_error newaxis_count_before is_newaxis upd nth esrc tl].
        specialize (IH ix k v ltac:(cbn in Hk; lia)).
        replace (S (integral_skip t k) - (newaxis_count_before t (integral_skip t k) + 1))%nat
          with (integral_skip t k - newaxis_count_before t (integral_skip t k))%nat by lia. exact IH.
    + cbn [integral_skip is_integral nth_error newaxis_count_before is_newaxis esrc].
      specialize (IH ix k v Hk). pose proof (ncb_le t (integral_skip t k)).
      replace (S (integral_skip t k) - (newaxis_count_before t (integral_skip t k) + 0))%nat
          with (S (integral_skip t k - newaxis_count_before t (integral_skip t k)))%nat by lia.
      cbn [upd nth_error]. destruct (nth_error t (integral_skip t k)) as [s'|].
      * destruct (is_newaxis s'); [f_equal; exact IH|]. destruct IH as [IH1 IH2]. split; [f_equal; exact IH1|exact IH2].
      * destruct IH as [IH1 IH2]. split; [f_equal; exact IH1|exact IH2].
Qed.
