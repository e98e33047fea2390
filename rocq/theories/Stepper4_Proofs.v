(** Proofs about steppers and iterators, continued: iterators over expressions. *)
From Coq Require Import List ZArith Lia Bool.
From Verif Require Import Prelude PreludeFacts Strides_Model Strides_Spec Strides_Proofs
  Access_Spec Access_Proofs
  Broadcast_Model Broadcast_Spec Broadcast_Proofs Broadcast2_Proofs
  Stepper_Model Stepper_Spec Stepper_Proofs Stepper2_Proofs Stepper3_Proofs.
Import ListNotations.
Open Scope Z_scope.

Lemma posn_order l sh ix : posn l sh ix = order_pos l sh ix.
Proof. reflexivity. Qed.

(** ** begin and end states *)
Lemma x_begin_shaped {V} (e : sexp V) : x_shaped e (x_begin e).
Proof.
  induction e as [v|c b|s f|f args IH] using sexp_ind'; cbn; auto.
  - unfold ix_begin. apply map_length.
  - induction IH; cbn; auto.
Qed.

Lemma x_begin_at {V} sh (e : sexp V) : operands_ok sh e -> x_at sh e (repeat 0 (length sh)) (x_begin e).
Proof.
  induction e as [v|c b|s f|f args IH] using sexp_ind'; intros Hok.
  - exact I.
  - split; [apply repeat_length|]. rewrite dot_zeros. unfold xs_begin. ring.
  - split; [apply map_length|]. split; [apply repeat_length|]. intros j Hj. right.
    unfold ix_begin. rewrite nth_repeat0, nth_map0. reflexivity.
  - apply at_fun. exists (map x_begin args). split; [reflexivity|].
    unfold operands_ok in Hok. apply all_leaves_fun in Hok.
    induction IH; inversion Hok; subst; cbn; constructor; auto.
Qed.

Lemma x_end_ok {V} l sh (e : sexp V) : l = row_major \/ l = column_major -> operands_ok sh e ->
  exists st, x_end sh l e = Ok st /\ x_endst sh l e st.
Proof.
  intros Hl. induction e as [v|c b|s f|f args IH] using sexp_ind'; intros Hok.
  - exists TUnit. repeat split.
  - destruct Hok as [H1 H2]. cbn [x_end]. unfold xs_end.
    destruct (list_eq_dec Z.eq_dec (k_shape c) []) as [E0|E0].
    + unfold strided_data_end. rewrite E0. eexists. split; [reflexivity|]. split; [exact I|].
      intros _ [Hr _]. congruence.
    + rewrite strided_end_ok by auto. eexists. split; [reflexivity|]. split; [exact I|].
      intros _ _. split; [|reflexivity].
      destruct Hl as [ -> | -> ]; [apply endx_length|]. cbn. destruct sh; [reflexivity|]. cbn. rewrite map_length. reflexivity.
  - destruct Hok as [H1 H2]. cbn [x_end]. unfold ix_end.
    assert (La : x_at sh (XIndexed s f) (repeat 0 (length sh)) (TIdx (ix_begin s))) by (apply (x_begin_at sh (XIndexed s f)); split; assumption).
    pose proof (x_laws_indexed row_major sh (or_introl eq_refl) s f H1 H2) as L.
    destruct (l_end _ _ _ _ _ L (TIdx (ix_begin s))) as (st' & E & [S1 S2]); [eauto|].
    cbn [x_ops idx_ops s_to_end idx_op ix_ops] in E. exists st'. split; [exact E|]. split; [exact S1|].
    intros Hs [Hr1 Hr2]. subst l. apply S2; [assumption|]. split; auto.
  - unfold operands_ok in Hok. apply all_leaves_fun in Hok.
    enough (exists ss, seqM (map (x_end sh l) args) = Ok ss /\ Forall2 (x_endst sh l) args ss) as (ss & E & HQ).
    { cbn [x_end]. rewrite E. cbn [bind]. exists (TNode ss). split; [reflexivity|]. split.
      - apply shaped_fun. exists ss. split; [reflexivity|]. clear -HQ. induction HQ; constructor; auto. apply H.
      - intros Hs Hr. apply at_fun. exists ss. split; [reflexivity|]. unfold reversible in Hr.
        apply all_leaves_fun in Hr. clear -HQ Hr Hs.
        induction HQ; inversion Hr; subst; constructor; auto. apply H; assumption. }
    induction IH as [|a args Ha _ IH2]; inversion Hok as [|? ? H1 H2]; subst.
    + exists []. split; [reflexivity|constructor].
    + destruct (Ha H1) as (st & E & HE). destruct (IH2 H2) as (ss & E2 & HQ).
      exists (st :: ss). cbn [map seqM]. rewrite E. cbn [bind]. rewrite E2. auto.
Qed.

(** ** Dereferencing *)
Lemma dot_zero_unit : forall s st ix, length st = length s -> length ix = length s ->
  (forall j, (j < length s)%nat -> nth j s 0 = 1 -> nth j st 0 = 0) ->
  dot (zero_unit s ix) st = dot ix st.
Proof.
  induction s as [|d s IH]; intros [|a st] [|i ix] H1 H2 H; try discriminate; [reflexivity|].
  cbn [zero_unit dot]. rewrite IH.
  - pose proof (H 0%nat ltac:(cbn; lia)) as H0. cbn in H0. destruct (Z.eqb_spec d 1) as [E|E]; [rewrite H0 by assumption; lia|reflexivity].
  - cbn in H1. lia.
  - cbn in H2. lia.
  - intros j Hj. apply (H (Datatypes.S j)). cbn. lia.
Qed.

Lemma bounded_zero_unit : forall s m ix, length m = length s -> length ix = length s ->
  (forall j, (j < length s)%nat -> nth j s 0 = 1 \/ (nth j m 0 = nth j ix 0 /\ 0 <= nth j ix 0 < nth j s 0)) ->
  bounded_all s m = zero_unit s ix.
Proof.
  induction s as [|d s IH]; intros [|a m] [|i ix] H1 H2 H; try discriminate; [reflexivity|].
  cbn [bounded_all zero_unit]. f_equal.
  - pose proof (H 0%nat ltac:(cbn; lia)) as H0. cbn [nth] in H0. unfold bounded.
    destruct (Z.eqb_spec d 1) as [E|E].
    + subst d. destruct (Z.leb_spec 0 a), (Z.ltb_spec a 1); cbn [andb]; lia.
    + destruct H0 as [H0|[-> H0]]; [congruence|].
      destruct (Z.leb_spec 0 i), (Z.ltb_spec i d); cbn [andb]; lia.
  - apply IH; [cbn in H1; lia|cbn in H2; lia|]. intros j Hj. apply (H (Datatypes.S j)). cbn. lia.
Qed.

Lemma in_bounds_nth' sh ix j : in_bounds sh ix -> (j < length sh)%nat -> 0 <= nth j ix 0 < nth j sh 0.
Proof.
  intros H. revert j. unfold in_bounds in H. induction H; intros [|j] Hj; cbn in *; try lia. apply IHForall2. lia.
Qed.

Lemma x_deref_ok {V} sh (e : sexp V) : operands_ok sh e -> forall ix st, in_bounds sh ix ->
  x_at sh e ix st -> x_deref e st = x_value ix e.
Proof.
  induction e as [v|c b|s f|f args IH] using sexp_ind'; intros Hok ix st Hb Hat.
  - destruct st; try contradiction. reflexivity.
  - destruct st as [|p| |]; try contradiction. destruct Hat as [Hlen Hp]. destruct Hok as [[HL _] (S1 & S2 & S3)].
    cbn [x_deref x_value]. f_equal. rewrite Hp. f_equal. unfold bc_index, k_offset. rewrite Hlen.
    symmetry. apply dot_zero_unit; auto.
    + rewrite skipn_length. lia.
    + intros j Hj. apply S3. assumption.
  - destruct st as [| |m|]; try contradiction. destruct Hat as (M1 & M2 & M3).
    destruct Hok as [Hf Hne]. pose proof (fits_nth _ _ Hf) as Hn. destruct Hf as [HL _].
    cbn [x_deref x_value]. do 2 f_equal. unfold bc_index. apply bounded_zero_unit.
    + exact M1.
    + rewrite skipn_length. lia.
    + intros j Hj. destruct (M3 j Hj) as [E|E]; [left; exact E|].
      destruct (Hn j Hj) as [E'|E']; [left; exact E'|]. right.
      rewrite nth_skipn, E, M2. rewrite (Nat.add_comm j). split; [reflexivity|].
      rewrite E'. rewrite (Nat.add_comm j). apply in_bounds_nth'; [assumption|lia].
  - apply at_fun in Hat. destruct Hat as (ss & -> & Hat). unfold operands_ok in Hok. apply all_leaves_fun in Hok.
    cbn [x_deref x_value].
    enough (zipR (fun g s => g s) (map x_deref args) ss = seqM (map (x_value ix) args)) as E by (rewrite E; reflexivity).
    revert ss Hat. induction IH as [|a args Ha _ IH2]; intros ss Hat; inversion Hat; subst; inversion Hok; subst; [reflexivity|].
    cbn [map zipR seqM]. rewrite (Ha H2 ix y Hb H1). destruct (x_value ix a); [|reflexivity|reflexivity].
    cbn [bind]. rewrite IH2; auto.
Qed.

Lemma x_value_ok {V} sh (e : sexp V) : operands_ok sh e -> storage_ok e -> forall ix, in_bounds sh ix ->
  exists v, x_value ix e = Ok v.
Proof.
  induction e as [v|c b|s f|f args IH] using sexp_ind'; intros Hok Hst ix Hb.
  - eexists; reflexivity.
  - cbn in Hst. destruct Hok as [[HL HA] _]. cbn [x_value].
    specialize (Hst (bc_index (k_shape c) ix) (bc_index_in_bounds _ _ _ HL Hb HA)).
    destruct (nth_error_lt_ex b (Z.to_nat (k_begin c + dot (bc_index (k_shape c) ix) (k_strides c)))) as [x Hx]; [lia|].
    exists x. unfold rdz. destruct (Z.ltb_spec (k_begin c + dot (bc_index (k_shape c) ix) (k_strides c)) 0); [lia|].
    apply rd_ok. exact Hx.
  - eexists; reflexivity.
  - unfold operands_ok, storage_ok in *. apply all_leaves_fun in Hok. apply all_leaves_fun in Hst.
    enough (exists vs, seqM (map (x_value ix) args) = Ok vs) as [vs E] by (cbn [x_value]; rewrite E; eexists; reflexivity).
    induction IH as [|a args Ha _ IH2]; inversion Hok; inversion Hst; subst.
    + eexists; reflexivity.
    + destruct (Ha H1 H5 ix Hb) as [v Ev]. destruct IH2 as [vs Evs]; auto.
      exists (v :: vs). cbn [map seqM]. rewrite Ev. cbn [bind]. rewrite Evs. reflexivity.
Qed.

(** ** Iterators *)
Definition it_valid {V} (sh : list Z) (l : layout) (e : sexp V) (k : Z) (it : @iter sstate) : Prop :=
  let '(st, ix, lin) := it in lin = k /\ valid l sh (x_at sh e) (x_endst sh l e) k ix st.

Section Iter.
Context {V : Type} (l : layout) (sh : list Z) (e : sexp V).
Hypothesis Hl : l = row_major \/ l = column_major.
Hypothesis Hok : operands_ok sh e.
Hypothesis Hpos : Forall (fun d => 0 < d) sh.
Notation ops := (x_ops sh e).

Lemma HL : laws ops l sh (x_at sh e) (x_endst sh l e).
Proof. apply x_laws; assumption. Qed.

Lemma iv_inc : forall k it, it_valid sh l e k it -> k < prod sh ->
  exists it', it_inc ops sh l it = Ok it' /\ it_valid sh l e (k + 1) it'.
Proof.
  intros k [[st ix] lin] [Hk Hv] Hlt. pose proof HL as L. unfold it_inc.
  assert (exists ix' st', (match l with row_major => row_increment ops sh ix st | _ => col_increment ops sh ix st end)
            = Ok (ix', st') /\ valid l sh (x_at sh e) (x_endst sh l e) (k + 1) ix' st') as (ix' & st' & E & H).
  { destruct Hl as [El|El]; rewrite El in *; [eapply rv_inc|eapply cv_inc]; eauto. }
  rewrite E. cbn [bind]. eexists. split; [reflexivity|]. split; [lia|assumption].
Qed.

Lemma iv_add_nn : forall k it n, it_valid sh l e k it -> 0 <= n -> k + n <= prod sh ->
  exists it', it_add ops sh l it n = Ok it' /\ it_valid sh l e (k + n) it'.
Proof.
  intros k [[st ix] lin] n [Hk Hv] Hn Hlt. pose proof HL as L. unfold it_add.
  destruct (Z.leb_spec 0 n); [|lia].
  assert (exists ix' st', inc_n ops sh l ix st n
            = Ok (ix', st') /\ valid l sh (x_at sh e) (x_endst sh l e) (k + n) ix' st') as (ix' & st' & E & HH).
  { unfold inc_n. destruct Hl as [El|El]; rewrite El in *; [eapply rv_inc_n|eapply cv_inc_n]; eauto. }
  rewrite E. cbn [bind]. eexists. split; [reflexivity|]. split; [lia|assumption].
Qed.

Lemma x_begin_valid : exists b, x_it_begin sh l e = Ok b /\ it_valid sh l e 0 b.
Proof.
  eexists. split; [reflexivity|]. split; [reflexivity|]. left. split; [apply zeros_in_bounds; assumption|].
  split; [|apply x_begin_at; assumption].
  destruct Hl as [ -> | -> ]; cbn [posn]; [|apply col_pos_zeros].
  rewrite row_col_rev by apply repeat_length.
  replace (rev (repeat 0 (length sh))) with (repeat 0 (length sh)); [apply col_pos_zeros|].
  generalize (length sh). intros n. induction n as [|k IH]; [reflexivity|]. cbn [repeat rev]. rewrite <- IH.
  rewrite <- repeat_cons. reflexivity.
Qed.

Hypothesis Hrev : sh = [] \/ reversible l e.

Lemma x_Hend : forall st, sh <> [] -> x_endst sh l e st -> x_at sh e (endx l sh) st.
Proof. intros st H1 [_ H2]. destruct Hrev as [Hr|Hr]; [congruence|]. apply H2; assumption. Qed.

Lemma iv_dec : forall k it, it_valid sh l e k it -> 0 < k ->
  exists it', it_dec ops sh l it = Ok it' /\ it_valid sh l e (k - 1) it'.
Proof.
  intros k [[st ix] lin] [Hk Hv] Hlt. pose proof HL as L. pose proof x_Hend as HE. unfold it_dec.
  assert (exists ix' st', (match l with row_major => row_decrement ops sh ix st | _ => col_decrement ops sh ix st end)
            = Ok (ix', st') /\ valid l sh (x_at sh e) (x_endst sh l e) (k - 1) ix' st') as (ix' & st' & E & H).
  { destruct Hl as [El|El]; rewrite El in *; [eapply rv_dec|eapply cv_dec]; eauto. }
  rewrite E. cbn [bind]. eexists. split; [reflexivity|]. split; [lia|assumption].
Qed.

Lemma iv_dec_n : forall k ix st n, valid l sh (x_at sh e) (x_endst sh l e) k ix st -> 0 <= n <= k ->
  exists ix' st', dec_n ops sh l ix st n = Ok (ix', st') /\ valid l sh (x_at sh e) (x_endst sh l e) (k - n) ix' st'.
Proof.
  intros k ix st n Hv Hn. pose proof HL as L. pose proof x_Hend as HE. unfold dec_n.
  destruct Hl as [El|El]; rewrite El in *; [eapply rv_dec_n|eapply cv_dec_n]; eauto.
Qed.
Lemma iv_inc_n : forall k ix st n, valid l sh (x_at sh e) (x_endst sh l e) k ix st -> 0 <= n -> k + n <= prod sh ->
  exists ix' st', inc_n ops sh l ix st n = Ok (ix', st') /\ valid l sh (x_at sh e) (x_endst sh l e) (k + n) ix' st'.
Proof.
  intros k ix st n Hv Hn. pose proof HL as L. unfold inc_n.
  destruct Hl as [El|El]; rewrite El in *; [eapply rv_inc_n|eapply cv_inc_n]; eauto.
Qed.

Lemma iv_move : forall m k it, it_valid sh l e k it -> 0 <= k <= prod sh -> 0 <= moved m k <= prod sh ->
  exists it', do_move ops sh l m it = Ok it' /\ it_valid sh l e (moved m k) it'.
Proof.
  intros [| |n|n] k it Hv Hk Hm; cbn [do_move moved] in *.
  - apply iv_inc; [assumption|lia].
  - apply iv_dec; [assumption|lia].
  - destruct it as [[st ix] lin]. destruct Hv as [Hlin Hv]. unfold it_add. destruct (Z.leb_spec 0 n).
    + destruct (iv_inc_n k ix st n Hv) as (ix' & st' & E & HH); try lia. rewrite E. cbn [bind].
      eexists. split; [reflexivity|]. split; [lia|assumption].
    + destruct (iv_dec_n k ix st (- n) Hv) as (ix' & st' & E & HH); try lia. rewrite E. cbn [bind].
      eexists. split; [reflexivity|]. replace (k - - n) with (k + n) in HH by lia. split; [lia|assumption].
  - destruct it as [[st ix] lin]. destruct Hv as [Hlin Hv]. unfold it_sub. destruct (Z.leb_spec 0 n).
    + destruct (iv_dec_n k ix st n Hv) as (ix' & st' & E & HH); try lia. rewrite E. cbn [bind].
      eexists. split; [reflexivity|]. split; [lia|assumption].
    + destruct (iv_inc_n k ix st (- n) Hv) as (ix' & st' & E & HH); try lia. rewrite E. cbn [bind].
      eexists. split; [reflexivity|]. replace (k + - n) with (k - n) in HH by lia. split; [lia|assumption].
Qed.

Lemma iv_moves : forall ms k it, it_valid sh l e k it -> 0 <= k <= prod sh -> stays (prod sh) k ms ->
  exists it', do_moves ops sh l ms it = Ok it' /\ it_valid sh l e (final k ms) it' /\ 0 <= final k ms <= prod sh.
Proof.
  induction ms as [|m ms IH]; intros k it Hv Hk Hs; cbn [do_moves stays final fold_left] in *.
  - eauto.
  - destruct Hs as [H1 H2]. destruct (iv_move m k it Hv Hk H1) as (it1 & E & Hv1). rewrite E. cbn [bind].
    apply IH; assumption.
Qed.
End Iter.

Section IterFwd.
Context {V : Type} (l : layout) (sh : list Z) (e : sexp V).
Hypothesis Hl : l = row_major \/ l = column_major.
Hypothesis Hok : operands_ok sh e.

Lemma iv_inc_k : Forall (fun d => 0 < d) sh -> forall n k it, it_valid sh l e k it -> k + Z.of_nat n <= prod sh ->
  exists it', it_inc_k (x_ops sh e) sh l n it = Ok it' /\ it_valid sh l e (k + Z.of_nat n) it'.
Proof.
  intros Hpos. induction n as [|n IH]; intros k it Hv Hle; cbn [it_inc_k].
  - exists it. split; [reflexivity|]. rewrite Z.add_0_r. exact Hv.
  - destruct (iv_inc l sh e Hl Hok Hpos k it Hv) as (it1 & E & Hv1); [lia|]. rewrite E. cbn [bind].
    destruct (IH (k + 1) it1 Hv1) as (it2 & E2 & Hv2); [lia|]. exists it2. split; [exact E2|].
    replace (k + Z.of_nat (Datatypes.S n)) with (k + 1 + Z.of_nat n) by lia. exact Hv2.
Qed.

Lemma it_make_end_ok : forall st : sstate, is_shape sh -> it_make sh l st true = Ok (st, endx l sh, prod sh).
Proof.
  intros st Hs. unfold it_make.
  assert (E : (match sh with
          | [] => Ok []
          | _ => match l with
                 | row_major => for_up (fun k ix => let* v := rd ix k in wr ix k (v - 1)) 0 (length sh - 1) sh
                 | _ => for_up (fun k ix => let* v := rd ix k in wr ix k (v - 1)) 1 (length sh - 1) sh
                 end
          end) = Ok (endx l sh)).
  { assert (A : forall s p q, for_up (fun k ix => let* v := rd ix k in wr ix k (v - 1)) (length p) (length s) (p ++ s ++ q)
              = Ok (p ++ map (fun d => d - 1) s ++ q)).
    { induction s as [|d s IH]; intros p q; [reflexivity|]. cbn [length for_up app map].
      rewrite (rdm p d) by reflexivity. cbn [bind]. rewrite (wrm p d) by reflexivity. cbn [bind].
      specialize (IH (p ++ [d - 1]) q). rewrite app_length in IH. cbn [length] in IH. rewrite Nat.add_1_r in IH.
      rewrite <- !app_assoc in IH. exact IH. }
    destruct sh as [|d t] eqn:Esh; [destruct Hl as [ -> | -> ]; reflexivity|].
    destruct Hl as [ -> | -> ].
    - destruct (exists_last (l := d :: t)) as (s & x & Es); [discriminate|]. rewrite Es, endx_row_app.
      rewrite app_length. cbn [length]. replace (length s + 1 - 1)%nat with (length s) by lia. apply (A s []).
    - cbn [length endx col_endx]. replace (Datatypes.S (length t) - 1)%nat with (length t) by lia.
      pose proof (A t [d] []) as HA. cbn [app length] in HA. rewrite !app_nil_r in HA. exact HA. }
  cbn in E |- *. rewrite E. cbn [bind]. rewrite compute_size_prod. reflexivity.
Qed.

Lemma prod_nonneg_pos : is_shape sh -> 0 < prod sh -> Forall (fun d => 0 < d) sh.
Proof.
  clear. unfold is_shape. induction 1 as [|d s H Hs IH]; intros Hp; [constructor|].
  assert (0 <= prod s) by (clear -Hs; induction Hs; [rewrite prod_nil; lia|rewrite prod_cons; nia]).
  rewrite prod_cons in Hp. constructor; [nia|]. apply IH. nia.
Qed.

Lemma deref_valid : forall k it, it_valid sh l e k it -> 0 <= k < prod sh ->
  exists ix, in_bounds sh ix /\ order_pos l sh ix = k /\ it_deref e it = x_value ix e.
Proof.
  intros k [[st ix] lin] [_ [(Hb & Hp & Ha)|(Hp & _)]] Hk; [|lia].
  exists ix. split; [assumption|]. split; [exact Hp|]. cbn [it_deref]. eapply x_deref_ok; eauto.
Qed.

Lemma order_pos_inj : forall ix iy, in_bounds sh ix -> in_bounds sh iy ->
  order_pos l sh ix = order_pos l sh iy -> ix = iy.
Proof.
  intros ix iy H1 H2 E. unfold order_pos in E.
  destruct Hl as [El|El]; rewrite El in E; [eapply row_pos_inj|eapply col_pos_inj]; eauto.
Qed.
End IterFwd.

Lemma iteration_lemma {V} (l : layout) (sh : list Z) (e : sexp V) :
  l = row_major \/ l = column_major -> is_shape sh -> operands_ok sh e ->
  exists b en,
    x_it_begin sh l e = Ok b /\ x_it_end sh l e = Ok en /\
    (forall k, (Z.of_nat k < prod sh) ->
       exists it, it_inc_k (x_ops sh e) sh l k b = Ok it /\ it_equal it en = false /\
         forall ix, in_bounds sh ix -> order_pos l sh ix = Z.of_nat k -> it_deref e it = x_value ix e) /\
    (exists it, it_inc_k (x_ops sh e) sh l (Z.to_nat (prod sh)) b = Ok it /\ it_equal it en = true).
Proof.
  intros Hl Hs Hok.
  destruct (x_end_ok l sh e Hl Hok) as (st & Ee & He).
  exists (x_begin e, repeat 0 (length sh), 0), (st, endx l sh, prod sh).
  split; [reflexivity|]. split.
  { unfold x_it_end. rewrite Ee. cbn [bind]. eapply it_make_end_ok; eauto. }
  assert (NN : 0 <= prod sh).
  { clear -Hs. induction Hs; [rewrite prod_nil; lia|]. rewrite prod_cons. nia. }
  assert (STEP : 0 < prod sh -> forall k, (Z.of_nat k <= prod sh) ->
     exists it, it_inc_k (x_ops sh e) sh l k (x_begin e, repeat 0 (length sh), 0) = Ok it /\ it_valid sh l e (Z.of_nat k) it).
  { intros Hp k Hk. pose proof (prod_nonneg_pos sh Hs Hp) as Hpos.
    destruct (x_begin_valid l sh e Hl Hok Hpos) as (b & Eb & Hb). injection Eb as Eb. subst b.
    exact (iv_inc_k l sh e Hl Hok Hpos k 0 _ Hb Hk). }
  split.
  - intros k Hk. destruct (STEP ltac:(lia) k ltac:(lia)) as (it & E & Hv). exists it. split; [exact E|]. split.
    + destruct it as [[st' ix'] lin]. destruct Hv as [-> _]. unfold it_equal. cbn. apply Z.eqb_neq. lia.
    + intros ix Hb Hp. destruct (deref_valid l sh e Hok (Z.of_nat k) it Hv) as (iy & Hb' & Hp' & Ed); [lia|].
      rewrite Ed. f_equal. eapply order_pos_inj; eauto. congruence.
  - destruct (Z.eq_dec (prod sh) 0) as [E0|E0].
    + rewrite E0. eexists. split; [reflexivity|]. reflexivity.
    + destruct (STEP ltac:(lia) (Z.to_nat (prod sh)) ltac:(lia)) as (it & E & Hv). exists it. split; [exact E|].
      destruct it as [[st' ix'] lin]. destruct Hv as [-> _]. unfold it_equal. cbn. apply Z.eqb_eq. lia.
Qed.

Lemma random_access_lemma {V} (l : layout) (sh : list Z) (e : sexp V) :
  l = row_major \/ l = column_major -> Forall (fun d => 0 < d) sh -> operands_ok sh e -> sh = [] \/ reversible l e ->
  exists b en,
    x_it_begin sh l e = Ok b /\ x_it_end sh l e = Ok en /\
    forall (from_end1 from_end2 : bool) (ms1 ms2 : list move),
    let start1 := if from_end1 then prod sh else 0 in
    let start2 := if from_end2 then prod sh else 0 in
    stays (prod sh) start1 ms1 -> stays (prod sh) start2 ms2 ->
    exists it1 it2,
      do_moves (x_ops sh e) sh l ms1 (if from_end1 then en else b) = Ok it1 /\
      do_moves (x_ops sh e) sh l ms2 (if from_end2 then en else b) = Ok it2 /\
      (forall ix, in_bounds sh ix -> order_pos l sh ix = final start1 ms1 -> it_deref e it1 = x_value ix e) /\
      it_diff it1 it2 = final start1 ms1 - final start2 ms2 /\
      it_equal it1 it2 = (final start1 ms1 =? final start2 ms2) /\
      it_less it1 it2 = (final start1 ms1 <? final start2 ms2).
Proof.
  intros Hl Hpos Hok Hrev.
  assert (Hs : is_shape sh) by (eapply Forall_impl; [|exact Hpos]; cbn; lia).
  assert (Hp : 0 < prod sh) by (apply prod_pos; assumption).
  destruct (x_end_ok l sh e Hl Hok) as (st & Ee & He).
  destruct (x_begin_valid l sh e Hl Hok Hpos) as (b & Eb & Hb).
  exists b, (st, endx l sh, prod sh). split; [exact Eb|]. split.
  { unfold x_it_end. rewrite Ee. cbn [bind]. eapply it_make_end_ok; eauto. }
  assert (Hen : it_valid sh l e (prod sh) (st, endx l sh, prod sh)).
  { split; [reflexivity|]. right. auto. }
  intros fe1 fe2 ms1 ms2 s1 s2 H1 H2.
  assert (G : forall (fe : bool) ms, let s := if fe then prod sh else 0 in stays (prod sh) s ms ->
    exists it, do_moves (x_ops sh e) sh l ms (if fe then (st, endx l sh, prod sh) else b) = Ok it /\
      it_valid sh l e (final s ms) it /\ 0 <= final s ms <= prod sh).
  { intros fe ms s H. destruct fe; unfold s in *; eapply iv_moves; eauto; lia. }
  destruct (G fe1 ms1 H1) as (it1 & E1 & V1 & R1). destruct (G fe2 ms2 H2) as (it2 & E2 & V2 & R2).
  exists it1, it2. split; [exact E1|]. split; [exact E2|]. fold s1 in V1, R1. fold s2 in V2, R2. split.
  - intros ix Hbx Hpx. assert (0 <= final s1 ms1 < prod sh).
    { rewrite <- Hpx. unfold order_pos. destruct Hl as [El|El]; rewrite El; [apply row_pos_bound|apply col_pos_bound]; assumption. }
    destruct (deref_valid l sh e Hok _ it1 V1) as (iy & Hb' & Hp' & Ed); [lia|].
    rewrite Ed. f_equal. eapply order_pos_inj; eauto. congruence.
  - destruct it1 as [[? ?] k1], it2 as [[? ?] k2]. destruct V1 as [-> _], V2 as [-> _].
    unfold it_diff, it_equal, it_less. cbn [snd]. auto.
Qed.

(** ** The assignment walk *)
Lemma walk_ok {V} (l : layout) (sh : list Z) (e : sexp V) :
  l = row_major \/ l = column_major -> Forall (fun d => 0 < d) sh -> operands_ok sh e ->
  forall n k ix st, valid l sh (x_at sh e) (x_endst sh l e) k ix st -> k + Z.of_nat n <= prod sh ->
  exists ix' st', walk (x_ops sh e) sh l n ix st = Ok (ix', st') /\
    valid l sh (x_at sh e) (x_endst sh l e) (k + Z.of_nat n) ix' st'.
Proof.
  intros Hl Hpos Hok. pose proof (HL l sh e Hl Hok) as L.
  induction n as [|n IH]; intros k ix st Hv Hle; cbn [walk].
  - exists ix, st. rewrite Z.add_0_r. auto.
  - assert (exists ix' st', (match l with row_major => row_increment (x_ops sh e) sh ix st | _ => col_increment (x_ops sh e) sh ix st end)
            = Ok (ix', st') /\ valid l sh (x_at sh e) (x_endst sh l e) (k + 1) ix' st') as (ix' & st' & E & H).
    { clear IH. destruct Hl as [El|El]; rewrite El in *; [eapply rv_inc|eapply cv_inc]; eauto; lia. }
    rewrite E. cbn [bind]. destruct (IH (k + 1) ix' st' H) as (ix2 & st2 & E2 & H2); [lia|].
    exists ix2, st2. split; [exact E2|]. replace (k + Z.of_nat (Datatypes.S n)) with (k + 1 + Z.of_nat n) by lia. exact H2.
Qed.

Lemma in_bounds_shape_pos sh ix : in_bounds sh ix -> Forall (fun d => 0 < d) sh.
Proof. unfold in_bounds. induction 1; constructor; auto. lia. Qed.

Lemma order_pos_bound l sh ix : l = row_major \/ l = column_major -> in_bounds sh ix -> 0 <= order_pos l sh ix < prod sh.
Proof. intros [ -> | -> ] H; [apply row_pos_bound|apply col_pos_bound]; assumption. Qed.

Lemma walk_at {V} (l : layout) (sh : list Z) (e : sexp V) ix :
  l = row_major \/ l = column_major -> operands_ok sh e -> in_bounds sh ix ->
  exists st, walk (x_ops sh e) sh l (Z.to_nat (order_pos l sh ix)) (repeat 0 (length sh)) (x_begin e) = Ok (ix, st) /\
    x_at sh e ix st.
Proof.
  intros Hl Hok Hb. pose proof (in_bounds_shape_pos _ _ Hb) as Hpos. pose proof (order_pos_bound l sh ix Hl Hb) as Hp.
  destruct (x_begin_valid l sh e Hl Hok Hpos) as (b & Eb & Hv). injection Eb as Eb. subst b. destruct Hv as [_ Hv].
  destruct (walk_ok l sh e Hl Hpos Hok (Z.to_nat (order_pos l sh ix)) 0 _ _ Hv) as (ix' & st' & E & H); [lia|].
  exists st'. rewrite E. destruct H as [(Hb' & Hp' & Ha)|(Hp' & _)]; [|lia].
  assert (ix' = ix). { eapply order_pos_inj; eauto. rewrite posn_order in Hp'. lia. }
  subst ix'. auto.
Qed.

Lemma broadcast_walk_lemma {V} (l : layout) (sh : list Z) (c : container) (buf : list V) ix :
  l = row_major \/ l = column_major -> fits (k_shape c) sh -> strided_ok c -> in_bounds sh ix ->
  walk (x_ops sh (XStrided c buf)) sh l (Z.to_nat (order_pos l sh ix)) (repeat 0 (length sh)) (TPtr (k_begin c)) =
  Ok (ix, TPtr (k_begin c + dot (bc_index (k_shape c) ix) (k_strides c))).
Proof.
  intros Hl Hf Hs Hb. destruct (walk_at l sh (XStrided c buf) ix Hl) as (st & E & Ha); auto.
  { split; assumption. }
  cbn [x_begin] in E. unfold xs_begin in E. rewrite E. destruct st as [|p| |]; try contradiction. destruct Ha as [Hlen Hp].
  do 3 f_equal. rewrite Hp. f_equal. unfold bc_index, k_offset. rewrite Hlen. symmetry.
  destruct Hs as (S1 & S2 & S3). apply dot_zero_unit; auto.
  - rewrite skipn_length. destruct Hf as [HL _]. lia.
  - intros j Hj. apply S3. assumption.
Qed.

Lemma expression_walk_lemma {V} (l : layout) (sh : list Z) (e : sexp V) ix :
  l = row_major \/ l = column_major -> operands_ok sh e -> in_bounds sh ix ->
  exists st,
    walk (x_ops sh e) sh l (Z.to_nat (order_pos l sh ix)) (repeat 0 (length sh)) (x_begin e) = Ok (ix, st) /\
    x_deref e st = x_value ix e /\
    (storage_ok e -> exists v, x_deref e st = Ok v).
Proof.
  intros Hl Hok Hb. destruct (walk_at l sh e ix Hl Hok Hb) as (st & E & Ha).
  exists st. pose proof (x_deref_ok sh e Hok ix st Hb Ha) as D. split; [exact E|]. split; [exact D|].
  intros Hs. rewrite D. eapply x_value_ok; eauto.
Qed.

(** ** Containers iterated over their own shape *)
Lemma fits_self s : fits s s.
Proof. split; [lia|]. intros k. right. reflexivity. Qed.

Lemma container_value {V} c (buf : list V) ix : strided_ok c -> length ix = length (k_shape c) ->
  x_value ix (XStrided c buf) = rdz buf (k_begin c + dot ix (k_strides c)).
Proof.
  intros (S1 & S2 & S3) Hlen. cbn [x_value]. do 2 f_equal. unfold bc_index. rewrite Hlen, Nat.sub_diag.
  cbn [skipn]. apply dot_zero_unit; auto. intros j Hj. apply S3. assumption.
Qed.

Lemma container_iteration_lemma {V} (l : layout) (c : container) (buf : list V) :
  l = row_major \/ l = column_major -> is_shape (k_shape c) -> strided_ok c ->
  let e := XStrided c buf in
  exists b en,
    x_it_begin (k_shape c) l e = Ok b /\ x_it_end (k_shape c) l e = Ok en /\
    (forall k, (Z.of_nat k < prod (k_shape c)) ->
       exists it, it_inc_k (x_ops (k_shape c) e) (k_shape c) l k b = Ok it /\ it_equal it en = false /\
         forall ix, in_bounds (k_shape c) ix -> order_pos l (k_shape c) ix = Z.of_nat k ->
           it_deref e it = rdz buf (k_begin c + dot ix (k_strides c))) /\
    (exists it, it_inc_k (x_ops (k_shape c) e) (k_shape c) l (Z.to_nat (prod (k_shape c))) b = Ok it /\
       it_equal it en = true).
Proof.
  intros Hl Hs Hst e. destruct (iteration_lemma l (k_shape c) e Hl Hs) as (b & en & E1 & E2 & E3 & E4).
  { split; [apply fits_self|assumption]. }
  exists b, en. split; [exact E1|]. split; [exact E2|]. split; [|exact E4].
  intros k Hk. destruct (E3 k Hk) as (it & F1 & F2 & F3). exists it. split; [exact F1|]. split; [exact F2|].
  intros ix Hb Hp. rewrite (F3 ix Hb Hp). apply container_value; [assumption|].
  apply in_bounds_length in Hb. auto.
Qed.

Lemma container_random_access_lemma {V} (l : layout) (c : container) (buf : list V) :
  l = row_major \/ l = column_major -> Forall (fun d => 0 < d) (k_shape c) -> strided_ok c ->
  let e := XStrided c buf in let sh := k_shape c in
  exists b en,
    x_it_begin sh l e = Ok b /\ x_it_end sh l e = Ok en /\
    forall (from_end1 from_end2 : bool) (ms1 ms2 : list move),
    let start1 := if from_end1 then prod sh else 0 in
    let start2 := if from_end2 then prod sh else 0 in
    stays (prod sh) start1 ms1 -> stays (prod sh) start2 ms2 ->
    exists it1 it2,
      do_moves (x_ops sh e) sh l ms1 (if from_end1 then en else b) = Ok it1 /\
      do_moves (x_ops sh e) sh l ms2 (if from_end2 then en else b) = Ok it2 /\
      (forall ix, in_bounds sh ix -> order_pos l sh ix = final start1 ms1 ->
         it_deref e it1 = rdz buf (k_begin c + dot ix (k_strides c))) /\
      it_diff it1 it2 = final start1 ms1 - final start2 ms2 /\
      it_equal it1 it2 = (final start1 ms1 =? final start2 ms2) /\
      it_less it1 it2 = (final start1 ms1 <? final start2 ms2).
Proof.
  intros Hl Hpos Hst e sh. destruct (random_access_lemma l sh e Hl Hpos) as (b & en & E1 & E2 & E3).
  { split; [apply fits_self|assumption]. }
  { destruct (list_eq_dec Z.eq_dec sh []); [left; assumption|right]. split; [assumption|exact I]. }
  exists b, en. split; [exact E1|]. split; [exact E2|]. intros fe1 fe2 ms1 ms2 s1 s2 H1 H2.
  destruct (E3 fe1 fe2 ms1 ms2 H1 H2) as (it1 & it2 & F1 & F2 & F3 & F4). exists it1, it2.
  split; [exact F1|]. split; [exact F2|]. split; [|exact F4].
  intros ix Hb Hp. rewrite (F3 ix Hb Hp). apply container_value; [assumption|].
  apply in_bounds_length in Hb. auto.
Qed.

(** ** What fails *)
Lemma reverse_0d_refuted_lemma :
  exists (e : sexp Z) sh, Forall (fun d => 0 < d) sh /\ operands_ok sh e /\ storage_ok e /\
    exists en it, x_it_end sh row_major e = Ok en /\
      it_dec (x_ops sh e) sh row_major en = Ok it /\ it_deref e it = UB.
Proof.
  exists (XStrided (mk_container [] [] [] 0) [7]), [2].
  split; [repeat constructor|]. split.
  { cbn. split.
    - split; [cbn; lia|]. intros k. left. unfold axis. destruct k; reflexivity.
    - split; [reflexivity|]. split; [reflexivity|]. cbn. intros j H. lia. }
  split. { cbn. intros ix H. inversion H. cbn. lia. }
  do 2 eexists. repeat split; vm_compute; reflexivity.
Qed.

Lemma indexed_0d_refuted_lemma :
  exists (e : sexp Z), 
    x_it_end [] row_major e = UB /\ x_it_end [] column_major e = UB /\
    (exists b, x_it_begin [] row_major e = Ok b /\ it_inc (x_ops [] e) [] row_major b = UB) /\
    (exists b, x_it_begin [] column_major e = Ok b /\ it_inc (x_ops [] e) [] column_major b = UB).
Proof.
  exists (XIndexed [] (fun _ => 7)). repeat split; try (vm_compute; reflexivity);
  eexists; split; vm_compute; reflexivity.
Qed.

Lemma indexed_col_reverse_refuted_lemma :
  exists (e : sexp Z) sh, Forall (fun d => 0 < d) sh /\ operands_ok sh e /\
    exists en it v, x_it_end sh column_major e = Ok en /\
      it_dec (x_ops sh e) sh column_major en = Ok it /\
      it_deref e it = Ok v /\
      forall ix, in_bounds sh ix -> order_pos column_major sh ix = prod sh - 1 -> x_value ix e <> Ok v.
Proof.
  set (f := fun ix : list Z => match ix with [i; j] => 10 * i + j | _ => 0 end).
  exists (XIndexed [2; 3] f), [2; 3].
  split; [repeat constructor|]. split.
  { cbn. split; [|discriminate]. split; [cbn; lia|]. intros k. right. reflexivity. }
  do 3 eexists. split; [vm_compute; reflexivity|]. split; [vm_compute; reflexivity|]. split; [vm_compute; reflexivity|].
  intros ix Hb Hp. assert (ix = [1; 2]).
  { eapply (order_pos_inj column_major [2;3]); eauto. repeat constructor; lia. }
  subst. vm_compute. discriminate.
Qed.
