(** Proofs about the container model. *)
From Coq Require Import List ZArith Bool Lia.
From Verif Require Import Prelude PreludeFacts Strides_Model Strides_Spec Strides_Proofs Access_Model Slice_Model
  Container_Model Container_Spec.
Import ListNotations.
Open Scope Z_scope.

Lemma zlist_eqb_eq : forall a b, zlist_eqb a b = true <-> a = b.
Proof.
  induction a as [|x a IH]; intros [|y b]; cbn; split; intros H; try reflexivity; try discriminate.
  - apply andb_true_iff in H. destruct H as [H1 H2]. apply Z.eqb_eq in H1. apply IH in H2. congruence.
  - injection H as -> ->. rewrite Z.eqb_refl. cbn. apply IH. reflexivity.
Qed.
Lemma layout_eqb_eq a b : layout_eqb a b = true <-> a = b.
Proof. destruct a, b; cbn; split; congruence. Qed.
Lemma layout_eqb_neq a b : layout_eqb a b = false <-> a <> b.
Proof. destruct a, b; cbn; split; congruence. Qed.
Lemma layout_eqb_refl a : layout_eqb a a = true.
Proof. destruct a; reflexivity. Qed.

Definition order_of (SL lay : layout) : layout :=
  if layout_eqb SL row_major || layout_eqb lay row_major then row_major else column_major.

Lemma order_of_order SL lay : is_order (order_of SL lay).
Proof. unfold order_of, is_order. destruct (_ || _); auto. Qed.

Lemma cs_dense SL lay sh : 
  exists st bs, compute_strides SL sh lay (repeat 0 (length sh)) (Some (repeat 0 (length sh))) = Ok (st, Some bs, prod sh) /\
    length st = length sh /\ length bs = length sh /\
    (forall ix, in_bounds sh ix -> element_offset st ix = rank (order_of SL lay) sh ix).
Proof.
  rewrite compute_strides_ok by (cbn; rewrite ?repeat_length; reflexivity). cbn [some_bs].
  eexists _, _. split; [reflexivity|]. unfold order_of.
  destruct (layout_eqb SL row_major || layout_eqb lay row_major).
  - split; [apply row_strides_length|]. split; [unfold spec_backstrides; rewrite map_length, seq_length; reflexivity|].
    intros ix H. rewrite element_offset_same by (rewrite row_strides_length; apply in_bounds_length; auto).
    apply dot_row. exact H.
  - split; [apply col_strides_length|]. split; [unfold spec_backstrides; rewrite map_length, seq_length; reflexivity|].
    intros ix H. rewrite element_offset_same by (rewrite col_strides_length; apply in_bounds_length; auto).
    apply dot_col. exact H.
Qed.

(** The layout member agrees with the static layout. *)
Definition lay_ok {V} (SL : layout) (c : cont V) : Prop := SL <> dynamic -> ct_layout c = SL.

Lemma order_of_reported SL lay : (SL <> dynamic -> lay = SL) -> is_order lay -> order_of SL lay = lay.
Proof.
  intros H Ho. unfold order_of. destruct Ho as [E|E]; subst lay; cbn.
  - rewrite orb_true_r. reflexivity.
  - destruct SL; cbn; try reflexivity. discriminate H. discriminate.
Qed.

Lemma rank_bound l sh ix : in_bounds sh ix -> 0 <= rank l sh ix < prod sh.
Proof. intros H. destruct l; cbn; auto using row_pos_bound, col_pos_bound. Qed.
Lemma rank_inj l sh i j : in_bounds sh i -> in_bounds sh j -> rank l sh i = rank l sh j -> i = j.
Proof. intros H1 H2 E. destruct l; cbn in E; eauto using row_pos_inj, col_pos_inj. Qed.

Lemma consistent_accesses {V} (c : cont V) : consistent c -> accesses_inside c.
Proof.
  intros (_ & _ & _ & H & l & _ & _ & E) ix Hix. rewrite E, H by assumption. apply rank_bound. assumption.
Qed.

Section Cont.
Context {V : Type} (SL DL : layout) (rs : list V -> Z -> list V).
Hypothesis Hrs : forall d n, 0 <= n -> Z.of_nat (length (rs d n)) = n.

Lemma size_ok (c : cont V) : consistent c -> c_size SL c = prod (ct_shape c).
Proof.
  intros (_ & _ & _ & H & _). unfold c_size. destruct (layout_eqb SL dynamic); cbn [negb].
  - apply compute_size_prod.
  - exact H.
Qed.

Lemma prod_nn sh : is_shape sh -> 0 <= prod sh.
Proof. induction 1; [rewrite prod_nil; lia|rewrite prod_cons; nia]. Qed.

Lemma dense_consistent sh lay (d : list V) st bs : is_shape sh -> (SL <> dynamic -> lay = SL) ->
  length st = length sh -> length bs = length sh -> Z.of_nat (length d) = prod sh ->
  (forall ix, in_bounds sh ix -> element_offset st ix = rank (order_of SL lay) sh ix) ->
  consistent (mk_cont sh st bs lay d).
Proof.
  intros Hs Hl H1 H2 H3 H4. split; [exact Hs|]. split; [exact H1|]. split; [exact H2|]. split; [exact H3|].
  exists (order_of SL lay). split; [apply order_of_order|]. split; [|exact H4].
  intros Ho. apply order_of_reported; assumption.
Qed.

Lemma resize_ok (c : cont V) sh force : consistent c -> lay_ok SL c -> is_shape sh ->
  exists c', c_resize SL DL rs c sh force = Ok c' /\ consistent c' /\ lay_ok SL c' /\ ct_shape c' = sh /\
    (force = true -> ct_layout c' = if layout_eqb SL dynamic && layout_eqb (ct_layout c) dynamic then DL else ct_layout c).
Proof.
  intros Hc Hl Hs. unfold c_resize.
  destruct (negb (zlist_eqb sh (ct_shape c)) || force) eqn:E.
  - set (lay := if layout_eqb SL dynamic && layout_eqb (ct_layout c) dynamic then DL else ct_layout c).
    destruct (cs_dense SL lay sh) as (st & bs & E1 & H1 & H2 & H3). rewrite E1. cbn [bind].
    eexists. split; [reflexivity|].
    assert (Hlay : SL <> dynamic -> lay = SL).
    { intros Hn. unfold lay. apply layout_eqb_neq in Hn. rewrite Hn. cbn. apply Hl. apply layout_eqb_neq. exact Hn. }
    split; [|split; [exact Hlay|split; [reflexivity|intros _; reflexivity]]].
    apply dense_consistent; auto. apply Hrs. apply prod_nn. exact Hs.
  - apply orb_false_iff in E. destruct E as [E ->]. apply negb_false_iff, zlist_eqb_eq in E. subst sh.
    exists c. repeat split; auto; try apply Hc. discriminate.
Qed.

Lemma resize_forced (c : cont V) sh : lay_ok SL c -> is_shape sh ->
  exists c', c_resize SL DL rs c sh true = Ok c' /\ consistent c' /\ lay_ok SL c' /\ ct_shape c' = sh /\
    ct_layout c' = if layout_eqb SL dynamic && layout_eqb (ct_layout c) dynamic then DL else ct_layout c.
Proof.
  intros Hl Hs. unfold c_resize. rewrite orb_true_r.
  set (lay := if layout_eqb SL dynamic && layout_eqb (ct_layout c) dynamic then DL else ct_layout c).
  destruct (cs_dense SL lay sh) as (st & bs & E1 & H1 & H2 & H3). rewrite E1. cbn [bind].
  eexists. split; [reflexivity|].
  assert (Hlay : SL <> dynamic -> lay = SL).
  { intros Hn. unfold lay. apply layout_eqb_neq in Hn. rewrite Hn. cbn. apply Hl. apply layout_eqb_neq. exact Hn. }
  split; [|split; [exact Hlay|split; reflexivity]].
  apply dense_consistent; auto. apply Hrs. apply prod_nn. exact Hs.
Qed.

Lemma resize_layout_ok (c : cont V) sh l : is_shape sh ->
  (SL <> dynamic /\ l <> SL /\ c_resize_layout SL DL rs c sh l = Throw runtime_error) \/
  ((SL = dynamic \/ l = SL) /\ exists c', c_resize_layout SL DL rs c sh l = Ok c' /\ consistent c' /\ lay_ok SL c' /\ ct_shape c' = sh /\
     ct_layout c' = if layout_eqb SL dynamic && layout_eqb l dynamic then DL else l).
Proof.
  intros Hs. unfold c_resize_layout.
  destruct (layout_eqb SL dynamic) eqn:E1; cbn [negb andb].
  - right. apply layout_eqb_eq in E1. split; [auto|].
    destruct (resize_forced (mk_cont (ct_shape c) (ct_strides c) (ct_back c) l (ct_data c)) sh) as (c' & E & H); auto.
    + intros Hn. congruence.
    + exists c'. split; [exact E|]. subst SL. exact H.
  - apply layout_eqb_neq in E1. destruct (layout_eqb l SL) eqn:E2; cbn [negb].
    + apply layout_eqb_eq in E2. right. split; [auto|].
      destruct (resize_forced (mk_cont (ct_shape c) (ct_strides c) (ct_back c) l (ct_data c)) sh) as (c' & E & H); auto.
      * intros _. exact E2.
      * exists c'. split; [exact E|]. apply layout_eqb_neq in E1. rewrite E1 in H. exact H.
    + apply layout_eqb_neq in E2. left. auto.
Qed.

Lemma to_size_t_id s : Forall (fun d => 0 <= d < 2 ^ 64) s -> map to_size_t s = s.
Proof.
  induction 1 as [|d s H Hs IH]; [reflexivity|]. cbn [map]. rewrite IH. f_equal. apply Z.mod_small. exact H.
Qed.

Lemma set_shape_ok (c : cont V) s lay : consistent c -> (SL <> dynamic -> lay = SL) -> Forall (fun d => 0 <= d < 2 ^ 64) s ->
  prod s = prod (ct_shape c) ->
  exists c', c_set_shape SL c s lay = Ok c' /\ consistent c' /\ lay_ok SL c' /\ ct_shape c' = s /\
    ct_data c' = ct_data c /\ ct_layout c' = lay.
Proof.
  intros Hc Hl Hs Hp. unfold c_set_shape. rewrite to_size_t_id by exact Hs.
  destruct (cs_dense SL lay s) as (st & bs & E1 & H1 & H2 & H3). rewrite E1. cbn [bind].
  eexists. split; [reflexivity|]. repeat split; auto.
  - cbn. eapply Forall_impl; [|exact Hs]. cbn. lia.
  - cbn [ct_data ct_shape]. rewrite Hp. apply Hc.
  - exists (order_of SL lay). split; [apply order_of_order|]. split; [|exact H3].
    intros Ho. apply order_of_reported; assumption.
Qed.

(** C20, unsigned *)
Lemma reshape_unsigned_ok (c : cont V) s l : consistent c -> lay_ok SL c -> Forall (fun d => 0 <= d < 2 ^ 64) s ->
  let l' := if layout_eqb SL dynamic && layout_eqb l dynamic then DL else l in
  (prod s = prod (ct_shape c) /\ (SL = dynamic \/ l = SL) /\
   exists c', c_reshape_unsigned SL DL c s l = Ok c' /\ consistent c' /\ lay_ok SL c' /\ ct_shape c' = s /\
     ct_data c' = ct_data c /\ ct_layout c' = l') \/
  ((prod s <> prod (ct_shape c) \/ (SL <> dynamic /\ l <> SL)) /\ c_reshape_unsigned SL DL c s l = Throw runtime_error).
Proof.
  intros Hc Hl Hs l'. unfold c_reshape_unsigned. rewrite size_ok, compute_size_prod by exact Hc.
  destruct (Z.eqb_spec (prod s) (prod (ct_shape c))) as [E|E]; cbn [negb]; [|right; auto].
  fold l'. destruct (layout_eqb SL dynamic) eqn:E1; cbn [negb andb].
  - left. apply layout_eqb_eq in E1. split; [exact E|]. split; [auto|].
    apply set_shape_ok; auto. intros. congruence.
  - subst l'. cbn [andb]. destruct (layout_eqb l SL) eqn:E2; cbn [negb].
    + left. split; [exact E|]. apply layout_eqb_eq in E2. split; [auto|]. apply set_shape_ok; auto.
    + right. apply layout_eqb_neq in E1, E2. auto.
Qed.

Lemma neg_fold_pos : forall s acc neg i, Forall (fun d => 0 < d) s ->
  fold_left (fun '(acc, neg, i) d => (acc * d, if d <? 0 then i else neg, S i)) s (acc, neg, i) =
  (acc * prod s, neg, (i + length s)%nat).
Proof.
  induction s as [|d s IH]; intros acc neg i H; cbn [fold_left].
  - rewrite prod_nil. cbn [length]. rewrite Nat.add_0_r. f_equal. f_equal. lia.
  - inversion H; subst. destruct (Z.ltb_spec d 0); [lia|]. rewrite IH by assumption. rewrite prod_cons. cbn [length].
    replace (S i + length s)%nat with (i + S (length s))%nat by lia. f_equal. f_equal. lia.
Qed.

Lemma neg_loop_known s : all_known s -> neg_loop s = (prod s, 0%nat, length s).
Proof. intros H. unfold neg_loop. rewrite neg_fold_pos by exact H. f_equal. f_equal. lia. Qed.

Lemma neg_loop_one a b : Forall (fun d => 0 < d) a -> Forall (fun d => 0 < d) b ->
  neg_loop (a ++ (-1) :: b) = (- (prod a * prod b), length a, (length a + S (length b))%nat).
Proof.
  intros Ha Hb. unfold neg_loop. rewrite fold_left_app, neg_fold_pos by exact Ha. cbn [fold_left].
  rewrite neg_fold_pos by exact Hb. f_equal; [f_equal|]; cbn; lia.
Qed.

Lemma prod_pos' s : Forall (fun d => 0 < d) s -> 0 < prod s.
Proof. induction 1; [rewrite prod_nil; lia|rewrite prod_cons; nia]. Qed.

Lemma size_signed s : compute_size_signed s = Z.abs (prod s).
Proof. unfold compute_size_signed. change (fold_left Z.mul s 1) with (compute_size s). rewrite compute_size_prod. reflexivity. Qed.

Lemma filter_pos s : Forall (fun d => 0 < d) s -> filter (fun d => 0 <? d) s = s.
Proof.
  induction 1 as [|d s H Hs IH]; [reflexivity|]. cbn [filter]. destruct (Z.ltb_spec 0 d); [|lia]. rewrite IH. reflexivity.
Qed.
Lemma known_prod_one a b : Forall (fun d => 0 < d) a -> Forall (fun d => 0 < d) b ->
  known_prod (a ++ (-1) :: b) = prod a * prod b.
Proof.
  intros Ha Hb. unfold known_prod. rewrite filter_app. cbn [filter]. change (0 <? -1) with false. cbn iota.
  rewrite !filter_pos, prod_app by assumption. reflexivity.
Qed.
Lemma map_known k s : Forall (fun d => 0 < d) s -> map (fun d => if d =? -1 then k else d) s = s.
Proof.
  induction 1 as [|d s H Hs IH]; [reflexivity|]. cbn [map]. destruct (Z.eqb_spec d (-1)); [lia|]. rewrite IH. reflexivity.
Qed.
Lemma inferred_one size a b : Forall (fun d => 0 < d) a -> Forall (fun d => 0 < d) b ->
  inferred size (a ++ (-1) :: b) = a ++ size / (prod a * prod b) :: b.
Proof.
  intros Ha Hb. unfold inferred. rewrite known_prod_one by assumption. rewrite map_app. cbn [map].
  change (-1 =? -1) with true. cbn iota. rewrite !map_known by assumption. reflexivity.
Qed.

Lemma crem_ok a b : 0 <= a -> 0 < b -> crem a b = Ok (a mod b).
Proof. intros H1 H2. unfold crem. destruct (Z.eqb_spec b 0); [lia|]. rewrite Z.rem_mod_nonneg by lia. reflexivity. Qed.
Lemma cdiv_ok a b : 0 <= a -> 0 < b -> cdiv a b = Ok (a / b).
Proof. intros H1 H2. unfold cdiv. destruct (Z.eqb_spec b 0); [lia|]. rewrite Z.quot_div_nonneg by lia. reflexivity. Qed.

Lemma reshape_known_ok (c : cont V) s l : consistent c -> all_known s -> Forall (fun d => d < 2 ^ 63) s -> (SL <> dynamic -> l = SL) ->
  (prod s = prod (ct_shape c) /\
   exists c', c_reshape_signed SL c s l = Ok c' /\ consistent c' /\ lay_ok SL c' /\ ct_shape c' = s /\
     ct_data c' = ct_data c /\ ct_layout c' = l) \/
  (prod s <> prod (ct_shape c) /\ c_reshape_signed SL c s l = Throw runtime_error).
Proof.
  intros Hc Hs Hb Hl. unfold c_reshape_signed. rewrite size_ok, size_signed by exact Hc.
  pose proof (prod_pos' s Hs) as Hp. rewrite Z.abs_eq by lia.
  assert (Hn : 0 <= prod (ct_shape c)) by (apply prod_nn; apply Hc).
  rewrite crem_ok by lia. cbn [bind]. rewrite neg_loop_known by exact Hs. cbn iota beta.
  destruct (Z.ltb_spec (prod s) 0); [lia|].
  destruct (Z.eqb_spec (prod (ct_shape c) mod prod s) 0) as [E0|E0]; cbn [negb].
  - destruct (Z.eqb_spec (prod (ct_shape c)) (prod s)) as [E|E]; cbn [negb].
    + left. split; [auto|]. apply set_shape_ok; auto.
      unfold all_known in Hs. rewrite Forall_forall in *. intros d Hd. specialize (Hs d Hd). specialize (Hb d Hd).
      change (2 ^ 64) with (2 * 2 ^ 63). lia.
    + right. split; auto.
  - right. split; [|reflexivity]. intros E. apply E0. rewrite E. apply Z.mod_same. lia.
Qed.

Lemma reshape_unknown_ok (c : cont V) s l : consistent c -> one_unknown s -> Forall (fun d => d < 2 ^ 63) s -> (SL <> dynamic -> l = SL) ->
  prod (ct_shape c) < 2 ^ 64 ->
  ((known_prod s | prod (ct_shape c)) /\
   exists c', c_reshape_signed SL c s l = Ok c' /\ consistent c' /\ lay_ok SL c' /\
     ct_shape c' = inferred (prod (ct_shape c)) s /\ prod (ct_shape c') = prod (ct_shape c) /\
     ct_data c' = ct_data c /\ ct_layout c' = l) \/
  (~ (known_prod s | prod (ct_shape c)) /\ c_reshape_signed SL c s l = Throw runtime_error).
Proof.
  intros Hc (a & b & -> & Ha & Hb) Hlt Hl Hsz. unfold c_reshape_signed. rewrite size_ok, size_signed by exact Hc.
  pose proof (prod_pos' a Ha) as Pa. pose proof (prod_pos' b Hb) as Pb.
  assert (Hn : 0 <= prod (ct_shape c)) by (apply prod_nn; apply Hc).
  set (size := prod (ct_shape c)) in *.
  rewrite known_prod_one by assumption. set (k := prod a * prod b). assert (Hk : 0 < k) by (unfold k; nia).
  replace (Z.abs (prod (a ++ -1 :: b))) with k by (rewrite prod_app, prod_cons; unfold k; nia).
  rewrite crem_ok by lia. cbn [bind]. rewrite neg_loop_one by assumption. cbn iota beta. fold k.
  destruct (Z.eqb_spec (size mod k) 0) as [E0|E0]; cbn [negb].
  - destruct (Z.ltb_spec (- k) 0); [|lia]. rewrite Z.abs_opp, Z.abs_eq by lia. rewrite cdiv_ok by lia. cbn [bind].
    rewrite wr_ok by (rewrite app_length; cbn; lia). cbn [bind]. rewrite upd_mid by reflexivity.
    left. split; [apply Z.mod_divide; lia|]. rewrite inferred_one by assumption. fold k.
    assert (Hq : k * (size / k) = size) by (rewrite (Z.div_mod size k) at 2; lia).
    assert (HP : prod (a ++ size / k :: b) = size) by (rewrite prod_app, prod_cons; transitivity (k * (size / k)); [unfold k at 2; ring|exact Hq]).
    destruct (set_shape_ok c (a ++ size / k :: b) l Hc Hl) as (c' & E & Hc' & Hl' & Hsh & Hd & Hly); auto.
    + apply Forall_app in Hlt. destruct Hlt as [La Lb]. inversion Lb; subst.
      assert (0 <= size / k <= size) by (split; [apply Z.div_pos; lia|apply Z.div_le_upper_bound; nia]).
      assert (2 ^ 63 < 2 ^ 64) by (apply Z.pow_lt_mono_r; lia).
      apply Forall_app. split; [|constructor; [lia|]].
      * rewrite Forall_forall in *. intros d Hd. specialize (Ha d Hd). specialize (La d Hd). cbn beta in *. lia.
      * rewrite Forall_forall in *. intros d Hd. match goal with H : forall x, In x b -> x < _ |- _ => specialize (H d Hd) end.
        specialize (Hb d Hd). cbn beta in *. lia.
    + exists c'. rewrite Hsh. repeat split; auto; try apply Hc'.
  - right. split; [|reflexivity]. intros D. apply E0. apply Z.mod_divide; [lia|exact D].
Qed.

Lemma step_ok (c : cont V) o : consistent c -> lay_ok SL c -> op_ok SL c o ->
  exists c', c_step SL DL rs c o = Ok c' /\ consistent c' /\ lay_ok SL c'.
Proof.
  intros Hc Hl Ho. unfold c_step. destruct o as [s f|s l|s st|s l|s l|c2|ix v]; cbn [c_do op_ok] in *.
  - destruct (resize_ok c s f Hc Hl Ho) as (c' & E & H1 & H2 & _). rewrite E. eauto.
  - destruct (resize_layout_ok c s l Ho) as [(_ & _ & E)|(_ & c' & E & H1 & H2 & _)]; rewrite E; eauto.
  - contradiction.
  - destruct (reshape_unsigned_ok c s l Hc Hl Ho) as [(_ & _ & c' & E & H1 & H2 & _)|[_ E]]; rewrite E; eauto.
  - destruct Ho as ([Hk|Hk] & Hb & Hsz & Hly).
    + destruct (reshape_known_ok c s l Hc Hk Hb Hly) as [(_ & c' & E & H1 & H2 & _)|[_ E]]; rewrite E; eauto.
    + destruct (reshape_unknown_ok c s l Hc Hk Hb Hly Hsz) as [(_ & c' & E & H1 & H2 & _)|[_ E]]; rewrite E; eauto.
  - destruct Ho. eauto.
  - pose proof (consistent_accesses c Hc ix Ho) as Hi. rewrite wrz_ok by lia. cbn [bind].
    eexists. split; [reflexivity|]. split; [|exact Hl].
    destruct Hc as (H1 & H2 & H3 & H4 & H5). repeat split; cbn; auto. rewrite upd_length. exact H4.
Qed.

Lemma history_lemma : forall os c, consistent c -> lay_ok SL c -> history_ok SL DL rs c os ->
  exists c', c_run SL DL rs c os = Ok c' /\ consistent c' /\ accesses_inside c'.
Proof.
  induction os as [|o os IH]; intros c Hc Hl Ho; cbn [c_run history_ok] in *.
  - exists c. split; [reflexivity|]. split; [exact Hc|apply consistent_accesses; exact Hc].
  - destruct Ho as [H1 H2]. destruct (step_ok c o Hc Hl H1) as (c' & E & Hc' & Hl'). rewrite E. cbn [bind].
    apply IH; auto.
Qed.

Lemma default_consistent n v : consistent (c_default SL n v) /\ lay_ok SL (@c_default V SL n v).
Proof.
  split; [|intros _; reflexivity]. unfold c_default. split; [|split; [|split; [|split]]]; cbn [ct_shape ct_strides ct_back ct_data ct_layout].
  - unfold is_shape. apply Forall_forall. intros x Hx. apply repeat_spec in Hx. lia.
  - rewrite repeat_length. reflexivity.
  - rewrite repeat_length. reflexivity.
  - destruct n; [reflexivity|]. cbn [repeat length Nat.eqb]. rewrite prod_cons. reflexivity.
  - exists (order_of SL SL). split; [apply order_of_order|]. split; [intros Ho; apply order_of_reported; auto|].
    intros ix Hix. destruct n as [|n]; cbn [repeat] in Hix.
    + inversion Hix; subst. unfold rank, order_of. destruct (_ || _); reflexivity.
    + inversion Hix; subst. lia.
Qed.
End Cont.

Lemma same_sequence_of {V} (c c' : cont V) : consistent c -> consistent c' -> ct_data c' = ct_data c -> same_sequence c c'.
Proof.
  intros (_ & _ & _ & _ & l1 & _ & L1 & E1) (_ & _ & _ & _ & l2 & _ & L2 & E2) D. split; [exact D|].
  intros ix ix' El Ho H1 H2 R. unfold elt. rewrite D, E1, E2 by assumption. rewrite L1 by assumption.
  rewrite L2 by (rewrite El; assumption). rewrite El, R. reflexivity.
Qed.

Section Final.
Context {V : Type} (SL DL : layout).

Lemma reshape_unsigned_lemma : forall (c : cont V) s l,
  consistent c -> (SL <> dynamic -> ct_layout c = SL) -> Forall (fun d => 0 <= d < 2 ^ 64) s ->
  (prod s = prod (ct_shape c) -> SL = dynamic \/ l = SL ->
    exists c', c_reshape_unsigned SL DL c s l = Ok c' /\ ct_shape c' = s /\ consistent c' /\ same_sequence c c' /\
      ct_layout c' = match SL, l with dynamic, dynamic => DL | _, _ => l end) /\
  (prod s <> prod (ct_shape c) \/ (SL <> dynamic /\ l <> SL) ->
    c_reshape_unsigned SL DL c s l = Throw runtime_error).
Proof.
  intros c s l Hc Hl Hs.
  destruct (reshape_unsigned_ok SL DL c s l Hc Hl Hs) as [(E & EL & c' & R & Hc' & _ & H1 & H2 & H3)|[Hne R]].
  - split.
    + intros _ _. exists c'. repeat split; auto; try apply Hc'; try (apply same_sequence_of; assumption).
      rewrite H3. destruct SL, l; reflexivity.
    + intros [H|[H H']]; [congruence|]. destruct EL; congruence.
  - split; [|auto]. intros E EL. destruct Hne as [H|[H H']]; [congruence|]. destruct EL; congruence.
Qed.

Lemma reshape_signed_lemma : forall (c : cont V) s l,
  consistent c -> Forall (fun d => d < 2 ^ 63) s -> prod (ct_shape c) < 2 ^ 64 -> (SL <> dynamic -> l = SL) ->
  (all_known s ->
    (prod s = prod (ct_shape c) ->
      exists c', c_reshape_signed SL c s l = Ok c' /\ ct_shape c' = s /\ consistent c' /\ same_sequence c c' /\ ct_layout c' = l) /\
    (prod s <> prod (ct_shape c) -> c_reshape_signed SL c s l = Throw runtime_error)) /\
  (one_unknown s ->
    ((known_prod s | prod (ct_shape c)) ->
      exists c', c_reshape_signed SL c s l = Ok c' /\ ct_shape c' = inferred (prod (ct_shape c)) s /\
        prod (ct_shape c') = prod (ct_shape c) /\ consistent c' /\ same_sequence c c' /\ ct_layout c' = l) /\
    (~ (known_prod s | prod (ct_shape c)) -> c_reshape_signed SL c s l = Throw runtime_error)).
Proof.
  intros c s l Hc Hb Hz Hl. split; intros Hk.
  - destruct (reshape_known_ok SL c s l Hc Hk Hb Hl) as [(E & c' & R & Hc' & _ & H1 & H2 & H3)|[Hne R]].
    + split; [|tauto]. intros _. exists c'. repeat split; auto; try apply Hc'; apply same_sequence_of; assumption.
    + split; [tauto|auto].
  - destruct (reshape_unknown_ok SL c s l Hc Hk Hb Hl Hz) as [(E & c' & R & Hc' & _ & H1 & H4 & H2 & H3)|[Hne R]].
    + split; [|tauto]. intros _. exists c'. repeat split; auto; try apply Hc'; apply same_sequence_of; assumption.
    + split; [tauto|auto].
Qed.
End Final.

Lemma resize_lemma : forall (V : Type) (SL DL : layout) (rs : list V -> Z -> list V) (c : cont V) sh force,
  (forall d n, 0 <= n -> Z.of_nat (length (rs d n)) = n) ->
  consistent c -> (SL <> dynamic -> ct_layout c = SL) -> is_shape sh ->
  exists c', c_resize SL DL rs c sh force = Ok c' /\ consistent c' /\ ct_shape c' = sh /\
    (sh = ct_shape c -> force = false -> c' = c) /\
    (is_order (ct_layout c) -> ct_layout c' = ct_layout c).
Proof.
  intros V SL DL rs c sh force Hrs Hc Hl Hs. destruct force.
  - destruct (resize_forced SL DL rs Hrs c sh Hl Hs) as (c' & E & H1 & H2 & H3 & H4). exists c'.
    split; [exact E|]. split; [exact H1|]. split; [exact H3|]. split; [discriminate|].
    intros Ho. rewrite H4. destruct Ho as [-> | ->]; rewrite andb_false_r; reflexivity.
  - destruct (zlist_eqb sh (ct_shape c)) eqn:E0.
    + exists c. unfold c_resize. rewrite E0. cbn. apply zlist_eqb_eq in E0. repeat split; auto; apply Hc.
    + destruct (resize_forced SL DL rs Hrs c sh Hl Hs) as (c' & E & H1 & H2 & H3 & H4). exists c'.
      split; [rewrite <- E; unfold c_resize; rewrite E0; reflexivity|]. split; [exact H1|]. split; [exact H3|]. split.
      * intros Eq _. apply zlist_eqb_eq in Eq. congruence.
      * intros Ho. rewrite H4. destruct Ho as [-> | ->]; rewrite andb_false_r; reflexivity.
Qed.

Lemma history_full_lemma : forall (V : Type) (SL DL : layout) (rs : list V -> Z -> list V) (n : nat) (v : V) os,
  (forall d n, 0 <= n -> Z.of_nat (length (rs d n)) = n) ->
  history_ok SL DL rs (c_default SL n v) os ->
  exists c, c_run SL DL rs (c_default SL n v) os = Ok c /\ consistent c /\ accesses_inside c.
Proof.
  intros V SL DL rs n v os Hrs Ho. destruct (default_consistent (V := V) SL n v) as [H1 H2].
  apply history_lemma; auto.
Qed.

(** Counterexamples. *)
Definition ck (s : list Z) (l : layout) (d : list Z) : cont Z :=
  match compute_strides l s l (repeat 0 (length s)) (Some (repeat 0 (length s))) with
  | Ok (st, Some bs, _) => mk_cont s st bs l d
  | _ => mk_cont s [] [] l d
  end.

Lemma ck_consistent s l d : is_shape s -> is_order l -> Z.of_nat (length d) = prod s -> consistent (ck s l d).
Proof.
  intros Hs Hl Hd. unfold ck. destruct (cs_dense l l s) as (st & bs & E & H1 & H2 & H3). rewrite E.
  apply dense_consistent with (SL := l); auto.
Qed.

Lemma reshape_zero_refuted_lemma : exists (c : cont Z) s,
  consistent c /\ is_shape s /\ prod s = prod (ct_shape c) /\ c_reshape_signed row_major c s row_major = UB.
Proof.
  exists (ck [0;3] row_major []), [3;0].
  split; [apply ck_consistent; [repeat constructor; lia|left; reflexivity|reflexivity]|].
  split; [repeat constructor; lia|]. split; reflexivity.
Qed.

Lemma reshape_bad_shape_refuted_lemma : exists (c c1 c2 : cont Z),
  consistent c /\ prod (ct_shape c) = 8 /\
  c_reshape_signed row_major c [-2;4] row_major = Ok c1 /\ ct_shape c1 = [1;4] /\ prod (ct_shape c1) <> 8 /\
  c_reshape_signed row_major c [-1;-1;8] row_major = Ok c2 /\ ~ accesses_inside c2.
Proof.
  exists (ck [8] row_major [1;2;3;4;5;6;7;8]). do 2 eexists.
  split; [apply ck_consistent; [repeat constructor; lia|left; reflexivity|reflexivity]|].
  split; [reflexivity|]. split; [vm_compute; reflexivity|]. split; [reflexivity|]. split; [cbn; discriminate|].
  split; [vm_compute; reflexivity|].
  intros H. assert (Hb : in_bounds [18446744073709551615; 18446744073709551615; 8] [1;1;0])
    by (repeat constructor; lia).
  specialize (H [1;1;0] Hb). vm_compute in H. destruct H as [_ H]. discriminate H.
Qed.

Lemma reshape_layout_refuted_lemma :
  (exists (c c' : cont Z), consistent c /\ ct_layout c = row_major /\
     c_reshape_signed row_major c [2;3] column_major = Ok c' /\ ct_layout c' = column_major /\
     element_offset (ct_strides c') [1;0] <> rank column_major (ct_shape c') [1;0]) /\
  (exists (c c' : cont Z), consistent c /\ c_reshape_unsigned dynamic row_major c [2;3] dynamic = Ok c /\
     c_reshape_signed dynamic c [2;3] dynamic = Ok c' /\ ct_layout c = row_major /\ ct_layout c' = dynamic /\
     elt c [0;1] = Ok 2 /\ elt c' [0;1] = Ok 3).
Proof.
  split.
  - exists (ck [6] row_major [1;2;3;4;5;6]). eexists.
    split; [apply ck_consistent; [repeat constructor; lia|left; reflexivity|reflexivity]|].
    split; [reflexivity|]. split; [vm_compute; reflexivity|]. split; [reflexivity|]. vm_compute. discriminate.
  - exists (ck [2;3] row_major [1;2;3;4;5;6]). eexists.
    split; [apply ck_consistent; [repeat constructor; lia|left; reflexivity|reflexivity]|].
    split; [vm_compute; reflexivity|]. split; [vm_compute; reflexivity|]. repeat split; vm_compute; reflexivity.
Qed.

Lemma custom_strides_refuted_lemma : exists (rs : list Z -> Z -> list Z) (c : cont Z),
  (forall d n, 0 <= n -> Z.of_nat (length (rs d n)) = n) /\
  c_run dynamic row_major rs (c_default dynamic 0 0) [C_resize_strides [2;2] [4;1]] = Ok c /\
  ct_strides c = [4;1] /\ ~ accesses_inside c /\ elt c [1;1] = UB.
Proof.
  exists (fun _ n => repeat 0 (Z.to_nat n)). eexists. split; [intros d n Hn; rewrite repeat_length; lia|].
  split; [vm_compute; reflexivity|]. split; [reflexivity|]. split; [|vm_compute; reflexivity].
  intros H. assert (Hb : in_bounds [2;2] [1;1]) by (repeat constructor; lia).
  specialize (H [1;1] Hb). vm_compute in H. destruct H as [_ H]. discriminate H.
Qed.
