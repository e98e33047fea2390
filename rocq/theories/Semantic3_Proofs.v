(** Proofs about the assignment operators of containers, continued. *)
From Coq Require Import List ZArith Bool Lia.
From Verif Require Import Prelude PreludeFacts Strides_Model Strides_Spec Strides_Proofs Broadcast_Model Broadcast_Spec
  Broadcast_Proofs Broadcast2_Proofs Layout_Model Slice_Model Access_Model
  Stepper_Model Stepper_Spec Stepper_Proofs Stepper3_Proofs Stepper4_Proofs Container_Model Container_Spec Container_Proofs
  Assign_Model Assign_Spec Assign_Proofs Assign2_Proofs Assign6_Proofs Assign7_Proofs Semantic_Model Semantic_Spec Semantic_Proofs
  Semantic2_Proofs.
Import ListNotations.
Open Scope Z_scope.

Lemma frozen_valid {V} g (mem mem' : list V) e : valid_operands g mem e -> valid_operands g mem' (frozen mem e).
Proof.
  intros (H1 & H2 & H3 & H4 & _). unfold valid_operands. rewrite frozen_inst. split; [exact H1|]. split; [exact H2|].
  split; [apply frozen_leaves; exact H3|]. split; [intros n; apply frozen_leaves; apply H4|apply frozen_pure].
Qed.
Lemma frozen_shapes {V} (mem : list V) e : operand_shapes (frozen mem e) = operand_shapes e.
Proof. unfold operand_shapes. rewrite frozen_expr. reflexivity. Qed.

Section C.
Context {V : Type} (g : Z -> setup) (SL : layout) (D : option nat) (DL : layout) (rs : list V -> Z -> list V) (v : V).
Hypothesis Hg : setups_ok g.
Hypothesis HDL : is_order DL.
Hypothesis Hrs : resizes rs.

(** Assigning an expression that does not involve the destination. *)
Lemma c_assign_closed (a : cont V) e mem0 : well_formed SL D a -> valid_operands g mem0 e -> closed e -> rank_matches D e ->
  compatible (operand_shapes e) ->
  exists a', (forall r, c_assign_xexpression g SL D DL rs a e r <-> r = Done a') /\ well_formed SL D a' /\ holds_value mem0 e a'.
Proof.
  intros Hw Hv Hc HD Hcomp. pose proof (valid_real _ _ _ Hv) as Hreal.
  destruct (proj1 (rhs_shape_ok e Hreal) Hcomp) as (sh & t & E & Hb & Ht).
  assert (Hsh : is_shape sh) by (apply real_is_shape; eapply broadcast_is_shape; eassumption).
  assert (HD' : match D with Some n => length sh = n | None => True end) by (destruct D; [apply HD; exact Hb|exact I]).
  destruct (resize_wf SL D DL rs Hrs HDL a sh Hw Hsh HD') as (a1 & E1 & Hw1 & Es1).
  destruct Hv as (V1 & V2 & V3 & V4 & V5).
  assert (Hop : operands_ok (ct_shape a1) (inst (ct_data a1) e)).
  { apply operands_inst with (mem1 := mem0). apply operands_fit; [|exact V1]. intros s Hs. rewrite Es1. eapply broadcast_fits; eassumption. }
  destruct (c_assign_data_ok g SL D a1 e t Hg Hw1 Hop) as (a' & Hiff & Hw' & Es' & Hval).
  - eapply closed_storage; eassumption.
  - exact V3.
  - exact V4.
  - intros Htt. rewrite Es1. apply (leaves_shapes e (fun s => s = sh)). auto.
  - apply closed_elementwise; assumption.
  - exists a'. split; [|split; [exact Hw'|]].
    + intros r. unfold c_assign_xexpression. rewrite E, E1. rewrite rebind_closed by assumption. apply Hiff.
    + split; [rewrite Es', Es1; exact Hb|]. intros ix Hix. rewrite Es' in Hix. destruct (Hval ix Hix) as (x & X1 & X2).
      exists x. split; [|exact X2]. rewrite <- X1. apply closed_value; assumption.
Qed.

Lemma c_construct_ok mem e : SL <> any -> valid_operands g mem e -> rank_matches D e -> compatible (operand_shapes e) ->
  exists t, (forall r, c_construct g SL D DL rs v (frozen mem e) r <-> r = Done t) /\ well_formed SL D t /\ holds_value mem e t.
Proof.
  intros HSL Hv HD Hc.
  destruct (c_assign_closed (c_fresh SL D v) (frozen mem e) []) as (t & Hiff & Hw & (Hb & Hval)).
  - apply fresh_wf. exact HSL.
  - apply frozen_valid. exact Hv.
  - apply frozen_closed.
  - unfold rank_matches in *. rewrite frozen_shapes. exact HD.
  - rewrite frozen_shapes. exact Hc.
  - exists t. split; [exact Hiff|]. split; [exact Hw|]. split; [rewrite frozen_shapes in Hb; exact Hb|].
    intros ix Hix. rewrite <- (frozen_inst mem []). apply Hval. exact Hix.
Qed.

Lemma own_leaves_imp mem (P R : container -> Prop) (Q : list Z -> sexp V -> Prop) e :
  own_leaves P e -> all_leaves Q (inst mem e) -> (forall c, P c -> Q (k_shape c) (XStrided c mem) -> R c) -> own_leaves R e.
Proof.
  intros H1 H2 H. induction e as [x|m k [s|]|s f|f args IH] using aexp_ind'; cbn in *; auto.
  apply fr_and. apply fr_and in H1. apply fr_and in H2. rewrite Forall_map in H2. rewrite Forall_forall in *. intros x Hx. auto.
Qed.
Lemma own_none_closed (e : aexp V) : own_leaves (fun _ => False) e -> closed e.
Proof.
  induction e as [x|m k [s|]|s f|f args IH] using aexp_ind'; cbn; auto.
  rewrite !fr_and, !Forall_forall. rewrite Forall_forall in IH. auto.
Qed.

Lemma own_leaves_true (e : aexp V) : own_leaves (fun _ => True) e.
Proof.
  induction e as [x|m k [s|]|s f|f args IH] using aexp_ind'; cbn; auto. apply fr_and. assumption.
Qed.

Lemma rank_max l sh : Forall (fun d => 0 < d) sh -> rank l sh (map (fun d => d - 1) sh) = prod sh - 1.
Proof.
  intros H. assert (R : row_pos sh (map (fun d => d - 1) sh) = prod sh - 1).
  { rewrite row_col_rev by (rewrite map_length; reflexivity). rewrite <- map_rev, col_pos_max, prod_rev. reflexivity. }
  destruct l; cbn; try apply col_pos_max. exact R.
Qed.

(** A container overlaps every non-empty operand on its own storage. *)
Lemma wf_overlap (a : cont V) (k : container) : well_formed SL D a -> prod (ct_shape a) <> 0 -> is_shape (k_shape k) -> prod (k_shape k) <> 0 ->
  strided_ok k -> (forall ix, in_bounds (k_shape k) ix -> 0 <= k_begin k + dot ix (k_strides k) < Z.of_nat (length (ct_data a))) ->
  ~ apart (Z.min (addr_first (c_strided a)) (addr_last (c_strided a)), Z.max (addr_first (c_strided a)) (addr_last (c_strided a))) k.
Proof.
  intros Hw H0 Hks Hk0 Hkst Hin Hap. pose proof Hw as (Hs & Hst & Hlen & _ & _ & _ & _ & l & _ & _ & Hr).
  assert (Hp : Forall (fun d => 0 < d) (ct_shape a)) by (apply prod_nonneg_pos; [exact Hs|pose proof (prod_nn _ Hs); lia]).
  assert (Hkp : Forall (fun d => 0 < d) (k_shape k)) by (apply prod_nonneg_pos; [exact Hks|pose proof (prod_nn _ Hks); lia]).
  pose proof (Hin _ (zeros_in_bounds _ Hkp)) as B1. pose proof (Hin _ (max_in_bounds _ Hkp)) as B2.
  fold (position k (repeat 0 (length (k_shape k)))) in B1. rewrite <- addr_first_position in B1.
  fold (position k (map (fun d => d - 1) (k_shape k))) in B2. rewrite <- addr_last_position in B2 by assumption.
  assert (L : addr_last (c_strided a) = prod (ct_shape a) - 1).
  { rewrite addr_last_position by assumption. unfold position. cbn. rewrite Hr by (apply max_in_bounds; assumption).
    rewrite rank_max by assumption. reflexivity. }
  assert (F : addr_first (c_strided a) = 0) by reflexivity.
  unfold apart in Hap. cbn in Hap. lia.
Qed.

Lemma expr_overlaps_empty r (e : aexp V) sh t : rhs_shape e = Ok (sh, t) -> prod sh = 0 -> expr_overlaps r e = Ok false.
Proof.
  destruct e as [x|m k [b|]|s f|f args]; cbn [rhs_shape expr_overlaps]; intros E H0; try reflexivity.
  - injection E as -> _. rewrite compute_size_prod, H0. reflexivity.
  - rewrite E. cbn [bind]. rewrite compute_size_prod, H0. reflexivity.
Qed.
Lemma expr_overlaps_throw r (e : aexp V) x : rhs_shape e = Throw x -> expr_overlaps r e = Throw x.
Proof. destruct e as [y|m k [b|]|s f|f args]; cbn [rhs_shape expr_overlaps]; try discriminate. intros ->. reflexivity. Qed.

Lemma same_container_dim c1 c2 : same_container c1 c2 = true -> k_strides c1 = k_strides c2.
Proof. unfold same_container. rewrite !andb_true_iff. intros [[[_ H] _] _]. apply zlist_eqb_eq. assumption. Qed.

Lemma rebind_dims n (a a' : cont V) e : (length (ct_strides a') <= n)%nat -> leaves_ok (fun _ k => (length (k_strides k) <= n)%nat) e ->
  leaves_ok (fun _ k => (length (k_strides k) <= n)%nat) (rebind SL D a a' e).
Proof.
  intros H. induction e as [y|m k [b|]|s f|f args IH] using aexp_ind'; cbn; auto.
  - destruct (same_container k (c_strided a)); cbn; auto.
  - rewrite !fr_and, Forall_map, !Forall_forall. rewrite Forall_forall in IH. auto.
Qed.
Lemma leaf_dims mem (e : aexp V) sh : (forall s, In s (operand_shapes e) -> fits s sh) ->
  all_leaves (fun s leaf => real_shape s /\
    match leaf with XStrided c _ => strided_ok c | XIndexed _ _ => s <> [] | _ => True end) (inst mem e) ->
  leaves_ok (fun _ k => (length (k_strides k) <= length sh)%nat) e.
Proof.
  unfold operand_shapes. induction e as [y|m k src|s f|f args IH] using aexp_ind'; cbn; auto.
  - intros Hf [_ (E & _)]. rewrite E. apply Hf. left. reflexivity.
  - rewrite !fr_and, Forall_map, !Forall_forall. rewrite Forall_forall in IH. intros Hf H x Hx. apply IH; auto.
    intros s Hs. apply Hf. apply in_flat_map. exists (a_expr x). split; [apply in_map; assumption|assumption].
Qed.
Lemma empty_no_index sh ix : prod sh = 0 -> in_bounds sh ix -> False.
Proof. intros H Hb. pose proof (row_pos_bound _ _ Hb). lia. Qed.

(** The direct assignment when nothing is assigned. *)
Lemma c_assign_empty (a : cont V) e mem sh t : well_formed SL D a -> valid_operands g mem e -> rank_matches D e ->
  rhs_shape e = Ok (sh, t) -> broadcast_of (operand_shapes e) sh -> prod sh = 0 ->
  exists a', (forall r, c_assign_xexpression g SL D DL rs a e r <-> r = Done a') /\ well_formed SL D a' /\ holds_value mem e a'.
Proof.
  intros Hw Hv HD E Hb H0. pose proof (valid_real _ _ _ Hv) as Hreal.
  assert (Hsh : is_shape sh) by (apply real_is_shape; eapply broadcast_is_shape; eassumption).
  assert (HD' : match D with Some n => length sh = n | None => True end) by (destruct D; [apply HD; exact Hb|exact I]).
  destruct (resize_wf SL D DL rs Hrs HDL a sh Hw Hsh HD') as (a1 & E1 & Hw1 & Es1).
  exists a1. split; [|split; [exact Hw1|]].
  - intros r. unfold c_assign_xexpression. rewrite E, E1. unfold c_assign_data.
    pose proof Hw1 as (_ & (L1 & _) & _).
    assert (Hm : forall d, assign_data (g (compute_size (ct_shape a1))) (c_meta SL D a1) (c_strided a1) (rebind SL D a a1 e) t (ct_data a1) d <-> d = Ok (ct_data a1)).
    { intros d. apply assign_empty; cbn.
      - rewrite Es1. exact Hsh.
      - rewrite Es1. exact H0.
      - rewrite compute_size_prod, Es1, H0. apply Hg. lia.
      - cbn in L1. rewrite L1, Es1. apply rebind_dims; [rewrite L1, Es1; lia|]. eapply leaf_dims; [|apply Hv].
        intros s Hs. eapply broadcast_fits; eassumption. }
    split.
    + intros (d & Hd & ->). apply Hm in Hd. subst d. destruct a1; reflexivity.
    + intros ->. exists (Ok (ct_data a1)). split; [apply Hm; reflexivity|destruct a1; reflexivity].
  - split; [rewrite Es1; exact Hb|]. intros ix Hix. rewrite Es1 in Hix. exfalso. eapply empty_no_index; eassumption.
Qed.

Lemma operator_assign_ok (a : cont V) e : well_formed SL D a -> valid_operands g (ct_data a) e -> rank_matches D e ->
  (compatible (operand_shapes e) ->
     exists a', (forall r, c_operator_assign g SL D DL rs v a e r <-> r = Done a') /\ well_formed SL D a' /\ holds_value (ct_data a) e a') /\
  (~ compatible (operand_shapes e) -> forall r, c_operator_assign g SL D DL rs v a e r <-> r = Threw broadcast_error a).
Proof.
  intros Hw Hv HD. pose proof (valid_real _ _ _ Hv) as Hreal. pose proof Hw as (Hs & Hst & Hlen & HSL & _). split.
  - intros Hcomp. destruct (proj1 (rhs_shape_ok e Hreal) Hcomp) as (sh & t & E & Hb & Ht).
    assert (Hsh : is_shape sh) by (apply real_is_shape; eapply broadcast_is_shape; eassumption).
    assert (Hfit : forall s, In s (operand_shapes e) -> fits s sh) by (intros s Hin; eapply broadcast_fits; eassumption).
    destruct (Z.eq_dec (prod sh) 0) as [H0|H0].
    + destruct (c_assign_empty a e (ct_data a) sh t Hw Hv HD E Hb H0) as (a' & Hiff & H').
      exists a'. split; [|exact H']. intros r. unfold c_operator_assign, check_overlap.
      destruct (dst_range (c_strided a)) as [rg|]; [rewrite (expr_overlaps_empty rg e sh t E H0)|]; apply Hiff.
    + assert (Hnone : closed e -> exists a', (forall r, c_assign_xexpression g SL D DL rs a e r <-> r = Done a') /\ well_formed SL D a' /\ holds_value (ct_data a) e a').
      { intros Hc. apply c_assign_closed; assumption. }
      assert (Hall : all_leaves (fun s leaf => fits s sh /\ (real_shape s /\ match leaf with XStrided c _ => strided_ok c | XIndexed _ _ => s <> [] | _ => True end) /\
                match leaf with XStrided c buf => forall ix, in_bounds (k_shape c) ix -> 0 <= k_begin c + dot ix (k_strides c) < Z.of_nat (length buf) | _ => True end) (inst (ct_data a) e)).
      { eapply all_leaves_shapes with (P := fun s => fits s sh); [|apply Forall_forall; exact Hfit].
        destruct Hv as (V1 & V2 & _). clear - V1 V2. unfold storage_ok in V2. revert V1 V2. generalize (inst (ct_data a) e). intros x.
        induction x as [y|c b|s f|f args IH] using sexp_ind'; cbn; auto.
        rewrite !fr_and, !Forall_forall. rewrite Forall_forall in IH. auto. }
      unfold c_operator_assign, check_overlap. destruct (Z.eq_dec (prod (ct_shape a)) 0) as [Ha0|Ha0].
      * assert (dst_range (c_strided a) = None) as ->.
        { unfold dst_range. rewrite compute_size_prod. cbn [c_strided k_shape]. rewrite Ha0. reflexivity. }
        apply Hnone. apply own_none_closed. eapply own_leaves_imp with (P := fun _ => True); [apply own_leaves_true|exact Hall|].
        cbn. intros c _ (Hf & (Hr & _) & Hin).
        assert (Hc0 : prod (k_shape c) <> 0) by (intros Hz; apply H0; eapply fits_zero; [apply real_is_shape; exact Hr|exact Hf|exact Hz]).
        assert (Hkp : Forall (fun d => 0 < d) (k_shape c)) by (apply prod_nonneg_pos; [apply real_is_shape; exact Hr|pose proof (prod_nn _ (real_is_shape _ Hr)); lia]).
        pose proof (Hin _ (zeros_in_bounds _ Hkp)). lia.
      * rewrite (dst_range_some (c_strided a)) by assumption. set (rg := (_, _)).
        destruct (expr_overlaps_ok rg e sh) as (b & Eb & Hbf); auto.
        { unfold rg. cbn. lia. }
        rewrite Eb. destruct b.
        -- destruct (c_construct_ok (ct_data a) e HSL Hv HD Hcomp) as (tmp & Hiff & Hwt & Hval).
           exists tmp. split; [|auto]. intros r. split.
           ++ intros (x & Hx & ->). apply Hiff in Hx. subst x. reflexivity.
           ++ intros ->. exists (Done tmp). split; [apply Hiff; reflexivity|reflexivity].
        -- apply Hnone. apply own_none_closed. eapply own_leaves_imp; [apply Hbf; reflexivity|exact Hall|].
           cbn. intros c Hap (Hf & (Hr & Hso) & Hin).
           assert (Hc0 : prod (k_shape c) <> 0) by (intros Hz; apply H0; eapply fits_zero; [apply real_is_shape; exact Hr|exact Hf|exact Hz]).
           eapply wf_overlap; [exact Hw|exact Ha0|apply real_is_shape; exact Hr|exact Hc0|exact Hso|exact Hin|exact Hap].
  - intros Hn. pose proof (proj2 (rhs_shape_ok e Hreal) Hn) as E. intros r. unfold c_operator_assign, check_overlap.
    destruct (dst_range (c_strided a)) as [rg|].
    + rewrite (expr_overlaps_throw rg e _ E). tauto.
    + unfold c_assign_xexpression. rewrite E. tauto.
Qed.

(** ** Computed assignment *)
Lemma bc_index_self sh ix : in_bounds sh ix -> bc_index sh ix = ix.
Proof.
  intros H. unfold bc_index. rewrite (in_bounds_length _ _ H), Nat.sub_diag. cbn [skipn].
  induction H as [|d i sh ix H1 H2 IH]; cbn; [reflexivity|]. f_equal; [|exact IH].
  destruct (d =? 1) eqn:E; [apply Z.eqb_eq in E; lia|reflexivity].
Qed.

Lemma resize_layout_wf sh : SL <> any -> is_shape sh -> match D with Some n => length sh = n | None => True end ->
  exists a', c_resize_layout SL DL rs (c_fresh SL D v) sh SL = Ok a' /\ well_formed SL D a' /\ ct_shape a' = sh.
Proof.
  intros HSL Hs HD. unfold c_resize_layout. rewrite layout_eqb_refl. cbn [negb]. rewrite andb_false_r.
  unfold c_resize. rewrite orb_true_r. cbn [ct_layout ct_data].
  set (lay := if layout_eqb SL dynamic && layout_eqb SL dynamic then DL else SL).
  assert (Hl1 : SL <> dynamic -> lay = SL).
  { intros Hn. unfold lay. apply layout_eqb_neq in Hn. rewrite Hn. reflexivity. }
  assert (Hl2 : lay <> any).
  { unfold lay. destruct (_ && _); [apply order_not_any; exact HDL|exact HSL]. }
  destruct (cs_strided SL lay sh) as (st & bs & E' & _). rewrite E'. cbn [bind].
  eexists. split; [reflexivity|]. split; [|reflexivity].
  eapply resize_any_wf; eauto. apply Hrs. apply prod_nn. exact Hs.
Qed.

Lemma lex_greater_eq : forall sh s, length s = length sh ->
  (forall j, (j < length sh)%nat -> nth j s 0 = 1 \/ nth j s 0 = nth j sh 0) ->
  (forall j, (j < length sh)%nat -> nth j sh 0 = 0 -> nth j s 0 = 0) -> is_shape sh ->
  lex_greater sh s = false -> sh = s.
Proof.
  induction sh as [|x sh IH]; intros [|y s] Hl H1 H2 Hs; cbn in *; try lia; [reflexivity|]. inversion Hs; subst.
  destruct (y <? x) eqn:E1; [discriminate|]. apply Z.ltb_ge in E1. intros E.
  destruct (H1 0%nat ltac:(lia)) as [Hy|Hy]; cbn in Hy.
  - destruct (x <? y) eqn:E2.
    + apply Z.ltb_lt in E2. pose proof (H2 0%nat ltac:(lia)) as H3'. cbn in H3'. lia.
    + apply Z.ltb_ge in E2. f_equal; [lia|]. (apply IH; [lia|intros j Hj; apply (H1 (S j)); lia|intros j Hj; apply (H2 (S j)); lia|assumption|assumption]).
  - subst y. rewrite Z.ltb_irrefl in E. f_equal. (apply IH; [lia|intros j Hj; apply (H1 (S j)); lia|intros j Hj; apply (H2 (S j)); lia|assumption|assumption]).
Qed.
End C.
