(** Proofs about computed assignment. *)
From Coq Require Import List ZArith Bool Lia.
From Verif Require Import Prelude PreludeFacts Strides_Model Strides_Spec Strides_Proofs Broadcast_Model Broadcast_Spec
  Broadcast_Proofs Broadcast2_Proofs Layout_Model Slice_Model Access_Model
  Stepper_Model Stepper_Spec Stepper_Proofs Stepper3_Proofs Stepper4_Proofs Container_Model Container_Spec Container_Proofs
  Assign_Model Assign_Spec Assign_Proofs Assign2_Proofs Assign6_Proofs Assign7_Proofs Semantic_Model Semantic_Spec Semantic_Proofs
  Semantic2_Proofs Semantic3_Proofs.
Import ListNotations.
Open Scope Z_scope.

Section C.
Context {V : Type} (g : Z -> setup) (SL : layout) (D : option nat) (DL : layout) (rs : list V -> Z -> list V) (v : V).
Hypothesis Hg : setups_ok g.
Hypothesis HDL : is_order DL.
Hypothesis Hrs : resizes rs.

Lemma self_valid (a : cont V) f e : well_formed SL D a -> real_shape (ct_shape a) -> valid_operands g (ct_data a) e ->
  valid_operands g (ct_data a) (AFun f [self SL D a; e]).
Proof.
  intros Hw Hr (V1 & V2 & V3 & V4 & V5). pose proof (wf_writable SL D _ Hw) as (_ & Hst & Hpos & _).
  split; [cbn; split; [split; [exact Hr|exact Hst]|split; [exact V1|exact I]]|].
  split; [cbn; split; [exact Hpos|split; [exact V2|exact I]]|].
  split; [cbn; split; [apply wf_truthful; exact Hw|split; [exact V3|exact I]]|].
  split; [|cbn; auto]. intros n. cbn. split; [intros _ H; discriminate H|split; [apply V4|exact I]].
Qed.
Lemma self_shapes (a : cont V) f e : operand_shapes (AFun f [self SL D a; e]) = ct_shape a :: operand_shapes e.
Proof. unfold operand_shapes. cbn. rewrite app_nil_r. reflexivity. Qed.

Lemma computed_assign_ok (a : cont V) f e : well_formed SL D a -> real_shape (ct_shape a) -> valid_operands g (ct_data a) e ->
  rank_matches D (AFun f [self SL D a; e]) -> independent (c_strided a) e -> no_vanishing_axis a e ->
  (compatible (ct_shape a :: operand_shapes e) ->
     exists a', (forall r, c_noalias_compound g SL D DL rs v a f e r <-> r = Done a') /\ well_formed SL D a' /\
       holds_value (ct_data a) (AFun f [self SL D a; e]) a') /\
  (~ compatible (ct_shape a :: operand_shapes e) ->
     forall r, c_noalias_compound g SL D DL rs v a f e r <-> r = Threw broadcast_error a).
Proof.
  intros Hw Hra Hve HD Hind Hnv. pose proof (self_valid a f e Hw Hra Hve) as Hv. pose proof (valid_real _ _ _ Hv) as Hreal.
  unfold c_noalias_compound, c_computed_assign. rewrite <- (self_shapes a f e).
  pose proof (rhs_shape_ok (AFun f [self SL D a; e]) Hreal) as HO.
  change (rhs_shape (AFun f [self SL D a; e])) with (expr_shape (a_expr (AFun f [self SL D a; e]))) in HO.
  set (E := AFun f [self SL D a; e]) in *. destruct HO as [HO1 HO2]. split.
  - intros Hc. destruct (HO1 Hc) as (sh & t & Es & Hb & Ht). rewrite Es.
    assert (Hsh : is_shape sh) by (apply real_is_shape; eapply broadcast_is_shape; eassumption).
    assert (HD' : match D with Some n => length sh = n | None => True end) by (destruct D; [apply HD; exact Hb|exact I]).
    assert (Hfit : forall s, In s (operand_shapes E) -> fits s sh) by (intros s Hin; eapply broadcast_fits; eassumption).
    destruct Hv as (V1 & V2 & V3 & V4 & V5).
    destruct ((length (ct_shape a) <? dimension (a_expr E))%nat || lex_greater sh (ct_shape a)) eqn:EQ.
    + destruct Hw as (_ & _ & _ & HSL & _).
      destruct (resize_layout_wf SL D DL rs v HDL Hrs sh HSL Hsh HD') as (t1 & E1 & Hw1 & Es1). rewrite E1.
      destruct (c_assign_data_ok g SL D t1 (frozen (ct_data a) E) t Hg Hw1) as (a' & Hiff & Hw' & Es' & Hval).
      * rewrite frozen_inst. rewrite Es1. apply operands_fit; assumption.
      * rewrite frozen_inst. exact V2.
      * apply frozen_leaves. exact V3.
      * intros n. apply frozen_leaves. apply V4.
      * intros Htt. rewrite Es1. apply frozen_leaves. apply (leaves_shapes E (fun s => s = sh)). auto.
      * apply closed_elementwise; [apply frozen_closed|apply frozen_pure].
      * exists a'. split; [|split; [exact Hw'|]].
        -- intros r. split.
           ++ intros (x & Hx & ->). apply Hiff in Hx. subst x. reflexivity.
           ++ intros ->. exists (Done a'). split; [apply Hiff; reflexivity|reflexivity].
        -- split; [rewrite Es', Es1; exact Hb|]. intros ix Hix. rewrite Es' in Hix. rewrite <- (frozen_inst (ct_data a) (ct_data t1)). auto.
    + apply orb_false_iff in EQ. destruct EQ as [EQ1 EQ2]. apply Nat.ltb_ge in EQ1.
      pose proof (expr_shape_length _ _ _ Es) as El.
      assert (Hfa : fits (ct_shape a) sh) by (apply Hfit; unfold E; rewrite self_shapes; left; reflexivity).
      assert (Hlen : length (ct_shape a) = length sh) by (pose proof (proj1 Hfa); lia).
      assert (Eeq : sh = ct_shape a).
      { apply lex_greater_eq; auto.
        - intros j Hj. pose proof (fits_nth _ _ Hfa j ltac:(lia)) as Hn. rewrite Hlen, Nat.sub_diag, Nat.add_0_r in Hn. exact Hn.
        - intros j Hj Hz. pose proof (fits_nth _ _ Hfa j ltac:(lia)) as Hn. rewrite Hlen, Nat.sub_diag, Nat.add_0_r in Hn.
          destruct Hn as [Hn|Hn]; [|congruence]. exfalso.
          set (k := (length sh - 1 - j)%nat).
          assert (Hz' : axis sh k = 0) by (unfold k; rewrite axis_at by assumption; exact Hz).
          assert (Hn' : axis (ct_shape a) k = 1) by (unfold k; rewrite <- Hlen, axis_at by lia; exact Hn).
          destruct Hb as (_ & _ & Hb). destruct (Hb k) as [_ [Hb1|(s & Hin & Hb1)]]; [lia|].
          unfold E in Hin. rewrite self_shapes in Hin. destruct Hin as [<-|Hin]; [lia|].
          apply (Hnv s k Hin); lia. }
      destruct (c_assign_data_ok g SL D a E t Hg Hw) as (a' & Hiff & Hw' & Es' & Hval).
      * rewrite <- Eeq. apply operands_fit; assumption.
      * exact V2.
      * exact V3.
      * exact V4.
      * intros Htt. rewrite <- Eeq. apply (leaves_shapes E (fun s => s = sh)). auto.
      * eapply independent_elementwise; [eapply wf_writable; exact Hw|]. cbn. split; [|auto].
        intros ix Hix. left. fold (bc_index (ct_shape a) ix). rewrite bc_index_self by assumption. reflexivity.
      * exists a'. split; [exact Hiff|]. split; [exact Hw'|]. split; [rewrite Es', <- Eeq; exact Hb|].
        intros ix Hix. rewrite Es' in Hix. auto.
  - intros Hn. rewrite (HO2 Hn). tauto.
Qed.
End C.

(** ** Scalars *)
Lemma rdz_nth {V} (l : list V) p x : rdz l p = Ok x <-> 0 <= p /\ nth_error l (Z.to_nat p) = Some x.
Proof.
  unfold rdz, rd. destruct (p <? 0) eqn:E.
  - apply Z.ltb_lt in E. split; [discriminate|lia].
  - apply Z.ltb_ge in E. destruct (nth_error l (Z.to_nat p)); split; try discriminate; try (intros [_ H]; congruence).
    intros H. split; [exact E|congruence].
Qed.
Lemma scalar_loop_ok {V} (f : V -> V -> V) s : forall post pre,
  scalar_loop f (SValue s) (length post) (Z.of_nat (length pre)) (pre ++ post) = Ok (pre ++ map (fun x => f x s) post).
Proof.
  induction post as [|x post IH]; intros pre; [reflexivity|]. cbn [length scalar_loop map].
  assert (E : rdz (pre ++ x :: post) (Z.of_nat (length pre)) = Ok x).
  { apply rdz_nth. split; [lia|]. rewrite Nat2Z.id, nth_error_app2, Nat.sub_diag by lia. reflexivity. }
  rewrite E. cbn [bind scalar_read]. rewrite wrz_ok by (rewrite app_length; cbn; lia). cbn [bind]. rewrite Nat2Z.id.
  rewrite upd_mid. specialize (IH (pre ++ [f x s])). rewrite app_length in IH. cbn [length] in IH.
  rewrite <- !app_assoc in IH. cbn [app] in IH. replace (Z.of_nat (length pre) + 1) with (Z.of_nat (length pre + 1)) by lia. exact IH.
Qed.
Lemma wf_size {V} SL D (a : cont V) : well_formed SL D a -> c_size SL a = Z.of_nat (length (ct_data a)).
Proof.
  intros (_ & _ & H & _). unfold c_size. destruct (negb _); [reflexivity|]. rewrite compute_size_prod. lia.
Qed.
Lemma scalar_compound_ok {V} SL D (a : cont V) f s : well_formed SL D a ->
  exists a', c_scalar_compound SL a f (SValue s) = Done a' /\ well_formed SL D a' /\ ct_shape a' = ct_shape a /\
    forall ix, in_bounds (ct_shape a) ix -> exists x, elt a ix = Ok x /\ elt a' ix = Ok (f x s).
Proof.
  intros Hw. unfold c_scalar_compound. rewrite (wf_size SL D) by assumption. rewrite Nat2Z.id.
  pose proof (scalar_loop_ok f s (ct_data a) []) as E. cbn [length app] in E. change (Z.of_nat 0) with 0 in E. rewrite E.
  eexists. split; [reflexivity|]. split; [apply wf_with_data; [exact Hw|apply map_length]|]. split; [reflexivity|].
  intros ix Hb. pose proof (wf_writable SL D _ Hw) as (_ & _ & Hpos & _). specialize (Hpos ix Hb). unfold position in Hpos. cbn in Hpos.
  unfold elt. cbn. erewrite (dot_element SL D a) by eassumption.
  destruct (nth_error (ct_data a) (Z.to_nat (dot ix (ct_strides a)))) as [x|] eqn:En.
  - exists x. split; apply rdz_nth; (split; [lia|]); [exact En|]. rewrite nth_error_map, En. reflexivity.
  - apply nth_error_None in En. lia.
Qed.

Lemma compound_lemma : forall (V : Type) (g : Z -> setup) (SL : layout) (D : option nat) (DL : layout) (rs : list V -> Z -> list V) (v : V) (a : cont V) (f : list V -> V) (e : aexp V),
  setups_ok g -> is_order DL -> resizes rs ->
  well_formed SL D a -> real_shape (ct_shape a) -> valid_operands g (ct_data a) e -> rank_matches D (AFun f [self SL D a; e]) ->
  (compatible (ct_shape a :: operand_shapes e) ->
     exists a', (forall r, c_operator_compound g SL D DL rs v a f e r <-> r = Done a') /\ well_formed SL D a' /\
       broadcast_of (ct_shape a :: operand_shapes e) (ct_shape a') /\ holds_value (ct_data a) (AFun f [self SL D a; e]) a') /\
  (~ compatible (ct_shape a :: operand_shapes e) ->
     forall r, c_operator_compound g SL D DL rs v a f e r <-> r = Threw broadcast_error a).
Proof.
  intros V g SL D DL rs v a f e Hg HDL Hrs Hw Hr Hv HD. unfold c_operator_compound. rewrite <- (self_shapes SL D a f e).
  pose proof (operator_assign_ok g SL D DL rs v Hg HDL Hrs a _ Hw (self_valid g SL D a f e Hw Hr Hv) HD) as [H1 H2].
  split; [|exact H2]. intros Hc. destruct (H1 Hc) as (a' & A & B & C). exists a'. split; [exact A|]. split; [exact B|]. split; [apply C|exact C].
Qed.
Lemma noalias_compound_lemma : forall (V : Type) (g : Z -> setup) (SL : layout) (D : option nat) (DL : layout) (rs : list V -> Z -> list V) (v : V) (a : cont V) (f : list V -> V) (e : aexp V),
  setups_ok g -> is_order DL -> resizes rs ->
  well_formed SL D a -> real_shape (ct_shape a) -> valid_operands g (ct_data a) e -> rank_matches D (AFun f [self SL D a; e]) ->
  independent (c_strided a) e -> no_vanishing_axis a e ->
  (compatible (ct_shape a :: operand_shapes e) ->
     exists a', (forall r, c_noalias_compound g SL D DL rs v a f e r <-> r = Done a') /\ well_formed SL D a' /\
       broadcast_of (ct_shape a :: operand_shapes e) (ct_shape a') /\ holds_value (ct_data a) (AFun f [self SL D a; e]) a') /\
  (~ compatible (ct_shape a :: operand_shapes e) ->
     forall r, c_noalias_compound g SL D DL rs v a f e r <-> r = Threw broadcast_error a).
Proof.
  intros V g SL D DL rs v a f e Hg HDL Hrs Hw Hr Hv HD Hi Hn.
  pose proof (computed_assign_ok g SL D DL rs v Hg HDL Hrs a f e Hw Hr Hv HD Hi Hn) as [H1 H2].
  split; [|exact H2]. intros Hc. destruct (H1 Hc) as (a' & A & B & C). exists a'. split; [exact A|]. split; [exact B|]. split; [|exact C].
  rewrite <- (self_shapes SL D a f e). apply C.
Qed.
