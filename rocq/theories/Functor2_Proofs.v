From Coq Require Import List ZArith Lia Bool Arith.
From Verif Require Import Prelude PreludeFacts Strides_Model Strides_Spec Strides_Proofs Layout_Model Broadcast_Model Broadcast_Spec Broadcast_Proofs Broadcast2_Proofs
  Slice_Model Stepper_Model Stepper_Spec Stepper_Proofs Stepper4_Proofs Container_Model Container_Spec Container_Proofs
  Assign_Model Assign_Spec Semantic_Model Semantic_Spec Semantic_Proofs Semantic2_Proofs Semantic3_Proofs Semantic4_Proofs Semantic5_Proofs
  Reduce_Spec Reduce13_Proofs Functor_Model Functor_Spec Functor_Proofs.
Import ListNotations.
Open Scope Z_scope.

(** ** Shapes *)

Fixpoint shadow {T M} (e : fexp T M) : aexp unit :=
  match e with
  | FX_scalar _ => AScalar tt
  | FX_ext _ sh _ => AIndexed sh (fun _ _ => tt)
  | FX_view _ c => AIndexed (k_shape c) (fun _ _ => tt)
  | FX_fun _ x y => AFun (fun _ => tt) [shadow x; shadow y]
  end.
Lemma shadow_expr {T M} (e : fexp T M) : a_expr (shadow e) = fx_expr e.
Proof. induction e; cbn; try reflexivity. rewrite IHe1, IHe2. reflexivity. Qed.
Lemma shadow_shape {T M} (e : fexp T M) : fx_shape e = (let* '(sh, _) := rhs_shape (shadow e) in Ok sh).
Proof. destruct e; cbn [fx_shape shadow rhs_shape bind]; try reflexivity. cbn [map]. rewrite !shadow_expr. reflexivity. Qed.
Lemma fx_shape_ok {T M} (e : fexp T M) : Forall real_shape (fx_shapes e) ->
  (compatible (fx_shapes e) -> exists sh, fx_shape e = Ok sh /\ broadcast_of (fx_shapes e) sh) /\
  (~ compatible (fx_shapes e) -> fx_shape e = Throw broadcast_error).
Proof.
  unfold fx_shapes. rewrite <- shadow_expr, shadow_shape. intros H. destruct (rhs_shape_ok (shadow e) H) as [H1 H2]. split.
  - intros Hc. destruct (H1 Hc) as (sh & t & E & Hb & _). rewrite E. exists sh. auto.
  - intros Hc. rewrite (H2 Hc). reflexivity.
Qed.

Lemma fits_trans s t u : fits s t -> fits t u -> fits s u.
Proof. intros [L1 A1] [L2 A2]. split; [lia|]. intros k. destruct (A1 k) as [E|E]; [auto|]. rewrite E. apply A2. Qed.

Lemma assign_shape {T M} (w : Z) L DT (a : accessor T M) c (e : fexp T M) mem : real_shape (k_shape c) -> Forall real_shape (fx_shapes e) ->
  ((forall s, In s (fx_shapes e) -> fits s (k_shape c)) -> fv_assign w L DT a c e mem = fv_store w L DT a c e mem) /\
  (~ (forall s, In s (fx_shapes e) -> fits s (k_shape c)) -> fv_assign w L DT a c e mem = Throw broadcast_error).
Proof.
  intros Hc Hr. destruct (fx_shape_ok e Hr) as [S1 S2]. unfold fv_assign. split.
  - intros Hf. destruct (S1 (fits_compatible _ _ Hf)) as (sh & E & Hb). rewrite E. cbn [bind].
    destruct (zlist_eqb sh (k_shape c)); [reflexivity|].
    assert (Hrs : real_shape sh) by (eapply broadcast_is_shape; eassumption).
    pose proof (fits_broadcastable _ _ (fits_broadcast _ _ _ Hb Hf)) as Hbb.
    destruct (xbroadcast_lemma sh (k_shape c) Hrs Hc) as (_ & _ & X). rewrite (X Hbb). cbn [bind].
    rewrite (fits_broadcastable _ _ (fits_self (k_shape c))). reflexivity.
  - intros Hf. destruct (compatible_dec (fx_shapes e)) as [C|C]; [|rewrite (S2 C); reflexivity].
    destruct (S1 C) as (sh & E & Hb). rewrite E. cbn [bind].
    assert (Hrs : real_shape sh) by (eapply broadcast_is_shape; eassumption).
    destruct (zlist_eqb sh (k_shape c)) eqn:Ez.
    { exfalso. apply zlist_eqb_eq in Ez. subst sh. apply Hf. intros s Hin. eapply broadcast_fits; eassumption. }
    destruct (xbroadcast_lemma sh (k_shape c) Hrs Hc) as (X1 & X2 & _).
    destruct (compatible_dec [sh; k_shape c]) as [C2|C2]; [destruct (Nat.le_gt_cases (length sh) (length (k_shape c))) as [Ll|Ll]|].
    + destruct (X1 (conj Ll C2)) as (o & Eo & Ho). rewrite Eo. cbn [bind].
      destruct (broadcastable_lemma o (k_shape c)) as (b & -> & Hbb). cbn [bind]. destruct b; [|reflexivity].
      exfalso. apply Hf. intros s Hin. apply (fits_trans s sh); [eapply broadcast_fits; eassumption|].
      apply (fits_trans sh o); [eapply broadcast_fits; [exact Ho|left; reflexivity]|]. apply Hbb. reflexivity.
    + rewrite X2 by lia. reflexivity.
    + rewrite X2 by tauto. reflexivity.
Qed.

Section Assign.
  Context {T M : Type} (w : Z) (a : accessor T M) (c : container) (mem : list T) (v : Z -> T).
  Hypothesis Hw : writable c mem.
  Hypothesis Hv : contents mem v.

  (** What a view among the operands must be. *)
  Definition operand_ok (b : accessor T M) (k : container) : Prop :=
    readable mem k /\ one_direction k /\ inside w b /\ separate a b.

  Lemma views_impl (P Q : accessor T M -> container -> Prop) : forall e : fexp T M, (forall b k, In (k_shape k) (fx_shapes e) -> P b k -> Q b k) -> fx_views P e -> fx_views Q e.
  Proof.
    intros e. induction e as [x|st sh f|b k|f e1 IH1 e2 IH2]; cbn [fx_views]; intros H; auto.
    - apply H. left. reflexivity.
    - unfold fx_shapes in *. cbn [fx_expr leaves flat_map] in *. rewrite app_nil_r in H. intros [H1 H2]. split.
      + apply IH1; [|exact H1]. intros b k Hin. apply H. apply in_app_iff. auto.
      + apply IH2; [|exact H2]. intros b k Hin. apply H. apply in_app_iff. auto.
  Qed.

  Lemma overlaps_fun r f e1 e2 : fx_overlaps w r (FX_fun f e1 e2 : fexp T M) = fx_overlaps w r e1 || fx_overlaps w r e2.
  Proof. reflexivity. Qed.

  Lemma no_overlap o e : acc_off a = Some o -> 0 <= o < w -> one_direction c -> prod (k_shape c) <> 0 ->
    (forall s, In s (fx_shapes e) -> fits s (k_shape c)) ->
    fx_views operand_ok e ->
    fx_overlaps w (w * Z.min (addr_first c) (addr_last c) + o, w * Z.max (addr_first c) (addr_last c) + o) e = false ->
    fx_views (undisturbed a c mem) e.
  Proof.
    intros Ho Hin Hd Hp. induction e as [x|st sh f|b k|f e1 IH1 e2 IH2]; cbn [fx_views]; intros Hf; auto.
    - intros (Hr & Hk & Hib & Hsep). cbn [fx_overlaps]. destruct (acc_off b) as [o'|] eqn:Eo; [|discriminate].
      intros E. assert (Hfk : fits (k_shape k) (k_shape c)) by (apply Hf; left; reflexivity).
      split; [exact Hr|]. split; [exact Hfk|]. intros ix jx Hi Hj _. destruct Hr as (Hst & Hrk). destruct Hw as (Hs & Hst' & _).
      assert (Hbk : in_bounds (k_shape k) (bc_index (k_shape k) ix)) by (destruct Hfk as [F1 F2]; eapply bc_index_in_bounds; eassumption).
      assert (Hks : prod (k_shape k) <> 0) by (pose proof (row_pos_bound _ _ Hbk); lia).
      assert (Hksh : is_shape (k_shape k)).
      { apply Forall_forall. intros d Hin'. clear - Hbk Hin'. induction Hbk as [|x y l l' H H' IH]; [destruct Hin'|]. destruct Hin' as [<-|Hin']; [lia|auto]. }
      unfold part_range in E. rewrite dst_range_some in E by assumption. apply overlaps_iff in E; [|nia].
      pose proof (position_between k _ Hst Hk Hbk) as B1. pose proof (position_between c _ Hst' Hd Hj) as B2.
      unfold inside in Hib. rewrite Eo in Hib.
      destruct (Z.eq_dec (position c jx) (position k (bc_index (k_shape k) ix))) as [Eq|Nq]; [right|left; exact Nq].
      unfold separate in Hsep. rewrite Ho, Eo in Hsep. apply Hsep. intros ->. rewrite Eq in B2. nia.
    - unfold fx_shapes in *. cbn [fx_expr leaves flat_map] in Hf. rewrite app_nil_r in Hf. intros [H1 H2]. rewrite overlaps_fun, orb_false_iff. intros [E1 E2]. split.
      + apply IH1; auto. intros s Hs. apply Hf, in_app_iff. auto.
      + apply IH2; auto. intros s Hs. apply Hf, in_app_iff. auto.
  Qed.

  Lemma store_ok L DT o e : is_order L -> is_order DT -> acc_off a = Some o -> 0 <= o < w -> one_direction c ->
    (forall s, In s (fx_shapes e) -> fits s (k_shape c)) -> fx_views operand_ok e ->
    exists m', fv_store w L DT a c e mem = Ok m' /\ assigned a c (fx_value v e) v mem m'.
  Proof.
    intros HL HDT Ho Hin Hd Hf He. pose proof Hw as (Hs & _).
    assert (Hbefore : fx_views (fun b k => readable mem k /\ fits (k_shape k) (k_shape c)) e).
    { revert He. apply views_impl. intros b k Hk (H & _). auto. }
    unfold fv_store, fv_range. rewrite Ho. unfold part_range.
    destruct (Z.eq_dec (prod (k_shape c)) 0) as [H0|H0].
    - unfold dst_range. rewrite compute_size_prod, H0. cbn [Z.eqb].
      apply (direct_ok a c mem v Hw Hv); [exact HL|]. revert Hbefore. apply views_impl. intros b k _ [H1 H2]. split; [exact H1|]. split; [exact H2|].
      intros ix jx Hi. exfalso. pose proof (row_pos_bound _ _ Hi). lia.
    - rewrite dst_range_some by assumption.
      destruct (fx_overlaps w _ e) eqn:E.
      + apply by_copy_ok; assumption.
      + apply (direct_ok a c mem v Hw Hv); [exact HL|]. eapply no_overlap; eassumption.
  Qed.

  (** A destination without addresses: the loop reads what is already there. *)
  Lemma proxy_ok L DT e : is_order L -> acc_off a = None ->
    (forall s, In s (fx_shapes e) -> fits s (k_shape c)) -> fx_views (fun _ k => aligned c mem k) e ->
    exists m', fv_store w L DT a c e mem = Ok m' /\ assigned a c (fx_value v e) v mem m'.
  Proof.
    intros HL Ho Hf He. unfold fv_store, fv_range. rewrite Ho.
    apply (direct_ok a c mem v Hw Hv); [exact HL|]. revert He. apply views_impl. intros b k Hk (H & Ha). split; [exact H|].
    split; [apply Hf; exact Hk|]. intros ix jx Hi Hj Hne. left. destruct (Ha ix Hi) as [E|E].
    - rewrite E. intros Ep. destruct Hw as (_ & _ & _ & W). apply W in Ep; auto.
    - intros X. apply (E jx Hj). symmetry. exact X.
  Qed.
End Assign.

(** ** Complex numbers *)

Lemma real_lawful M : lawful (real_part M). Proof. intros t m. reflexivity. Qed.
Lemma imag_lawful M : lawful (imag_part M). Proof. intros t m. reflexivity. Qed.
Lemma parts_separate M (a b : accessor (M * M) M) : In a [real_part M; imag_part M] -> In b [real_part M; imag_part M] -> separate a b.
Proof.
  intros [<-|[<-|[]]] [<-|[<-|[]]] H t m; cbn in *; try reflexivity; contradiction.
Qed.
Lemma parts_inside M (b : accessor (M * M) M) : In b [real_part M; imag_part M] -> inside 2 b.
Proof. intros [<-|[<-|[]]]; cbn; lia. Qed.
