From Coq Require Import List ZArith Lia Bool Arith.
From Verif Require Import Prelude PreludeFacts Strides_Model Strides_Spec Strides_Proofs Layout_Model Broadcast_Model Broadcast_Spec Broadcast_Proofs Broadcast2_Proofs
  Slice_Model Stepper_Model Stepper_Spec Stepper_Proofs Stepper2_Proofs Stepper3_Proofs Stepper4_Proofs Container_Model Container_Spec Container_Proofs
  Assign_Model Assign_Spec Semantic_Model Semantic_Spec Semantic_Proofs Semantic2_Proofs Semantic3_Proofs Semantic4_Proofs Semantic5_Proofs
  Reduce_Spec Reduce5_Proofs Reduce13_Proofs Functor_Model Functor_Spec Functor_Proofs Functor2_Proofs Masked_Model Masked_Spec Masked_Proofs Masked2_Proofs Masked3_Proofs.
Import ListNotations.
Open Scope Z_scope.

(** ** Shapes *)
Fixpoint erase {V} (e : mexp V) : fexp unit unit :=
  match e with
  | MX_scalar _ => FX_scalar tt
  | MX_ext sh _ => FX_ext true sh (fun _ => tt)
  | MX_array c => FX_ext true (k_shape c) (fun _ => tt)
  | MX_view k => FX_ext true (mv_shape k) (fun _ => tt)
  | MX_fun _ x y => FX_fun (fun _ _ => tt) (erase x) (erase y)
  end.
Lemma erase_expr {V} (e : mexp V) : fx_expr (erase e) = mx_expr e.
Proof. induction e; cbn; try reflexivity. rewrite IHe1, IHe2. reflexivity. Qed.
Lemma erase_shape {V} (e : mexp V) : fx_shape (erase e) = mx_shape e.
Proof. destruct e; cbn [erase fx_shape mx_shape]; try reflexivity. rewrite !erase_expr. reflexivity. Qed.
Lemma erase_shapes {V} (e : mexp V) : fx_shapes (erase e) = mx_shapes e.
Proof. unfold fx_shapes, mx_shapes. rewrite erase_expr. reflexivity. Qed.

Lemma mv_assign_shape {V} hide (d : V) L k e s : real_shape (mv_shape k) -> Forall real_shape (mx_shapes e) ->
  ((forall t, In t (mx_shapes e) -> fits t (mv_shape k)) -> mv_assign hide d L k e s = mv_store hide d L k e s) /\
  (~ (forall t, In t (mx_shapes e) -> fits t (mv_shape k)) -> mv_assign hide d L k e s = Throw broadcast_error).
Proof.
  intros Hc Hr. rewrite <- erase_shapes in *. destruct (fx_shape_ok (erase e) Hr) as [S1 S2]. rewrite erase_shape in *. unfold mv_assign. split.
  - intros Hf. destruct (S1 (fits_compatible _ _ Hf)) as (sh & E & Hb). rewrite E. cbn [bind].
    destruct (zlist_eqb sh (mv_shape k)); [reflexivity|].
    assert (Hrs : real_shape sh) by (eapply broadcast_is_shape; eassumption).
    pose proof (fits_broadcastable _ _ (fits_broadcast _ _ _ Hb Hf)) as Hbb.
    destruct (xbroadcast_lemma sh (mv_shape k) Hrs Hc) as (_ & _ & X). rewrite (X Hbb). cbn [bind].
    rewrite (fits_broadcastable _ _ (fits_self (mv_shape k))). reflexivity.
  - intros Hf. destruct (compatible_dec (fx_shapes (erase e))) as [C|C]; [|rewrite (S2 C); reflexivity].
    destruct (S1 C) as (sh & E & Hb). rewrite E. cbn [bind].
    assert (Hrs : real_shape sh) by (eapply broadcast_is_shape; eassumption).
    destruct (zlist_eqb sh (mv_shape k)) eqn:Ez.
    { exfalso. apply zlist_eqb_eq in Ez. subst sh. apply Hf. intros t Hin. eapply broadcast_fits; eassumption. }
    destruct (xbroadcast_lemma sh (mv_shape k) Hrs Hc) as (X1 & X2 & _).
    destruct (compatible_dec [sh; mv_shape k]) as [C2|C2]; [destruct (Nat.le_gt_cases (length sh) (length (mv_shape k))) as [Ll|Ll]|].
    + destruct (X1 (conj Ll C2)) as (o & Eo & Ho). rewrite Eo. cbn [bind].
      destruct (broadcastable_lemma o (mv_shape k)) as (b & -> & Hbb). cbn [bind]. destruct b; [|reflexivity].
      exfalso. apply Hf. intros t Hin. apply (fits_trans t sh); [eapply broadcast_fits; eassumption|].
      apply (fits_trans sh o); [eapply broadcast_fits; [exact Ho|left; reflexivity]|]. apply Hbb. reflexivity.
    + rewrite X2 by lia. reflexivity.
    + rewrite X2 by tauto. reflexivity.
Qed.

Lemma list_ext_rdz {A} (l l' : list A) : length l = length l' -> (forall q, rdz l q = rdz l' q) -> l = l'.
Proof.
  intros HL H. assert (E : forall i, nth_error l i = nth_error l' i).
  { intros i. specialize (H (Z.of_nat i)). unfold rdz in H. destruct (Z.ltb_spec (Z.of_nat i) 0); [lia|]. rewrite Nat2Z.id in H. unfold rd in H.
    destruct (nth_error l i), (nth_error l' i); congruence. }
  clear H. revert l' HL E. induction l as [|x l IH]; intros [|y l'] HL E; try discriminate; [reflexivity|].
  pose proof (E 0%nat) as E0. cbn in E0. injection E0 as ->. f_equal. apply IH; [cbn in HL; lia|]. intros i. exact (E (S i)).
Qed.

Section Ops.
  Context {V : Type} (hide : V -> V -> V * bool) (d : V) (k : mview V) (mem : list V) (mm : list bool) (v : Z -> V) (u : Z -> bool).
  Hypothesis Hk : assignable mem mm k.
  Hypothesis Hv : contents mem v.
  Hypothesis Hu : contents mm u.

  Lemma k_iterate {A} L (f : list Z -> Z -> Z -> A -> res A) s : is_order L ->
    mv_iterate k L f (mv_size k) s = for_each (fun ix s => f ix (position (mv_data k) ix) (flag_place k ix) s) (indices_of L (mv_shape k)) s.
  Proof. intros HL. destruct (usable_strided _ _ _ (proj1 Hk)) as [S1 S2]. pose proof Hk as ((H1 & _ & H2 & _) & _). apply iterate_all; assumption. Qed.

  (** Nothing hidden is assigned: no flag changes. *)
  Lemma assigned_shown (g : list Z -> masked V) (f : list Z -> V) mem' mm' :
    (forall ix, in_bounds (mv_shape k) ix -> visible v u k ix = true -> g ix = mk_masked (f ix) true) ->
    mv_assigned k v u (fun ix => seen (g ix)) mem mm mem' mm' -> mm' = mm /\ shown_assigned k v u f mem mem'.
  Proof.
    intros Hg (A1 & A2 & A3 & A4 & A5). split.
    - apply list_ext_rdz; [exact A2|]. intros q. apply A5. intros ix _ Hb Hvx E. rewrite (Hg ix Hb Hvx) in E. discriminate.
    - split; [exact A1|]. split; [|exact A4]. intros ix Hb Hvx. apply A3; auto. rewrite (Hg ix Hb Hvx). reflexivity.
  Qed.
  Lemma shown_private (g : list Z -> masked V) (f : list Z -> V) :
    (forall ix, in_bounds (mv_shape k) ix -> visible v u k ix = true -> g ix = mk_masked (f ix) true) -> private k v u g.
  Proof. intros Hg. left. intros ix Hb Hvx. rewrite (Hg ix Hb Hvx). reflexivity. Qed.

  Lemma mv_fill_ok L x : is_order L -> exists mem', mv_fill hide L k x (mem, mm) = Ok (mem', mm) /\ shown_assigned k v u (fun _ => x) mem mem'.
  Proof.
    intros HL. unfold mv_fill. rewrite k_iterate by exact HL.
    destruct (order_ok hide k mem mm v u Hk Hv Hu L (fun _ => mk_masked x true)
      (fun ix s => mv_put hide k (position (mv_data k) ix) (flag_place k ix) (mk_masked x true) s) HL) as ([mem' mm'] & E & A).
    - apply (shown_private _ (fun _ => x)). reflexivity.
    - reflexivity.
    - apply (assigned_shown _ (fun _ => x)) in A; [|reflexivity]. destruct A as [A1 A2]. cbn [fst snd] in A1, A2. subst mm'. exists mem'. split; [exact E|exact A2].
  Qed.

  Lemma mv_scalar_ok L f x : is_order L -> exists mem', mv_scalar hide d L f k x (mem, mm) = Ok (mem', mm) /\
    shown_assigned k v u (fun ix => f (v (position (mv_data k) ix)) x) mem mem'.
  Proof.
    intros HL. unfold mv_scalar. rewrite k_iterate by exact HL.
    set (g := fun ix => m_apply d f (mk_masked (v (position (mv_data k) ix)) (visible v u k ix)) (mk_masked x true)).
    assert (Hg : forall ix, in_bounds (mv_shape k) ix -> visible v u k ix = true -> g ix = mk_masked (f (v (position (mv_data k) ix)) x) true).
    { intros ix _ Hvx. unfold g, m_apply. cbn. rewrite Hvx. reflexivity. }
    destruct (order_ok hide k mem mm v u Hk Hv Hu L g
      (fun ix s => let* o := mv_get k (fst s) (snd s) (position (mv_data k) ix) (flag_place k ix) in
                   mv_put hide k (position (mv_data k) ix) (flag_place k ix) (m_apply d f o (mk_masked x true)) s) HL) as ([mem' mm'] & E & A).
    - eapply shown_private. exact Hg.
    - intros ix done s Hs Hd Hb Hn. erewrite state_get; [reflexivity|exact Hk|exact Hv|exact Hu|eapply shown_private; exact Hg|eassumption|assumption|assumption|assumption].
    - apply (assigned_shown _ _ _ _ Hg) in A. destruct A as [A1 A2]. cbn [fst snd] in A1, A2. subst mm'. exists mem'. split; [exact E|exact A2].
  Qed.

  Lemma mv_store_ok L e : is_order L -> (forall t, In t (mx_shapes e) -> fits t (mv_shape k)) -> in_step mem mm k e ->
    (forall ix, in_bounds (mv_shape k) ix -> visible v u k ix = true -> mx_value v u e ix <> None) \/ (own_flags k /\ flags_in_step k e) ->
    exists mem' mm', mv_store hide d L k e (mem, mm) = Ok (mem', mm') /\ mv_assigned k v u (mx_value v u e) mem mm mem' mm'.
  Proof.
    intros HL Hf He Hp. unfold mv_store. rewrite k_iterate by exact HL. set (g := mx_mval d v u e).
    assert (Hfree : free k v u g e).
    { destruct Hp as [Hp|Hp]; [left|right; exact Hp]. intros ix Hb Hvx. specialize (Hp ix Hb Hvx). rewrite <- (mval_seen d) in Hp. unfold seen in Hp. fold g in Hp.
      destruct (m_visible (g ix)); congruence. }
    destruct (order_ok hide k mem mm v u Hk Hv Hu L g
      (fun ix s => let* x := mx_eval d (fst s) (snd s) e ix in mv_put hide k (position (mv_data k) ix) (flag_place k ix) x s) HL) as ([mem' mm'] & E & A).
    - destruct Hfree as [H|[H _]]; [left|right]; exact H.
    - intros ix done s Hs Hd Hb Hn. erewrite eval_ok; [reflexivity|exact Hk|exact Hv|exact Hu|exact He|exact Hf|exact Hfree|eassumption|assumption|assumption|assumption].
    - exists mem', mm'. split; [exact E|]. destruct A as (A1 & A2 & A3 & A4 & A5). cbn [fst snd] in *. split; [exact A1|]. split; [exact A2|]. split; [|split].
      + intros ix x Hb Hvx Ex. apply A3; auto. unfold g. rewrite mval_seen. exact Ex.
      + exact A4.
      + intros q Hq. apply A5. intros ix Hw Hb Hvx Ex. apply Hq; auto. unfold g in Ex. rewrite mval_seen in Ex. exact Ex.
  Qed.

  (** Copying a list of masked values. *)
  Lemma copy_each (g : list Z -> masked V) : forall l s, 
    (let* '(_, s') := for_each (fun ix '(t, s) => match t with [] => UB | x :: t' => let* s := mv_put hide k (position (mv_data k) ix) (flag_place k ix) x s in Ok (t', s) end) l (map g l, s) in Ok s')
    = for_each (fun ix s => mv_put hide k (position (mv_data k) ix) (flag_place k ix) (g ix) s) l s.
  Proof.
    induction l as [|ix l IH]; intros s; [reflexivity|]. cbn [for_each map]. destruct (mv_put hide k (position (mv_data k) ix) (flag_place k ix) (g ix) s) as [s'| |]; cbn [bind]; try reflexivity.
    apply IH.
  Qed.
  Lemma mv_assign_view_ok L r : is_order L -> usable mem mm r -> mv_shape r = mv_shape k ->
    (forall ix, in_bounds (mv_shape k) ix -> visible v u k ix = true -> visible v u r ix = true) ->
    exists mem', mv_assign_view hide d L k r (mem, mm) = Ok (mem', mm) /\ shown_assigned k v u (fun ix => v (position (mv_data r) ix)) mem mem'.
  Proof.
    intros HL Hr Hsh Hvis. unfold mv_assign_view. cbn [fst snd]. rewrite (values_ok mem mm v u L r HL Hr Hv Hu). cbn [bind].
    rewrite map_map. set (g := fun ix => tmp_of hide d (mk_masked (v (position (mv_data r) ix)) (visible v u r ix))). rewrite Hsh.
    unfold mv_copy. rewrite map_length.
    assert (Hg : forall ix, in_bounds (mv_shape k) ix -> visible v u k ix = true -> g ix = mk_masked (v (position (mv_data r) ix)) true).
    { intros ix Hb Hvx. unfold g, tmp_of. cbn. rewrite (Hvis ix Hb Hvx). reflexivity. }
    replace (length (indices_of L (mv_shape k))) with (mv_size k).
    2:{ unfold mv_size. rewrite compute_size_prod. pose proof Hk as ((Hs & _) & _).
        pose proof (indices_of_length L (mv_shape k)) as E. destruct HL as [ -> | -> ]; specialize (E ltac:(auto) Hs); lia. }
    rewrite k_iterate by exact HL. rewrite (copy_each g).
    destruct (order_ok hide k mem mm v u Hk Hv Hu L g
      (fun ix s => mv_put hide k (position (mv_data k) ix) (flag_place k ix) (g ix) s) HL) as ([mem' mm'] & E & A).
    - eapply shown_private. exact Hg.
    - reflexivity.
    - apply (assigned_shown _ _ _ _ Hg) in A. destruct A as [A1 A2]. cbn [fst snd] in A1, A2. subst mm'. exists mem'. split; [exact E|exact A2].
  Qed.
  (** Hidden elements of the right-hand side *)
  Lemma mv_assign_view_hidden L r : is_order L -> usable mem mm r -> mv_shape r = mv_shape k -> own_flags k ->
    (forall x, snd (hide d x) = false) ->
    exists mem' mm', mv_assign_view hide d L k r (mem, mm) = Ok (mem', mm') /\
      mv_assigned k v u (fun ix => if visible v u r ix then Some (v (position (mv_data r) ix)) else None) mem mm mem' mm'.
  Proof.
    intros HL Hr Hsh Ho Hh. unfold mv_assign_view. cbn [fst snd]. rewrite (values_ok mem mm v u L r HL Hr Hv Hu). cbn [bind].
    rewrite map_map. set (g := fun ix => tmp_of hide d (mk_masked (v (position (mv_data r) ix)) (visible v u r ix))). rewrite Hsh.
    unfold mv_copy. rewrite map_length.
    assert (Hg : forall ix, seen (g ix) = if visible v u r ix then Some (v (position (mv_data r) ix)) else None).
    { intros ix. unfold g, tmp_of, seen. cbn. destruct (visible v u r ix); [reflexivity|]. specialize (Hh (v (position (mv_data r) ix))).
      destruct (hide d (v (position (mv_data r) ix))) as [y b]. cbn in *. subst b. reflexivity. }
    replace (length (indices_of L (mv_shape k))) with (mv_size k).
    2:{ unfold mv_size. rewrite compute_size_prod. pose proof Hk as ((Hs & _) & _).
        pose proof (indices_of_length L (mv_shape k)) as E. destruct HL as [ -> | -> ]; specialize (E ltac:(auto) Hs); lia. }
    rewrite k_iterate by exact HL. rewrite (copy_each g).
    destruct (order_ok hide k mem mm v u Hk Hv Hu L g
      (fun ix s => mv_put hide k (position (mv_data k) ix) (flag_place k ix) (g ix) s) HL) as ([mem' mm'] & E & A).
    - right. exact Ho.
    - reflexivity.
    - exists mem', mm'. split; [exact E|]. destruct A as (A1 & A2 & A3 & A4 & A5). cbn [fst snd] in *. split; [exact A1|]. split; [exact A2|]. split; [|split].
      + intros ix x Hb Hvx Ex. apply A3; auto. rewrite Hg. exact Ex.
      + exact A4.
      + intros q Hq. apply A5. intros ix Hw Hb Hvx Ex. apply Hq; auto. rewrite Hg in Ex. exact Ex.
  Qed.
End Ops.
