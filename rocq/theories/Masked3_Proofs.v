From Coq Require Import List ZArith Lia Bool Arith.
From Verif Require Import Prelude PreludeFacts Strides_Model Strides_Spec Strides_Proofs Layout_Model Broadcast_Model Broadcast_Spec Broadcast_Proofs Broadcast2_Proofs
  Slice_Model Stepper_Model Stepper_Spec Stepper_Proofs Stepper2_Proofs Stepper3_Proofs Stepper4_Proofs Container_Model Container_Spec Container_Proofs
  Assign_Model Assign_Spec Semantic_Model Semantic_Spec Semantic_Proofs Semantic2_Proofs Semantic3_Proofs Semantic4_Proofs Semantic5_Proofs
  Reduce_Spec Reduce5_Proofs Reduce13_Proofs Functor_Model Functor_Spec Functor_Proofs Functor2_Proofs Masked_Model Masked_Spec Masked_Proofs Masked2_Proofs.
Import ListNotations.
Open Scope Z_scope.

Section Exprs.
  Context {V : Type} (hide : V -> V -> V * bool) (d : V) (k : mview V) (mem : list V) (mm : list bool) (v : Z -> V) (u : Z -> bool).
  Hypothesis Hk : assignable mem mm k.
  Hypothesis Hv : contents mem v.
  Hypothesis Hu : contents mm u.
  Notation pos := (position (mv_data k)).
  Notation vis := (visible v u k).

  Fixpoint mx_mval (e : mexp V) (ix : list Z) : masked V :=
    match e with
    | MX_scalar x => mk_masked x true
    | MX_ext sh f => f (bc_index sh ix)
    | MX_array c => mk_masked (v (position c (bc_index (k_shape c) ix))) true
    | MX_view r => let jx := bc_index (mv_shape r) ix in mk_masked (v (position (mv_data r) jx)) (visible v u r jx)
    | MX_fun f x y => m_apply d f (mx_mval x ix) (mx_mval y ix)
    end.
  Lemma mval_seen e ix : seen (mx_mval e ix) = mx_value v u e ix.
  Proof.
    induction e as [x|sh f|c|r|f x IHx y IHy]; cbn [mx_mval mx_value]; try reflexivity.
    rewrite <- IHx, <- IHy. unfold m_apply, seen. destruct (m_visible (mx_mval x ix)), (m_visible (mx_mval y ix)); reflexivity.
  Qed.

  Definition free (g : list Z -> masked V) (e : mexp V) : Prop :=
    (forall ix, in_bounds (mv_shape k) ix -> vis ix = true -> m_visible (g ix) = true) \/ (own_flags k /\ flags_in_step k e).

  Lemma free_fun g f x y : free g (MX_fun f x y) -> free g x /\ free g y.
  Proof. intros [H|(H1 & H2 & H3)]; split; [left|left|right|right]; auto. Qed.

  Lemma eval_ok g done s e ix : in_step mem mm k e -> (forall t, In t (mx_shapes e) -> fits t (mv_shape k)) -> free g e ->
    state k mem mm v u g done s -> Forall (in_bounds (mv_shape k)) done -> in_bounds (mv_shape k) ix -> ~ In ix done ->
    mx_eval d (fst s) (snd s) e ix = Ok (mx_mval e ix).
  Proof.
    intros He Hf Hfr Hs Hd Hb Hn. revert He Hf Hfr. induction e as [x|sh f|c|r|f x IHx y IHy]; intros He Hf Hfr; cbn [mx_eval mx_mval]; try reflexivity.
    - cbn in He. assert (F : fits (k_shape c) (mv_shape k)) by (apply Hf; left; reflexivity).
      rewrite (element_offset_bc c (mv_shape k)) by (try assumption; apply He). erewrite state_read by eassumption. reflexivity.
    - cbn in He. destruct He as (Hr & Ha & Hm). assert (F : fits (mv_shape r) (mv_shape k)) by (apply Hf; left; reflexivity).
      destruct (usable_strided _ _ _ Hr) as [S1 S2]. pose proof Hr as (_ & _ & Fm & Hrm).
      assert (F2 : fits (k_shape (mask_cont (mv_mask r))) (mv_shape k)) by (eapply fits_trans; eassumption).
      unfold mv_at, mv_get. rewrite (element_offset_bc (mv_data r) (mv_shape k)) by assumption.
      erewrite state_read by eassumption. cbn [bind]. rewrite (element_offset_bc (mask_cont (mv_mask r)) (mv_shape k)) by assumption.
      unfold visible, flag_place. rewrite bc_twice by (try exact Fm; rewrite (in_bounds_length _ _ Hb); apply F).
      unfold mask_get. destruct (mv_mask r) as [c|p c] eqn:Em; cbn [mask_cont] in *.
      + destruct Hs as (_ & _ & _ & _ & Q5). rewrite Q5; [rewrite Hu; [reflexivity|]; apply Hrm; destruct F2 as [G1 G2]; eapply bc_index_in_bounds; eassumption|].
        intros jx Hw Hj Hvj Hgj E. rewrite Forall_forall in Hd. destruct Hfr as [Hfr|(Ho & Hst)].
        * rewrite (Hfr jx (Hd jx Hj) Hvj) in Hgj. discriminate.
        * unfold flags_in_step in Hst. cbn [mx_leaves] in Hst. rewrite Em in Hst. unfold own_flags in Ho.
          destruct (mv_mask k) as [c'|p' c'] eqn:Ek.
          -- destruct (Hst ix Hb) as [X|X]; [|exact (X jx (Hd jx Hj) (eq_sym E))]. rewrite X in E. apply Ho in E; [|apply Hd; exact Hj|exact Hb].
             subst jx. contradiction.
          -- unfold has_flags in Hw. rewrite Ek in Hw. exact Hw.
      + rewrite (state_read k mem mm v u Hk Hv g done s c ix Hs Hd Hb Hn Hm F2). reflexivity.
    - destruct He as [He1 He2]. destruct (free_fun _ _ _ _ Hfr) as [Hf1 Hf2].
      unfold mx_shapes in *. cbn [mx_expr leaves flat_map] in Hf. rewrite app_nil_r in Hf.
      rewrite IHx, IHy; auto; intros t Ht; apply Hf, in_app_iff; auto.
  Qed.
End Exprs.
