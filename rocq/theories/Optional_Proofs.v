(** Proofs about arrays with missing values: elements and assignment. *)
From Coq Require Import List ZArith Bool Lia.
From Verif Require Import Prelude PreludeFacts Strides_Model Strides_Spec Strides_Proofs Broadcast_Model Broadcast_Spec
  Broadcast_Proofs Broadcast2_Proofs Layout_Model Slice_Model Access_Model
  Stepper_Model Stepper_Spec Stepper_Proofs Stepper3_Proofs Stepper4_Proofs Container_Model Container_Spec Container_Proofs
  Assign_Model Assign_Spec Assign_Proofs Assign2_Proofs Assign6_Proofs Assign7_Proofs Semantic_Model Semantic_Spec Semantic_Proofs
  Semantic2_Proofs Semantic3_Proofs Functor_Model Functor_Proofs Optional_Model Optional_Spec.
Import ListNotations.
Open Scope Z_scope.

Lemma oexp_ind' {A} (P : oexp A -> Prop) :
  (forall o, P (OScalar o)) -> (forall m c m' c' s, P (OAssembly m c m' c' s)) -> (forall m c s, P (OArray m c s)) ->
  (forall fo f args, Forall P args -> P (OFun fo f args)) -> forall e, P e.
Proof.
  intros H1 H2 H3 H4. fix IH 1. intros [o|m c m' c' s|m c s|fo f args]; [apply H1|apply H2|apply H3|]. apply H4.
  induction args as [|x l IHl]; constructor; [apply IH|exact IHl].
Qed.

Lemma optional_bitwise_all l : optional_bitwise l = forallb (fun b => b) l.
Proof. induction l as [|b l IH]; cbn; [reflexivity|]. rewrite IH. reflexivity. Qed.

Section E.
Context {A : Type}.
Implicit Type e : oexp A.

Lemma flag_expr e : paired e -> a_expr (flag_of e) = a_expr (val_of e).
Proof.
  induction e as [o|m c m' c' s|m c s|fo f args IH] using oexp_ind'; cbn; try reflexivity.
  - intros ->. reflexivity.
  - intros H. apply fr_and in H. f_equal. rewrite !map_map. apply map_ext_in. intros x Hx. rewrite Forall_forall in *. auto.
Qed.
Lemma flag_shapes e : paired e -> operand_shapes (flag_of e) = operand_shapes (val_of e).
Proof. intros H. unfold operand_shapes. rewrite flag_expr by exact H. reflexivity. Qed.
Lemma flag_rhs e : paired e -> rhs_shape (flag_of e) = rhs_shape (val_of e).
Proof.
  destruct e; cbn [val_of flag_of rhs_shape paired]; try reflexivity.
  - intros ->. reflexivity.
  - intros H. apply (proj1 (fr_and paired args)) in H. rewrite Forall_forall in H.
    assert (E : map a_expr (map flag_of args) = map a_expr (map val_of args)).
    { rewrite !map_map. apply map_ext_in. intros x Hx. apply flag_expr. auto. }
    change (expr_shape (EFun (map a_expr (map flag_of args))) = expr_shape (EFun (map a_expr (map val_of args)))). rewrite E. reflexivity.
Qed.
Lemma elsewhere_val e : elsewhere e -> closed (val_of e).
Proof.
  induction e as [o|m c m' c' [s|]|m c [s|]|fo f args IH] using oexp_ind'; cbn; auto.
  rewrite !fr_and, Forall_map. intros H. rewrite Forall_forall in *. auto.
Qed.
Lemma elsewhere_flag e : elsewhere e -> closed (flag_of e).
Proof.
  induction e as [o|m c m' c' [s|]|m c [s|]|fo f args IH] using oexp_ind'; cbn; auto.
  rewrite !fr_and, Forall_map. intros H. rewrite Forall_forall in *. auto.
Qed.

(** ** The values and the flags of an expression say what the expression means *)
Lemma seqM_inv {B} (l : list (res B)) vs : seqM l = Ok vs -> Forall2 (fun r v => r = Ok v) l vs.
Proof.
  revert vs. induction l as [|r l IH]; cbn; intros vs H; [injection H as <-; constructor|].
  destruct r as [v| |]; cbn in H; try discriminate. destruct (seqM l) as [w| |]; cbn in H; try discriminate.
  injection H as <-. constructor; auto.
Qed.
Lemma flags_split (l : list bool) : forallb (fun b => b) l = false -> exists k, nth_error l k = Some false.
Proof.
  induction l as [|b l IH]; cbn; [discriminate|]. destruct b; cbn; intros H; [|exists 0%nat; reflexivity].
  destruct (IH H) as (k & Hk). exists (S k). exact Hk.
Qed.
Lemma F2_nth {B C} (P : B -> C -> Prop) l m k y : Forall2 P l m -> nth_error m k = Some y -> exists x, nth_error l k = Some x /\ P x y.
Proof.
  intros H. revert k. induction H as [|x z l m Hx _ IH]; intros [|k] E; cbn in *; try discriminate.
  - injection E as ->. eauto.
  - auto.
Qed.
Lemma F2_nth' {B C} (P : B -> C -> Prop) l m k x : Forall2 P l m -> nth_error l k = Some x -> exists y, nth_error m k = Some y /\ P x y.
Proof.
  intros H. revert k. induction H as [|u z l m Hx _ IH]; intros [|k] E; cbn in *; try discriminate.
  - injection E as ->. eauto.
  - auto.
Qed.

Lemma split_means mv mf ix e : forall v h, x_value ix (inst mv (val_of e)) = Ok v -> x_value ix (inst mf (flag_of e)) = Ok h ->
  means mv mf ix e (seen (mk_opt v h)).
Proof.
  induction e as [o|m c m' c' s|m c s|fo f args IH] using oexp_ind'; cbn; intros v h Hv Hh.
  - injection Hv as <-. injection Hh as <-. destruct o. constructor.
  - destruct h; cbn.
    + constructor; unfold shows, position; destruct s as [[b1 b2]|]; assumption.
    + constructor; unfold shows, position; destruct s as [[b1 b2]|]; assumption.
  - injection Hh as <-. cbn. constructor. exact Hv.
  - destruct (seqM _) as [vs| |] eqn:Ev in Hv; cbn in Hv; try discriminate. injection Hv as <-.
    destruct (seqM _) as [hs| |] eqn:Eh in Hh; cbn in Hh; try discriminate. injection Hh as <-.
    apply seqM_inv in Ev. apply seqM_inv in Eh. rewrite map_map in Ev. rewrite map_map in Eh.
    rewrite optional_bitwise_all.
    assert (K : forall args vs hs, Forall (fun e => forall v h, x_value ix (inst mv (val_of e)) = Ok v -> x_value ix (inst mf (flag_of e)) = Ok h ->
        means mv mf ix e (seen (mk_opt v h))) args ->
      Forall2 (fun r v => r = Ok v) (map (fun x => x_value ix (inst mv x)) (map val_of args)) vs ->
      Forall2 (fun r v => r = Ok v) (map (fun x => x_value ix (inst mf x)) (map flag_of args)) hs ->
      if forallb (fun b => b) hs then Forall2 (fun x v => means mv mf ix x (Some v)) args vs
      else exists x, In x args /\ means mv mf ix x None).
    { clear. induction args as [|x l IHl]; intros vs hs H Hv Hh; cbn in *; inversion Hv; subst; inversion Hh; subst; inversion H; subst.
      - constructor.
      - cbn. specialize (H2 _ _ eq_refl eq_refl) || idtac.
        match goal with H : forall v h, _ -> _ -> means _ _ _ x _ |- _ => specialize (H y y0) end.
        destruct y0; cbn in *.
        + specialize (IHl l' l'0). destruct (forallb _ _).
          * constructor; auto.
          * destruct IHl as (z & Hz & Hm); auto. exists z. auto.
        + exists x. auto. }
    specialize (K args vs hs IH Ev Eh). unfold seen. cbn. destruct (forallb _ hs).
    + apply M_fun. exact K.
    + destruct K as (x & Hx & Hm). eapply M_missing; eassumption.
Qed.
End E.
