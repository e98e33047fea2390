(** Proofs about arrays with missing values: element access and assignment. *)
From Coq Require Import List ZArith Bool Lia.
From Verif Require Import Prelude PreludeFacts Strides_Model Strides_Spec Strides_Proofs Broadcast_Model Broadcast_Spec
  Broadcast_Proofs Broadcast2_Proofs Layout_Model Slice_Model Access_Model
  Stepper_Model Stepper_Spec Stepper_Proofs Stepper3_Proofs Stepper4_Proofs Container_Model Container_Spec Container_Proofs
  Assign_Model Assign_Spec Assign_Proofs Assign2_Proofs Assign6_Proofs Assign7_Proofs Semantic_Model Semantic_Spec Semantic_Proofs
  Semantic2_Proofs Semantic3_Proofs Functor_Model Functor_Proofs Optional_Model Optional_Spec Optional_Proofs.
Import ListNotations.
Open Scope Z_scope.

Lemma broadcast_unique ss o o' : broadcast_of ss o -> broadcast_of ss o' -> o = o'.
Proof. apply broadcast_of_unique. intros; reflexivity. Qed.
Lemma broadcast_compatible (ss : list (list Z)) o : broadcast_of ss o -> compatible ss.
Proof.
  intros (_ & _ & B) s t k Hs Ht. destruct (B k) as [B1 _]. destruct (B1 s Hs) as [|E1]; [auto|]. destruct (B1 t Ht) as [|E2]; [auto|].
  right. right. congruence.
Qed.

(** ** The element of an expression is unique *)
Lemma means_fun {A} (mv : list A) mf ix e : forall x y, means mv mf ix e x -> means mv mf ix e y -> x = y.
Proof.
  induction e as [o|m c m' c' s|m c s|fo f args IH] using oexp_ind'; intros x y Hx Hy; inversion Hx; subst; inversion Hy; subst; unfold shows in *; try congruence.
  - f_equal. f_equal.
    match goal with H1 : Forall2 _ args vs, H2 : Forall2 _ args vs0 |- _ => revert H1 H2 end. clear Hx Hy. revert vs vs0.
    induction IH as [|x l Hx _ IHl]; intros v1 v2 H1 H2; inversion H1; subst; inversion H2; subst; [reflexivity|]. f_equal; [|auto].
    assert (E : Some y = Some y0) by auto. congruence.
  - exfalso. match goal with H1 : Forall2 _ args vs, H2 : In _ args |- _ => revert H1 H2 end.
    rewrite Forall_forall in IH. intros H1 H2. destruct (In_nth_error _ _ H2) as (k & Hk). destruct (F2_nth' _ _ _ _ _ H1 Hk) as (z & _ & Hz).
    assert (E : Some z = None) by (eapply IH; eassumption). discriminate.
  - exfalso. match goal with H1 : Forall2 _ args vs, H2 : In _ args |- _ => revert H1 H2 end.
    rewrite Forall_forall in IH. intros H1 H2. destruct (In_nth_error _ _ H2) as (k & Hk). destruct (F2_nth' _ _ _ _ _ H1 Hk) as (z & _ & Hz).
    assert (E : Some z = None) by (eapply IH; eassumption). discriminate.
Qed.

(** ** e(ix) *)
Definition leaf_ok {B} (c : container) (buf : list B) : Prop :=
  strided_ok c /\ forall ix, in_bounds (k_shape c) ix -> 0 <= k_begin c + dot ix (k_strides c) < Z.of_nat (length buf).

Lemma leaf_at_shows {B} (c : container) (buf : list B) sh ix : leaf_ok c buf -> fits (k_shape c) sh -> in_bounds sh ix ->
  exists v, leaf_at c buf ix = Ok v /\ shows c buf ix v.
Proof.
  intros (H1 & H2) Hf Hb. unfold leaf_at, shows. pose proof (element_offset_bc c sh ix H1 Hf Hb) as E. unfold fv_pos in E. rewrite E.
  destruct (rdz_some buf (position c (bc_index (k_shape c) ix))) as (v & Ev).
  - apply H2. destruct Hf as [F1 F2]. eapply bc_index_in_bounds; eassumption.
  - exists v. auto.
Qed.

Fixpoint leaves_good {A} (mv : list A) (mf : list bool) (e : oexp A) : Prop :=
  match e with
  | OScalar _ => True
  | OAssembly _ cv _ cf src =>
      leaf_ok cv (match src with Some (b, _) => b | None => mv end) /\ leaf_ok cf (match src with Some (_, b) => b | None => mf end) /\
      k_shape cf = k_shape cv
  | OArray _ c src => leaf_ok c (match src with Some b => b | None => mv end)
  | OFun _ _ args => fold_right (fun x P => leaves_good mv mf x /\ P) True args
  end.

Lemma valid_good {A} g gf (mv : list A) mf e : valid_o g gf mv mf e -> leaves_good mv mf e.
Proof.
  intros ((V1 & V2 & _) & (F1 & F2 & _) & Hp). unfold storage_ok in *.
  induction e as [o|m c m' c' s|m c s|fo f args IH] using oexp_ind'; cbn in *; auto.
  - destruct s as [[b1 b2]|]; cbn in *; unfold leaf_ok; tauto.
  - destruct s; cbn in *; unfold leaf_ok; tauto.
  - apply fr_and in V1. apply fr_and in V2. apply fr_and in F1. apply fr_and in F2. apply (proj1 (fr_and paired args)) in Hp.
    apply (proj2 (fr_and (leaves_good mv mf) args)). rewrite !Forall_map in V1, V2, F1, F2. rewrite Forall_forall in *. auto.
Qed.

Lemma o_at_means {A} (mv : list A) mf sh ix e : leaves_good mv mf e -> all_strict e -> (forall s, In s (o_shapes e) -> fits s sh) -> in_bounds sh ix ->
  exists o, o_at mv mf e ix = Ok o /\ means mv mf ix e (seen o).
Proof.
  intros Hg Hs Hf Hb. unfold o_shapes, operand_shapes in Hf.
  induction e as [o|m c m' c' s|m c s|fo f args IH] using oexp_ind'; cbn [o_at].
  - exists o. split; [reflexivity|constructor].
  - destruct Hg as (G1 & G2 & G3). cbn in Hf.
    destruct (leaf_at_shows _ _ sh ix G1 ltac:(apply Hf; left; reflexivity) Hb) as (v & E1 & S1).
    destruct (leaf_at_shows _ _ sh ix G2 ltac:(rewrite G3; apply Hf; left; reflexivity) Hb) as (h & E2 & S2).
    rewrite E1, E2. cbn. exists (mk_opt v h). split; [reflexivity|]. destruct h; constructor; assumption.
  - cbn in Hg, Hf. destruct (leaf_at_shows _ _ sh ix Hg ltac:(apply Hf; left; reflexivity) Hb) as (v & E1 & S1).
    rewrite E1. cbn. exists (mk_opt v true). split; [reflexivity|]. constructor. exact S1.
  - cbn in Hg, Hs, Hf. destruct Hs as (Hs & Hs'). apply fr_and in Hg. apply (proj1 (fr_and all_strict args)) in Hs'.
    assert (K : exists os, seqM (map (fun x => o_at mv mf x ix) args) = Ok os /\ Forall2 (fun x o => means mv mf ix x (seen o)) args os).
    { assert (Hf' : forall x s, In x args -> In s (leaves (a_expr (val_of x))) -> fits s sh).
      { intros x s Hx Hin. apply Hf. apply in_flat_map. exists (a_expr (val_of x)). split; [apply in_map, in_map, Hx|exact Hin]. }
      clear Hf Hs. induction IH as [|x l Hx _ IHl]; cbn; [exists []; split; [reflexivity|constructor]|].
      inversion Hg; subst. inversion Hs'; subst.
      destruct Hx as (o & E & M); auto. { intros s Hin. apply (Hf' x); [left; reflexivity|exact Hin]. }
      destruct IHl as (os & E' & M'); auto. { intros y s Hy. apply Hf'. right. exact Hy. }
      rewrite E, E'. cbn. exists (o :: os). split; [reflexivity|constructor; assumption]. }
    destruct K as (os & E & M). rewrite E. cbn. exists (fo os). split; [reflexivity|]. rewrite Hs.
    destruct (forallb o_has os) eqn:Ha.
    + apply M_fun. clear - M Ha. induction M as [|x o l os Hx _ IHM]; cbn in *; constructor.
      * apply andb_prop in Ha. destruct Ha as [Ha _]. unfold seen in Hx. rewrite Ha in Hx. exact Hx.
      * apply IHM. apply andb_prop in Ha. tauto.
    + assert (K : exists x, In x args /\ means mv mf ix x None).
      { clear - M Ha. induction M as [|x o l os Hx _ IHM]; cbn in *; [discriminate|].
        destruct (o_has o) eqn:Eo; cbn in Ha.
        - destruct (IHM Ha) as (z & Hz & Mz). exists z. auto.
        - exists x. split; [auto|]. unfold seen in Hx. rewrite Eo in Hx. exact Hx. }
      destruct K as (x & Hx & Hm). eapply M_missing; eassumption.
Qed.

(** ** Assignment *)
Lemma inst_values {V} g (mem : list V) e sh ix : valid_operands g mem e -> (forall s, In s (operand_shapes e) -> fits s sh) -> in_bounds sh ix ->
  exists x, x_value ix (inst mem e) = Ok x.
Proof.
  intros (V1 & V2 & _) Hf Hb. unfold storage_ok, operand_shapes in *.
  induction e as [o|m c s|s f|f args IH] using aexp_ind'; cbn in *; eauto.
  - assert (F : fits (k_shape c) sh) by (apply Hf; left; reflexivity).
    apply rdz_some. apply V2. destruct F as [F1 F2]. eapply bc_index_in_bounds; eassumption.
  - apply fr_and in V1. apply fr_and in V2. rewrite Forall_map in V1, V2. rewrite map_map.
    assert (Hf' : forall x s, In x args -> In s (leaves (a_expr x)) -> fits s sh).
    { intros x s Hx Hin. apply Hf. apply in_flat_map. exists (a_expr x). split; [apply in_map, Hx|exact Hin]. }
    assert (K : exists vs, seqM (map (fun x => x_value ix (inst mem x)) args) = Ok vs).
    { clear Hf. induction IH as [|x l Hx _ IHl]; cbn; [eauto|]. inversion V1; subst. inversion V2; subst.
      destruct Hx as (v & E); auto. { intros s Hin. apply (Hf' x); [left; reflexivity|exact Hin]. }
      destruct IHl as (vs & E'); auto. { intros y s Hy. apply Hf'. right. exact Hy. }
      rewrite E, E'. cbn. eauto. }
    destruct K as (vs & E). rewrite E. cbn. eauto.
Qed.

Section A.
Context {A : Type} (g gf : Z -> setup) (SV SF : layout) (D : option nat) (DL : layout) (rv : list A -> Z -> list A) (rf : list bool -> Z -> list bool).
Hypothesis Hg : setups_ok g.
Hypothesis Hgf : setups_ok gf.
Hypothesis HDL : is_order DL.
Hypothesis Hrv : resizes rv.
Hypothesis Hrf : resizes rf.

Lemma o_assign_join (a : asm A) e v' f' : paired e ->
  (forall r, c_assign_xexpression g SV D DL rv (as_value a) (val_of e) r <-> r = Done v') ->
  (forall r, c_assign_xexpression gf SF D DL rf (as_flag a) (flag_of e) r <-> r = Done f') ->
  forall r, o_assign SV SF D DL rv rf g gf a e r <-> r = Done (mk_asm v' f').
Proof.
  intros Hp. unfold c_assign_xexpression, o_assign. rewrite flag_rhs by exact Hp.
  destruct (rhs_shape (val_of e)) as [[sh t]|x|].
  2: { intros H. exfalso. pose proof (proj1 (H _) eq_refl). discriminate. }
  2: { intros H. exfalso. pose proof (proj1 (H _) eq_refl). discriminate. }
  destruct (c_resize SV DL rv (as_value a) sh false) as [v|x|].
  2: { intros H. exfalso. pose proof (proj1 (H _) eq_refl). discriminate. }
  2: { intros H. exfalso. pose proof (proj1 (H _) eq_refl). discriminate. }
  intros Hv.
  destruct (c_resize SF DL rf (as_flag a) sh false) as [f|x|].
  2: { intros H. exfalso. pose proof (proj1 (H _) eq_refl). discriminate. }
  2: { intros H. exfalso. pose proof (proj1 (H _) eq_refl). discriminate. }
  intros Hf r. split.
  - intros (r1 & H1 & H2). apply Hv in H1. subst r1. destruct H2 as (r2 & H2 & ->). apply Hf in H2. subst r2. reflexivity.
  - intros ->. exists (Done v'). split; [apply Hv; reflexivity|]. exists (Done f'). split; [apply Hf; reflexivity|reflexivity].
Qed.

Lemma join_holds mv mf (e : oexp A) (v' : cont A) f' : paired e -> well_formed SV D v' -> well_formed SF D f' ->
  holds_value mv (val_of e) v' -> holds_value mf (flag_of e) f' ->
  good_asm SV SF D (mk_asm v' f') /\ holds mv mf e (mk_asm v' f').
Proof.
  intros Hp Wv Wf (Bv & Ev) (Bf & Ef). rewrite flag_shapes in Bf by exact Hp.
  assert (Es : ct_shape f' = ct_shape v') by (eapply broadcast_unique; eassumption).
  split; [split; [exact Wv|split; [exact Wf|exact Es]]|]. split; [exact Bv|].
  unfold as_shape. cbn. intros ix Hb. destruct (Ev ix Hb) as (x & X1 & X2). destruct (Ef ix ltac:(rewrite Es; exact Hb)) as (h & H1 & H2).
  unfold elt in *. unfold as_at. cbn. 
  exists (mk_opt x h). split; [|apply split_means; assumption]. rewrite X2, H2. reflexivity.
Qed.

Lemma o_assign_ok (a : asm A) e mv mf : good_asm SV SF D a -> valid_o g gf mv mf e -> elsewhere e -> rank_matches D (val_of e) ->
  compatible (o_shapes e) ->
  exists a', (forall r, o_operator_assign SV SF D DL rv rf g gf a e r <-> r = Done a') /\ good_asm SV SF D a' /\ holds mv mf e a'.
Proof.
  intros (Wv & Wf & Es) (Vv & Vf & Hp) Hel HD Hc.
  destruct (c_assign_closed g SV D DL rv Hg HDL Hrv (as_value a) (val_of e) mv Wv Vv (elsewhere_val e Hel) HD Hc) as (v' & Iv & Wv' & Hv').
  assert (HDf : rank_matches D (flag_of e)) by (unfold rank_matches in *; rewrite flag_shapes by exact Hp; exact HD).
  assert (Hcf : compatible (operand_shapes (flag_of e))) by (rewrite flag_shapes by exact Hp; exact Hc).
  destruct (c_assign_closed gf SF D DL rf Hgf HDL Hrf (as_flag a) (flag_of e) mf Wf Vf (elsewhere_flag e Hel) HDf Hcf) as (f' & If & Wf' & Hf').
  exists (mk_asm v' f'). split; [apply o_assign_join; assumption|]. apply join_holds; assumption.
Qed.

Lemma o_assign_throws (a : asm A) e mv mf : valid_o g gf mv mf e -> ~ compatible (o_shapes e) ->
  forall r, o_operator_assign SV SF D DL rv rf g gf a e r <-> r = Threw broadcast_error a.
Proof.
  intros (Vv & _) Hc r. unfold o_operator_assign, o_assign.
  rewrite (proj2 (rhs_shape_ok (val_of e) (valid_real _ _ _ Vv)) Hc). reflexivity.
Qed.
End A.

(** ** The destination among the operands *)
Section I.
Context {V : Type} (g : Z -> setup) (SL : layout) (D : option nat) (DL : layout) (rs : list V -> Z -> list V).
Hypothesis Hg : setups_ok g.

Fixpoint itself (a : cont V) (e : aexp V) : Prop :=
  match e with
  | ALeaf _ _ None => e = self SL D a
  | AFun _ args => fold_right (fun x P => itself a x /\ P) True args
  | _ => True
  end.
Lemma zlist_eqb_refl l : zlist_eqb l l = true.
Proof. apply zlist_eqb_eq. reflexivity. Qed.
Lemma itself_rebind a e : itself a e -> rebind SL D a a e = e.
Proof.
  induction e as [x|m k [s|]|s f|f args IH] using aexp_ind'; cbn; try reflexivity.
  - intros ->. destruct (same_container _ _); reflexivity.
  - intros H. apply (proj1 (fr_and (itself a) args)) in H. f_equal. rewrite <- (map_id args) at 2. apply map_ext_in. intros x Hx.
    rewrite Forall_forall in *. auto.
Qed.
Lemma itself_independent a e : itself a e -> pure_generators e -> independent (c_strided a) e.
Proof.
  induction e as [x|m k [s|]|s f|f args IH] using aexp_ind'; cbn; auto.
  - intros E _ ix Hb. unfold self in E. injection E as -> ->. left. change (k_shape (c_strided a)) with (ct_shape a). rewrite bc_index_self by exact Hb. reflexivity.
  - rewrite !fr_and. intros H1 H2. rewrite Forall_forall in *. auto.
Qed.
Lemma c_assign_itself (a : cont V) e : well_formed SL D a -> valid_operands g (ct_data a) e -> itself a e ->
  broadcast_of (operand_shapes e) (ct_shape a) ->
  exists a', (forall r, c_assign_xexpression g SL D DL rs a e r <-> r = Done a') /\ well_formed SL D a' /\ holds_value (ct_data a) e a'.
Proof.
  intros Hw Hv Hi Hb. pose proof (valid_real _ _ _ Hv) as Hr. pose proof Hv as (V1 & V2 & V3 & V4 & V5).
  assert (Hc : compatible (operand_shapes e)) by (eapply broadcast_compatible; exact Hb).
  destruct (proj1 (rhs_shape_ok e Hr) Hc) as (sh & t & E & Hb' & Ht).
  assert (sh = ct_shape a) as -> by (eapply broadcast_unique; eassumption).
  destruct (c_assign_data_ok g SL D a e t Hg Hw) as (a' & Hiff & Hw' & Es' & Hval).
  - apply operands_fit; [|exact V1]. intros s Hs. eapply broadcast_fits; eassumption.
  - exact V2.
  - exact V3.
  - exact V4.
  - intros Htt. apply (leaves_shapes e (fun s => s = ct_shape a)). auto.
  - eapply independent_elementwise; [eapply wf_writable; eassumption|]. apply itself_independent; assumption.
  - exists a'. split; [|split; [exact Hw'|]].
    + intros r. unfold c_assign_xexpression. rewrite E. unfold c_resize. rewrite zlist_eqb_refl. cbn [negb orb]. rewrite itself_rebind by exact Hi. apply Hiff.
    + split; [rewrite Es'; exact Hb|]. intros ix Hix. rewrite Es' in Hix. apply Hval. exact Hix.
Qed.
End I.

Section A2.
Context {A : Type} (g gf : Z -> setup) (SV SF : layout) (D : option nat) (DL : layout) (rv : list A -> Z -> list A) (rf : list bool -> Z -> list bool).
Hypothesis Hg : setups_ok g.
Hypothesis Hgf : setups_ok gf.

Lemma only_val a e : only_itself SV SF D a e -> itself SV D (as_value a) (@val_of A e).
Proof.
  induction e as [o|m c m' c' [s|]|m c [s|]|fo f args IH] using oexp_ind'; cbn; auto; try tauto.
  - unfold o_self. intros E. injection E as -> -> -> ->. reflexivity.
  - intros H. apply (proj1 (fr_and (only_itself SV SF D a) args)) in H. apply (proj2 (fr_and (itself SV D (as_value a)) _)). rewrite Forall_map.
    rewrite Forall_forall in *. auto.
Qed.
Lemma only_flag a e : only_itself SV SF D a e -> itself SF D (as_flag a) (@flag_of A e).
Proof.
  induction e as [o|m c m' c' [s|]|m c [s|]|fo f args IH] using oexp_ind'; cbn; auto; try tauto.
  - unfold o_self. intros E. injection E as -> -> -> ->. reflexivity.
  - intros H. apply (proj1 (fr_and (only_itself SV SF D a) args)) in H. apply (proj2 (fr_and (itself SF D (as_flag a)) _)). rewrite Forall_map.
    rewrite Forall_forall in *. auto.
Qed.
Lemma o_assign_itself (a : asm A) e : good_asm SV SF D a -> valid_o g gf (ct_data (as_value a)) (ct_data (as_flag a)) e -> only_itself SV SF D a e ->
  broadcast_of (o_shapes e) (as_shape a) ->
  exists a', (forall r, o_operator_assign SV SF D DL rv rf g gf a e r <-> r = Done a') /\ good_asm SV SF D a' /\
    holds (ct_data (as_value a)) (ct_data (as_flag a)) e a'.
Proof.
  intros (Wv & Wf & Es) (Vv & Vf & Hp) Hi Hb.
  destruct (c_assign_itself g SV D DL rv Hg (as_value a) (val_of e) Wv Vv (only_val _ _ Hi) Hb) as (v' & Iv & Wv' & Hv').
  destruct (c_assign_itself gf SF D DL rf Hgf (as_flag a) (flag_of e) Wf Vf (only_flag _ _ Hi)) as (f' & If & Wf' & Hf').
  { rewrite flag_shapes by exact Hp. rewrite Es. exact Hb. }
  exists (mk_asm v' f'). split; [apply o_assign_join; assumption|]. apply join_holds; assumption.
Qed.
End A2.
