(** Proofs about adaptors. *)
From Coq Require Import List ZArith Bool Lia.
From Verif Require Import Prelude PreludeFacts Strides_Model Strides_Spec Strides_Proofs Broadcast_Model Broadcast_Spec
  Broadcast_Proofs Broadcast2_Proofs Layout_Model Slice_Model Access_Model
  Stepper_Model Stepper_Spec Stepper_Proofs Stepper3_Proofs Stepper4_Proofs Container_Model Container_Spec Container_Proofs
  Assign_Model Assign_Spec Assign_Proofs Assign2_Proofs Assign6_Proofs Assign7_Proofs Semantic_Model Semantic_Spec Semantic_Proofs
  Semantic2_Proofs Semantic3_Proofs Semantic4_Proofs Semantic5_Proofs Semantic6_Proofs SView_Proofs Adapt_Model Adapt_Spec.
Import ListNotations.
Open Scope Z_scope.

Section A.
Context {V : Type} (fixed : bool) (g : Z -> setup) (SL : layout) (D : option nat) (DL : layout) (rs : list V -> Z -> list V) (v : V).
Hypothesis Hg : setups_ok g.
Hypothesis HDL : is_order DL.
Hypothesis Hrs : resizes rs.

Definition new_layout (l : layout) : layout := if layout_eqb SL dynamic && layout_eqb l dynamic then DL else l.

(** A resize that takes place *)
Lemma b_resize_eq (a : cont V) sh : exists st bs,
  compute_strides SL sh (new_layout (ct_layout a)) (repeat 0 (length sh)) (Some (repeat 0 (length sh))) = Ok (st, Some bs, prod sh) /\
  b_resize fixed SL DL rs a sh true = buffer_resize fixed rs (mk_cont sh st bs (new_layout (ct_layout a)) (ct_data a)) (prod sh) /\
  forall rs', c_resize SL DL rs' a sh true = Ok (mk_cont sh st bs (new_layout (ct_layout a)) (rs' (ct_data a) (prod sh))).
Proof.
  destruct (cs_strided SL (new_layout (ct_layout a)) sh) as (st & bs & E & _). exists st, bs. split; [exact E|].
  assert (H : forall rs' : list V -> Z -> list V, c_resize SL DL rs' a sh true = Ok (mk_cont sh st bs (new_layout (ct_layout a)) (rs' (ct_data a) (prod sh)))).
  { intros rs'. unfold c_resize. rewrite orb_true_r. fold (new_layout (ct_layout a)). rewrite E. reflexivity. }
  split; [|exact H]. unfold b_resize. rewrite orb_true_r, H, compute_size_prod. reflexivity.
Qed.

Definition to_fin (a : cont V) (r : res (cont V)) : fin (cont V) :=
  match r with Ok a' => Done a' | Throw x => Threw x a | UB => Undefined end.

Lemma b_resize_force (a : cont V) sh : zlist_eqb sh (ct_shape a) = false -> b_resize fixed SL DL rs a sh false = b_resize fixed SL DL rs a sh true.
Proof. intros E. unfold b_resize. rewrite E. reflexivity. Qed.

(** With a size that fits, the buffer is resized like the storage of a container. *)
Lemma b_resize_fits (a : cont V) sh : (fixed = true -> keeps rs /\ Z.of_nat (length (ct_data a)) = prod sh) ->
  b_resize fixed SL DL rs a sh false = to_fin a (c_resize SL DL rs a sh false).
Proof.
  intros Hf. destruct (zlist_eqb sh (ct_shape a)) eqn:E.
  - unfold b_resize, c_resize. rewrite E. reflexivity.
  - rewrite b_resize_force by exact E. destruct (b_resize_eq a sh) as (st & bs & _ & -> & H). specialize (H rs).
    assert (c_resize SL DL rs a sh false = c_resize SL DL rs a sh true) as -> by (unfold c_resize; rewrite E; reflexivity).
    rewrite H. cbn. unfold buffer_resize. cbn [ct_data]. destruct fixed; [|reflexivity].
    destruct (Hf eq_refl) as (K & L). rewrite L, Z.eqb_refl. rewrite <- L, K. reflexivity.
Qed.

(** ** Construction *)
Lemma adapt_lemma buffer sh l : is_shape sh -> SL <> any -> l <> any -> (SL <> dynamic -> l = SL) ->
  match D with Some n => length sh = n | None => True end -> (fixed = true -> Z.of_nat (length buffer) = prod sh) ->
  exists a, adapt fixed SL D DL rs buffer sh l = Done a /\ well_formed SL D a /\
    shows a (if fixed then buffer else rs buffer (prod sh)) sh (if layout_eqb l dynamic then DL else l).
Proof.
  intros Hs HSL Hl Hlay HD Hf. unfold adapt, b_resize_layout.
  assert (negb (layout_eqb SL dynamic) && negb (layout_eqb l SL) = false) as ->.
  { destruct (layout_eqb SL dynamic) eqn:E; [reflexivity|]. cbn. rewrite Hlay by (apply layout_eqb_neq; exact E). destruct SL; reflexivity. }
  match goal with |- context [b_resize _ _ _ _ ?x _ _] => set (a0 := x) end.
  destruct (b_resize_eq a0 sh) as (st & bs & E & -> & _). cbn [a0 ct_layout ct_data] in *.
  assert (Hl1 : SL <> dynamic -> new_layout l = SL).
  { intros Hn. unfold new_layout. pose proof Hn as Hn'. apply layout_eqb_neq in Hn'. rewrite Hn'. cbn. auto. }
  assert (Hl2 : new_layout l <> any) by (unfold new_layout; destruct (_ && _); [apply order_not_any; exact HDL|exact Hl]).
  assert (Hd : layout_eqb l dynamic = true -> SL = dynamic).
  { intros El. destruct SL eqn:ES; try reflexivity; exfalso; [apply HSL; reflexivity|..]; (rewrite Hlay in El by discriminate; discriminate El). }
  assert (Ho : order_of SL (new_layout l) = if layout_eqb l dynamic then DL else l).
  { assert (En : new_layout l = if layout_eqb l dynamic then DL else l).
    { unfold new_layout. destruct (layout_eqb l dynamic) eqn:El; [rewrite (Hd eq_refl)|rewrite andb_false_r]; reflexivity. }
    rewrite order_of_reported; [exact En|exact Hl1|]. rewrite En. destruct (layout_eqb l dynamic) eqn:El; [exact HDL|]. destruct l; try discriminate; [congruence|left; reflexivity|right; reflexivity]. }
  destruct (cs_strided SL (new_layout l) sh) as (st' & bs' & E' & _ & H2).
  assert (st' = st /\ bs' = bs) as [-> ->] by (rewrite E in E'; injection E' as -> ->; auto).
  set (d := if fixed then buffer else rs buffer (prod sh)).
  exists (mk_cont sh st bs (new_layout l) d). split; [|split].
  - unfold buffer_resize, d. change (ct_data (unshaped SL D buffer)) with buffer. cbn [ct_data]. destruct fixed; [|reflexivity]. rewrite (Hf eq_refl), Z.eqb_refl. reflexivity.
  - eapply resize_any_wf; eauto. unfold d. destruct fixed; [exact (Hf eq_refl)|apply Hrs; apply prod_nn; exact Hs].
  - split; [reflexivity|]. split; [reflexivity|]. intros ix Hix. unfold elt. cbn [ct_data ct_strides].
    f_equal. rewrite <- Ho. destruct (cs_dense SL (new_layout l) sh) as (st2 & bs2 & E2 & _ & _ & H3). rewrite E in E2. injection E2 as <- <-.
    apply H3. exact Hix.
Qed.

(** A buffer of a fixed size that is not that of the shape *)
Lemma adapt_size_lemma buffer sh l : fixed = true -> (SL <> dynamic -> l = SL) -> Z.of_nat (length buffer) <> prod sh ->
  exists a, adapt fixed SL D DL rs buffer sh l = Threw runtime_error a /\ ct_data a = buffer.
Proof.
  intros Hf Hlay Hn. unfold adapt, b_resize_layout.
  assert (negb (layout_eqb SL dynamic) && negb (layout_eqb l SL) = false) as ->.
  { destruct (layout_eqb SL dynamic) eqn:E; [reflexivity|]. cbn. rewrite Hlay by (apply layout_eqb_neq; exact E). destruct SL; reflexivity. }
  match goal with |- context [b_resize _ _ _ _ ?x _ _] => set (a0 := x) end.
  destruct (b_resize_eq a0 sh) as (st & bs & E & -> & _). unfold buffer_resize. rewrite Hf.
  change (ct_data a0) with buffer. cbn [ct_data]. apply Z.eqb_neq in Hn. rewrite Hn. eexists. split; reflexivity.
Qed.
Lemma adapt_layout_lemma buffer sh l : SL <> dynamic -> l <> SL -> exists a, adapt fixed SL D DL rs buffer sh l = Threw runtime_error a /\ ct_data a = buffer.
Proof.
  intros H1 H2. unfold adapt, b_resize_layout. apply layout_eqb_neq in H1, H2. rewrite H1, H2. cbn. eexists. split; reflexivity.
Qed.

Lemma adapt_strides_lemma buffer sh st : SL = dynamic -> is_shape sh -> length st = length sh -> (fixed = true -> Z.of_nat (length buffer) = prod sh) ->
  exists a, adapt_with_strides fixed SL D rs buffer sh st = Done a /\ shows_strided a (if fixed then buffer else rs buffer (prod sh)) sh st.
Proof.
  intros HSL Hs Hl Hf. unfold adapt_with_strides, b_resize_strides, c_resize_strides. rewrite HSL. cbn [layout_eqb negb].
  rewrite adapt_strides_ok by (rewrite ?repeat_length; auto). cbn [bind].
  exists (mk_cont sh (adapted sh st) (spec_backstrides (adapted sh st) sh) dynamic (if fixed then buffer else rs buffer (prod sh))). split.
  - unfold buffer_resize. rewrite compute_size_prod. change (ct_data (unshaped dynamic D buffer)) with buffer. cbn [ct_data].
    destruct fixed; [|reflexivity]. rewrite (Hf eq_refl), Z.eqb_refl. reflexivity.
  - split; [reflexivity|]. split; [reflexivity|]. intros ix Hix. unfold elt. cbn [ct_data ct_strides]. f_equal.
    rewrite element_offset_same by (rewrite adapted_length; apply in_bounds_length; exact Hix). apply dot_adapted; assumption.
Qed.

(** ** Assignment *)
(** The result of an assignment to a container, with the layout of the adaptor *)
Lemma b_assign_iff (a : cont V) e r sh t : rhs_shape e = Ok (sh, t) -> (fixed = true -> keeps rs /\ Z.of_nat (length (ct_data a)) = prod sh) ->
  b_assign_xexpression fixed g SL D DL rs a e r <-> c_assign_xexpression g SL D DL rs a e r.
Proof.
  intros E Hf. unfold b_assign_xexpression, c_assign_xexpression. rewrite E, (b_resize_fits a sh Hf).
  destruct (c_resize SL DL rs a sh false) as [a'|x|]; cbn; reflexivity.
Qed.

Definition same_but_layout (a1 a2 : cont V) : Prop :=
  ct_shape a1 = ct_shape a2 /\ ct_strides a1 = ct_strides a2 /\ ct_back a1 = ct_back a2 /\ ct_data a1 = ct_data a2.
Lemma holds_same mem e a1 a2 : same_but_layout a1 a2 -> holds_value mem e a1 -> holds_value mem e a2.
Proof. intros (E1 & E2 & _ & E4) H. unfold holds_value, elt in *. rewrite <- E1, <- E2, <- E4. exact H. Qed.

Lemma b_operator_assign_lemma (a : cont V) e : well_formed SL D a -> valid_operands g (ct_data a) e -> rank_matches D e ->
  (fixed = true -> keeps rs /\ forall sh, broadcast_of (operand_shapes e) sh -> prod sh = prod (ct_shape a)) ->
  (compatible (operand_shapes e) ->
     exists a', (forall r, b_operator_assign fixed g SL D DL rs v a e r <-> r = Done a') /\ (SL <> dynamic -> well_formed SL D a') /\ holds_value (ct_data a) e a').
Proof.
  intros Hw Hv HD Hf Hcomp. pose proof (valid_real _ _ _ Hv) as Hreal.
  destruct (operator_assign_ok g SL D DL rs v Hg HDL Hrs a e Hw Hv HD) as (Hok & _). destruct (Hok Hcomp) as (a' & Hiff & Hw' & Hval).
  destruct (proj1 (rhs_shape_ok e Hreal) Hcomp) as (sh & t & E & Hb & _).
  pose proof Hw as (_ & _ & Hlen & HSL & _ & Hlay & _).
  assert (Hfs : fixed = true -> keeps rs /\ Z.of_nat (length (ct_data a)) = prod sh).
  { intros F. destruct (Hf F) as (K & P). split; [exact K|]. rewrite Hlen. symmetry. apply P. exact Hb. }
  unfold c_operator_assign in Hiff. unfold b_operator_assign. destruct (check_overlap (c_strided a) e) as [[|]|x|].
  - destruct (c_construct_ok g SL D DL rs v Hg HDL Hrs (ct_data a) e HSL Hv HD Hcomp) as (tmp & Ht & Hwt & Hvt).
    exists (mk_cont (ct_shape tmp) (ct_strides tmp) (ct_back tmp) (ct_layout a) (ct_data tmp)).
    assert (Esh : ct_shape tmp = sh) by (eapply broadcast_of_unique; [|apply Hvt|exact Hb]; tauto).
    assert (Em : b_move_temporary fixed rs a (Done tmp) = Done (mk_cont (ct_shape tmp) (ct_strides tmp) (ct_back tmp) (ct_layout a) (ct_data tmp))).
    { unfold b_move_temporary, buffer_resize. cbn [ct_data]. destruct fixed; [|reflexivity]. destruct (Hfs eq_refl) as (_ & L).
      destruct Hwt as (_ & _ & Lt & _). rewrite L, Lt, Esh, Z.eqb_refl. reflexivity. }
    split; [|split].
    + intros r. split.
      * intros (y & Hy & ->). apply Ht in Hy. subst y. exact Em.
      * intros ->. exists (Done tmp). split; [apply Ht; reflexivity|symmetry; exact Em].
    + intros Hn. replace (mk_cont _ _ _ _ _) with tmp; [exact Hwt|]. destruct Hwt as (_ & _ & _ & _ & _ & Hlt & _).
      rewrite (Hlay Hn), <- (Hlt Hn). destruct tmp; reflexivity.
    + eapply holds_same; [|exact Hvt]. repeat split.
  - exists a'. split; [|auto]. intros r. rewrite (b_assign_iff a e r sh t E Hfs). apply Hiff.
  - specialize (Hiff (Threw x a)). destruct Hiff as (H & _). discriminate (H eq_refl).
  - specialize (Hiff Undefined). destruct Hiff as (H & _). discriminate (H eq_refl).
Qed.

Lemma b_operator_assign_incompatible (a : cont V) e : well_formed SL D a -> valid_operands g (ct_data a) e -> rank_matches D e ->
  ~ compatible (operand_shapes e) -> forall r, b_operator_assign fixed g SL D DL rs v a e r <-> r = Threw broadcast_error a.
Proof.
  intros Hw Hv HD Hn. pose proof (valid_real _ _ _ Hv) as Hreal.
  destruct (operator_assign_ok g SL D DL rs v Hg HDL Hrs a e Hw Hv HD) as (_ & Hno). specialize (Hno Hn).
  pose proof (proj2 (rhs_shape_ok e Hreal) Hn) as E. intros r.
  unfold c_operator_assign in Hno. unfold b_operator_assign. destruct (check_overlap (c_strided a) e) as [[|]|x|].
  - assert (Hs : forall y, c_construct g SL D DL rs v (frozen (ct_data a) e) y -> b_move_temporary fixed rs a y = Threw broadcast_error a).
    { intros y Hy. assert (Em : move_temporary a y = Threw broadcast_error a) by (apply Hno; exists y; auto).
      destruct y; cbn in *; congruence. }
    split.
    + intros (y & Hy & ->). apply Hs. exact Hy.
    + intros ->. destruct (proj2 (Hno _) eq_refl) as (y & Hy & _). exists y. split; [exact Hy|]. symmetry. apply Hs. exact Hy.
  - unfold b_assign_xexpression. rewrite E. tauto.
  - apply Hno.
  - apply Hno.
Qed.

(** A buffer of a fixed size, and an expression of another size *)
Lemma b_operator_assign_size (a : cont V) e sh : fixed = true -> well_formed SL D a -> valid_operands g (ct_data a) e -> rank_matches D e ->
  broadcast_of (operand_shapes e) sh -> prod sh <> prod (ct_shape a) ->
  exists a', (forall r, b_operator_assign fixed g SL D DL rs v a e r <-> r = Threw runtime_error a') /\ ct_data a' = ct_data a /\ ct_shape a' = sh.
Proof.
  intros F Hw Hv HD Hb Hp. pose proof (valid_real _ _ _ Hv) as Hreal.
  assert (Hcomp : compatible (operand_shapes e)) by (eapply fits_compatible; intros s Hs; eapply broadcast_fits; eassumption).
  destruct (operator_assign_ok g SL D DL rs v Hg HDL Hrs a e Hw Hv HD) as (Hok & _). destruct (Hok Hcomp) as (a0 & Hiff & Hw' & Hval).
  destruct (proj1 (rhs_shape_ok e Hreal) Hcomp) as (sh' & t & E & Hb' & _).
  assert (sh' = sh) as -> by (eapply broadcast_of_unique; [|exact Hb'|exact Hb]; tauto).
  pose proof Hw as (_ & _ & Hlen & HSL & _ & Hlay & _).
  unfold c_operator_assign in Hiff. unfold b_operator_assign. destruct (check_overlap (c_strided a) e) as [[|]|x|].
  - destruct (c_construct_ok g SL D DL rs v Hg HDL Hrs (ct_data a) e HSL Hv HD Hcomp) as (tmp & Ht & Hwt & Hvt).
    assert (Esh : ct_shape tmp = sh) by (eapply broadcast_of_unique; [|apply Hvt|exact Hb]; tauto).
    assert (Em : b_move_temporary fixed rs a (Done tmp) = Threw runtime_error (mk_cont (ct_shape tmp) (ct_strides tmp) (ct_back tmp) (ct_layout a) (ct_data a))).
    { unfold b_move_temporary, buffer_resize. cbn [ct_data]. rewrite F. destruct Hwt as (_ & _ & Lt & _). rewrite Lt, Esh, Hlen.
      replace (prod (ct_shape a) =? prod sh) with false by (symmetry; apply Z.eqb_neq; congruence). reflexivity. }
    exists (mk_cont (ct_shape tmp) (ct_strides tmp) (ct_back tmp) (ct_layout a) (ct_data a)). split; [|split]; [|reflexivity|exact Esh].
    intros r. split.
    + intros (y & Hy & ->). apply Ht in Hy. subst y. exact Em.
    + intros ->. exists (Done tmp). split; [apply Ht; reflexivity|symmetry; exact Em].
  - destruct (b_resize_eq a sh) as (st & bs & _ & Er & _).
    assert (En : zlist_eqb sh (ct_shape a) = false).
    { destruct (zlist_eqb sh (ct_shape a)) eqn:Ez; [|reflexivity]. apply zlist_eqb_eq in Ez. congruence. }
    unfold b_assign_xexpression. rewrite E, (b_resize_force a sh En), Er. unfold buffer_resize. cbn [ct_data]. rewrite F, Hlen.
    replace (prod (ct_shape a) =? prod sh) with false by (symmetry; apply Z.eqb_neq; congruence).
    eexists. split; [intros r; split; intros H; exact H|]. split; reflexivity.
  - specialize (Hiff (Threw x a)). destruct Hiff as (H & _). discriminate (H eq_refl).
  - specialize (Hiff Undefined). destruct Hiff as (H & _). discriminate (H eq_refl).
Qed.
End A.
