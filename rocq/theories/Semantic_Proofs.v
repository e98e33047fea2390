(** Proofs about the assignment operators: containers. *)
From Coq Require Import List ZArith Bool Lia.
From Verif Require Import Prelude PreludeFacts Strides_Model Strides_Spec Strides_Proofs Broadcast_Model Broadcast_Spec
  Broadcast_Proofs Broadcast2_Proofs Layout_Model Slice_Model Access_Model
  Stepper_Model Stepper_Spec Stepper_Proofs Stepper3_Proofs Stepper4_Proofs Container_Model Container_Spec Container_Proofs
  Assign_Model Assign_Spec Assign_Proofs Assign2_Proofs Assign6_Proofs Assign7_Proofs Semantic_Model Semantic_Spec.
Import ListNotations.
Open Scope Z_scope.

Fixpoint closed {V} (e : aexp V) : Prop :=
  match e with
  | ALeaf _ _ None => False
  | AFun _ args => fold_right (fun a acc => closed a /\ acc) True args
  | _ => True
  end.

Lemma fr_and {A} (P : A -> Prop) l : fold_right (fun a acc => P a /\ acc) True l <-> Forall P l.
Proof.
  induction l as [|a l IH]; cbn; split; intros H; auto.
  - destruct H. constructor; tauto.
  - inversion H; subst. tauto.
Qed.

Lemma frozen_inst {V} (mem mem' : list V) e : inst mem' (frozen mem e) = inst mem e.
Proof.
  induction e as [v|m k [s|]|s f|f args IH] using aexp_ind'; cbn; try reflexivity.
  f_equal. rewrite map_map. induction IH; cbn; f_equal; assumption.
Qed.
Lemma frozen_expr {V} (mem : list V) e : a_expr (frozen mem e) = a_expr e.
Proof.
  induction e as [v|m k [s|]|s f|f args IH] using aexp_ind'; cbn; try reflexivity.
  f_equal. rewrite map_map. induction IH; cbn; f_equal; assumption.
Qed.
Lemma frozen_shape {V} (mem : list V) e : rhs_shape (frozen mem e) = rhs_shape e.
Proof.
  destruct e; try reflexivity. cbn [frozen rhs_shape]. rewrite map_map. do 2 f_equal. apply map_ext. intros a. apply frozen_expr.
Qed.
Lemma frozen_closed {V} (mem : list V) e : closed (frozen mem e).
Proof.
  induction e as [v|m k [s|]|s f|f args IH] using aexp_ind'; cbn; auto.
  apply fr_and. apply Forall_forall. intros x Hx. apply in_map_iff in Hx. destruct Hx as (y & <- & Hy).
  rewrite Forall_forall in IH. auto.
Qed.
Lemma frozen_leaves {V} (mem : list V) (P : meta -> container -> Prop) e : leaves_ok P (frozen mem e) <-> leaves_ok P e.
Proof.
  induction e as [v|m k [s|]|s f|f args IH] using aexp_ind'; cbn; try tauto.
  rewrite !fr_and, Forall_map. rewrite !Forall_forall. rewrite Forall_forall in IH.
  split; intros H x Hx; apply IH; auto.
Qed.
Lemma frozen_pure {V} (mem : list V) e : pure_generators (frozen mem e).
Proof.
  induction e as [v|m k [s|]|s f|f args IH] using aexp_ind'; cbn; auto.
  apply fr_and. apply Forall_map. assumption.
Qed.
Lemma rebind_closed {V} SL D (a a' : cont V) e : closed e -> rebind SL D a a' e = e.
Proof.
  induction e as [v|m k [s|]|s f|f args IH] using aexp_ind'; cbn; try reflexivity; [tauto|].
  intros H. apply fr_and in H. f_equal. induction IH as [|x l Hx _ IHl]; cbn; [reflexivity|].
  inversion H; subst. f_equal; auto.
Qed.

(** An expression that does not mention the destination has the same values
    whatever the destination's memory. *)
Lemma closed_value {V} (mem1 mem2 : list V) ix e : closed e -> pure_generators e ->
  x_value ix (inst mem1 e) = x_value ix (inst mem2 e).
Proof.
  induction e as [v|m k [s|]|s f|f args IH] using aexp_ind'; cbn; try reflexivity; try tauto.
  - intros _ H. rewrite (H mem1 mem2). reflexivity.
  - rewrite !fr_and. intros H1 H2. f_equal. f_equal.
    induction IH as [|x l Hx _ IHl]; cbn; [reflexivity|]. inversion H1; subst. inversion H2; subst. f_equal; auto.
Qed.
Lemma closed_storage {V} (mem1 mem2 : list V) e : closed e -> storage_ok (inst mem1 e) -> storage_ok (inst mem2 e).
Proof.
  unfold storage_ok. induction e as [v|m k [s|]|s f|f args IH] using aexp_ind'; cbn; try tauto.
  rewrite !fr_and. intros H1 H2. rewrite Forall_map in *. rewrite Forall_forall in *. intros x Hx. auto.
Qed.
Lemma closed_elementwise {V} (c : container) (e : aexp V) : closed e -> pure_generators e -> elementwise c e.
Proof. intros H1 H2 ix mem1 mem2 _ _ _. apply closed_value; assumption. Qed.

(** ** Shapes *)
Lemma all_leaves_shapes {V} (mem : list V) (P : list Z -> Prop) (Q : list Z -> sexp V -> Prop) e :
  all_leaves Q (inst mem e) -> Forall P (operand_shapes e) -> all_leaves (fun s leaf => P s /\ Q s leaf) (inst mem e).
Proof.
  unfold operand_shapes. induction e as [v|m k src|s f|f args IH] using aexp_ind'; cbn; auto.
  - intros H1 H2. inversion H2; subst. auto.
  - intros H1 H2. inversion H2; subst. auto.
  - rewrite !fr_and. rewrite !Forall_map. intros H1 H2. rewrite Forall_forall in *. intros x Hx. apply IH; auto.
    apply Forall_forall. intros s Hs. apply H2. apply in_flat_map. exists (a_expr x). split; [apply in_map; assumption|assumption].
Qed.
Lemma all_leaves_Forall {V} (mem : list V) (P : list Z -> Prop) e :
  all_leaves (fun s _ => P s) (inst mem e) -> Forall P (operand_shapes e).
Proof.
  unfold operand_shapes. induction e as [v|m k src|s f|f args IH] using aexp_ind'; cbn; auto.
  rewrite !fr_and, Forall_map. intros H. apply Forall_forall. intros s Hs. apply in_flat_map in Hs.
  destruct Hs as (x & Hx & Hs). apply in_map_iff in Hx. destruct Hx as (y & <- & Hy).
  rewrite Forall_forall in *. specialize (IH y Hy (H y Hy)). rewrite Forall_forall in IH. auto.
Qed.
Lemma all_leaves_imp {V} (P Q : list Z -> sexp V -> Prop) e : (forall s x, P s x -> Q s x) -> all_leaves P e -> all_leaves Q e.
Proof.
  intros H. induction e as [v|c b|s f|f args IH] using sexp_ind'; cbn; auto.
  rewrite !fr_and, !Forall_forall. rewrite Forall_forall in IH. auto.
Qed.
Lemma leaves_shapes {V} (e : aexp V) (P : list Z -> Prop) : Forall P (operand_shapes e) -> leaves_ok (fun _ k => P (k_shape k)) e.
Proof.
  unfold operand_shapes. induction e as [v|m k src|s f|f args IH] using aexp_ind'; cbn; auto.
  - intros H. inversion H; auto.
  - intros H. apply fr_and. rewrite Forall_forall in *. intros x Hx. apply IH; auto. apply Forall_forall. intros s Hs.
    apply H. apply in_flat_map. exists (a_expr x). split; [apply in_map; assumption|assumption].
Qed.

Lemma valid_real {V} g (mem : list V) e : valid_operands g mem e -> Forall real_shape (operand_shapes e).
Proof. intros (H & _). eapply all_leaves_Forall, all_leaves_imp; [|exact H]. cbn. tauto. Qed.

Lemma broadcast_is_shape ss out : broadcast_of ss out -> Forall real_shape ss -> real_shape out.
Proof.
  intros (_ & _ & H) Hr. unfold real_shape. rewrite <- (rev_involutive out). apply Forall_rev. apply Forall_forall.
  intros d Hd. apply In_nth with (d := 1) in Hd. destruct Hd as (k & Hk & <-).
  destruct (H k) as [_ [E|(s & Hs & E)]]; unfold axis in *; [rewrite E; lia|]. rewrite <- E.
  rewrite Forall_forall in Hr. specialize (Hr s Hs). unfold real_shape in Hr. apply Forall_rev in Hr.
  destruct (nth_in_or_default k (rev s) 1) as [Hin|Heq]; [|rewrite Heq; lia]. rewrite Forall_forall in Hr. auto.
Qed.
Lemma real_is_shape s : real_shape s -> is_shape s.
Proof. apply Forall_impl. intros; lia. Qed.

Lemma broadcast_single s : broadcast_of [s] s.
Proof.
  split; [intros t [<-|[]]; lia|]. split; [right; exists s; split; [left; reflexivity|reflexivity]|].
  intros k. split; [intros t [<-|[]]; auto|]. right. exists s. split; [left; reflexivity|reflexivity].
Qed.
Lemma compatible_single s : compatible [s].
Proof. intros a b k [<-|[]] [<-|[]]. auto. Qed.

Lemma rhs_shape_ok {V} (e : aexp V) : Forall real_shape (operand_shapes e) ->
  (compatible (operand_shapes e) -> exists sh t, rhs_shape e = Ok (sh, t) /\ broadcast_of (operand_shapes e) sh /\
     (t = true -> Forall (fun s => s = sh) (operand_shapes e))) /\
  (~ compatible (operand_shapes e) -> rhs_shape e = Throw broadcast_error).
Proof.
  intros Hr. unfold operand_shapes in *. destruct e as [v|m k src|s f|f args]; cbn [rhs_shape a_expr leaves] in *.
  - split.
    + intros _. exists [], true. repeat split; cbn; auto; try contradiction. left. unfold axis. destruct k; reflexivity.
    + intros H. exfalso. apply H. intros a b k [].
  - split; [|intros H; exfalso; apply H; apply compatible_single].
    intros _. exists (k_shape k), true. split; [reflexivity|]. split; [apply broadcast_single|]. auto.
  - split; [|intros H; exfalso; apply H; apply compatible_single].
    intros _. exists s, true. split; [reflexivity|]. split; [apply broadcast_single|]. auto.
  - destruct (broadcast_expr_lemma (EFun (map a_expr args)) Hr) as [H1 H2]. split; [|exact H2].
    intros Hc. destruct (H1 Hc) as (out & t & E & Hb). exists out, t. split; [exact E|]. split; [exact Hb|].
    intros ->. apply Forall_forall. apply (proj1 (trivial_lemma (EFun (map a_expr args)) _ _ Hr E)). reflexivity.
Qed.

Lemma operands_fit {V} (mem : list V) e sh : (forall s, In s (operand_shapes e) -> fits s sh) ->
  all_leaves (fun s leaf => real_shape s /\
    match leaf with XStrided c _ => strided_ok c | XIndexed _ _ => s <> [] | _ => True end) (inst mem e) ->
  operands_ok sh (inst mem e).
Proof.
  intros Hf H. unfold operands_ok.
  eapply all_leaves_imp; [|eapply all_leaves_shapes with (P := fun s => fits s sh); [exact H|]].
  - cbn. intros s x (A & _ & B). auto.
  - apply Forall_forall. exact Hf.
Qed.
Lemma broadcast_fits ss sh s : broadcast_of ss sh -> In s ss -> fits s sh.
Proof. intros (H1 & _ & H2) Hs. split; [auto|]. intros k. apply (proj1 (H2 k)). assumption. Qed.

(** ** Containers *)
Section Wf.
Context {V : Type} (SL : layout) (D : option nat) (DL : layout) (rs : list V -> Z -> list V).
Hypothesis Hrs : forall d n, 0 <= n -> Z.of_nat (length (rs d n)) = n.
Hypothesis HDL : is_order DL.

Lemma order_not_any l : is_order l -> l <> any.
Proof. intros [->| ->]; discriminate. Qed.

Lemma spec_strided (ss sh : list Z) b : length ss = length sh ->
  (forall j, (j < length sh)%nat -> nth j sh 0 = 1 -> nth j ss 0 = 0) ->
  strided_ok (mk_container sh ss (spec_backstrides ss sh) b).
Proof.
  intros Hl Hz. unfold strided_ok. cbn. split; [exact Hl|]. unfold spec_backstrides. split; [rewrite map_length, seq_length; auto|].
  intros j Hj. split; [auto|].
  erewrite nth_indep with (d' := (fun k => nth k ss 0 * (nth k sh 0 - 1)) 0%nat) by (rewrite map_length, seq_length; lia).
  rewrite map_nth with (f := fun k => nth k ss 0 * (nth k sh 0 - 1)). rewrite seq_nth by lia. reflexivity.
Qed.

Lemma cs_strided lay sh : exists st bs,
  compute_strides SL sh lay (repeat 0 (length sh)) (Some (repeat 0 (length sh))) = Ok (st, Some bs, prod sh) /\
  strided_ok (mk_container sh st bs 0) /\
  (forall ix, in_bounds sh ix -> dot ix st = rank (order_of SL lay) sh ix).
Proof.
  rewrite compute_strides_ok by (cbn; rewrite ?repeat_length; reflexivity). cbn [some_bs].
  eexists _, _. split; [reflexivity|]. unfold order_of.
  destruct (layout_eqb SL row_major || layout_eqb lay row_major).
  - split; [|intros ix H; apply dot_row; exact H]. apply spec_strided; [apply row_strides_length|].
    intros j Hj E. unfold row_strides. erewrite nth_indep with (d' := row_stride sh 0) by (rewrite map_length, seq_length; lia).
    rewrite map_nth, seq_nth by lia. unfold row_stride. cbn. rewrite E. reflexivity.
  - split; [|intros ix H; apply dot_col; exact H]. apply spec_strided; [apply col_strides_length|].
    intros j Hj E. unfold col_strides. erewrite nth_indep with (d' := col_stride sh 0) by (rewrite map_length, seq_length; lia).
    rewrite map_nth, seq_nth by lia. unfold col_stride. cbn. rewrite E. reflexivity.
Qed.

Lemma resize_any_wf sh (lay : layout) (d : list V) : is_shape sh -> SL <> any -> (SL <> dynamic -> lay = SL) -> lay <> any ->
  match D with Some n => length sh = n | None => True end -> Z.of_nat (length d) = prod sh ->
  forall st bs, compute_strides SL sh lay (repeat 0 (length sh)) (Some (repeat 0 (length sh))) = Ok (st, Some bs, prod sh) ->
  well_formed SL D (mk_cont sh st bs lay d).
Proof.
  intros Hs HSL Hlay Hany HD Hlen st bs E. destruct (cs_strided lay sh) as (st' & bs' & E' & H1 & H2).
  assert (st' = st /\ bs' = bs) as [-> ->] by (rewrite E in E'; injection E' as -> ->; auto).
  split; [exact Hs|]. split; [exact H1|]. split; [exact Hlen|]. split; [exact HSL|]. split; [exact Hany|]. split; [exact Hlay|].
  split; [exact HD|]. exists (order_of SL lay). split; [apply order_of_order|]. split; [|exact H2].
  intros Ho. apply order_of_reported; assumption.
Qed.

Lemma resize_wf (a : cont V) sh : well_formed SL D a -> is_shape sh -> match D with Some n => length sh = n | None => True end ->
  exists a', c_resize SL DL rs a sh false = Ok a' /\ well_formed SL D a' /\ ct_shape a' = sh.
Proof.
  intros Hw Hs HD. pose proof Hw as (_ & _ & _ & HSL & Hany & Hlay & _). unfold c_resize. rewrite orb_false_r.
  destruct (zlist_eqb sh (ct_shape a)) eqn:E; cbn [negb].
  - apply zlist_eqb_eq in E. exists a. auto.
  - set (lay := if layout_eqb SL dynamic && layout_eqb (ct_layout a) dynamic then DL else ct_layout a).
    assert (Hl1 : SL <> dynamic -> lay = SL).
    { intros Hn. unfold lay. pose proof Hn as Hn'. apply layout_eqb_neq in Hn'. rewrite Hn'. cbn. auto. }
    assert (Hl2 : lay <> any).
    { unfold lay. destruct (_ && _); [apply order_not_any; exact HDL|exact Hany]. }
    destruct (cs_strided lay sh) as (st & bs & E' & _). rewrite E'. cbn [bind].
    eexists. split; [reflexivity|]. split; [|reflexivity].
    eapply resize_any_wf; eauto. apply Hrs. apply prod_nn. exact Hs.
Qed.

Lemma fresh_wf v : SL <> any -> well_formed SL D (@c_fresh V SL D v).
Proof.
  intros HSL. unfold c_fresh, c_default. set (n := match D with Some n => n | None => 0%nat end).
  assert (Hsh : is_shape (repeat 0 n)) by (apply Forall_forall; intros x Hx; apply repeat_spec in Hx; lia).
  split; [exact Hsh|].
  split. { unfold strided_ok. cbn. split; [reflexivity|]. split; [reflexivity|]. rewrite repeat_length. intros j Hj.
    rewrite !nth_repeat0. split; intros; lia. }
  split. { cbn. destruct n; cbn; [reflexivity|]. rewrite prod_cons. lia. }
  split; [exact HSL|]. split; [exact HSL|]. split; [auto|]. split; [cbn; destruct D; auto using repeat_length|].
  cbn. exists (match SL with row_major => row_major | _ => column_major end).
  split; [destruct SL; cbn; unfold is_order; auto|]. split; [destruct SL; intros [H|H]; try discriminate; reflexivity|].
  intros ix Hix. destruct n; cbn in Hix.
  - inversion Hix; subst. destruct SL; reflexivity.
  - inversion Hix; subst. lia.
Qed.

Lemma wf_writable (a : cont V) : well_formed SL D a -> writable (c_strided a) (ct_data a).
Proof.
  intros (Hs & Hst & Hlen & _ & _ & _ & _ & l & _ & _ & Hr). split; [exact Hs|]. split; [exact Hst|].
  unfold position. cbn. split.
  - intros ix Hb. rewrite Hr, Hlen by assumption. cbn. apply rank_bound. assumption.
  - intros ix jx H1 H2 E. rewrite !Hr in E by assumption. eapply rank_inj; eauto.
Qed.
Lemma wf_stored (a : cont V) lay : well_formed SL D a -> (is_order lay -> lay = ct_layout a) -> lay <> any -> stored_as lay (c_strided a).
Proof.
  intros (_ & _ & _ & _ & _ & _ & _ & l & Hl & Hl2 & Hr) H Hany ix Hb. cbn in *.
  destruct lay; auto; [congruence| |].
  - assert (E : row_major = ct_layout a) by (apply H; left; reflexivity). rewrite Hr by assumption.
    rewrite Hl2 by (rewrite <- E; left; reflexivity). rewrite <- E. reflexivity.
  - assert (E : column_major = ct_layout a) by (apply H; right; reflexivity). rewrite Hr by assumption.
    rewrite Hl2 by (rewrite <- E; right; reflexivity). rewrite <- E. reflexivity.
Qed.
Lemma wf_truthful (a : cont V) : well_formed SL D a -> truthful (c_meta SL D a) (c_strided a).
Proof.
  intros Hw. pose proof Hw as (_ & _ & _ & HSL & Hany & Hlay & HD & _). split; [|split].
  - apply wf_stored; auto. intros Ho. symmetry. apply Hlay. cbn in Ho. destruct Ho as [E|E]; rewrite E; discriminate.
  - apply wf_stored; auto.
  - exact HD.
Qed.
Lemma wf_with_data (a : cont V) d : well_formed SL D a -> length d = length (ct_data a) -> well_formed SL D (with_data a d).
Proof. intros (H1 & H2 & H3 & H4) E. split; [exact H1|]. split; [exact H2|]. split; [cbn; rewrite E; exact H3|exact H4]. Qed.
End Wf.

Lemma dot_element {V} SL D (a : cont V) ix : well_formed SL D a -> in_bounds (ct_shape a) ix ->
  element_offset (ct_strides a) ix = dot ix (ct_strides a).
Proof.
  intros (_ & (H & _) & _) Hb. apply element_offset_same. cbn in H. rewrite H. apply in_bounds_length. assumption.
Qed.



(** assign_data on a well-formed container. *)
Lemma c_assign_data_ok {V} g SL D (a : cont V) e t : setups_ok g -> well_formed SL D a ->
  operands_ok (ct_shape a) (inst (ct_data a) e) -> storage_ok (inst (ct_data a) e) -> leaves_ok truthful e ->
  (forall n, leaves_ok (simd_offset_ok (g n)) e) -> (t = true -> leaves_ok (fun _ k => k_shape k = ct_shape a) e) ->
  elementwise (c_strided a) e ->
  exists a', (forall r, c_assign_data g SL D a e t r <-> r = Done a') /\ well_formed SL D a' /\ ct_shape a' = ct_shape a /\
    forall ix, in_bounds (ct_shape a) ix -> exists x, x_value ix (inst (ct_data a) e) = Ok x /\ elt a' ix = Ok x.
Proof.
  intros Hg Hw Hop Hst Htr Hof Ht Hel. pose proof Hw as (Hs & _).
  destruct (assign_data_ok (g (compute_size (ct_shape a))) (c_meta SL D a) (c_strided a) e t (ct_data a)) as (mem' & Hiff & Hpw).
  { split; [rewrite compute_size_prod; apply Hg; apply prod_nn; exact Hs|]. split; [eapply wf_writable; eassumption|].
    split; [eapply wf_truthful; eassumption|]. split; [intros _ H; discriminate H|]. split; [exact Hop|]. split; [exact Hst|].
    split; [exact Htr|]. split; [apply Hof|exact Ht]. }
  { exact Hel. }
  exists (with_data a mem'). destruct Hpw as (Hlen & Hval & _).
  split; [|split; [apply wf_with_data; assumption|split; [reflexivity|]]].
  - intros r. unfold c_assign_data. split.
    + intros (d & Hd & ->). apply Hiff in Hd. subst d. reflexivity.
    + intros ->. exists (Ok mem'). split; [apply Hiff; reflexivity|reflexivity].
  - intros ix Hb. destruct (Hval ix Hb) as (x & E1 & E2). exists x. split; [exact E1|].
    unfold elt. erewrite dot_element; [|apply wf_with_data; eassumption|exact Hb]. exact E2.
Qed.
