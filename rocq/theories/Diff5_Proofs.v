From Coq Require Import List ZArith Bool QArith Qcanon Lia.
From Verif Require Import Prelude PreludeFacts Strides_Model Strides_Spec Strides_Proofs Access_Model Broadcast_Model Broadcast_Spec Broadcast_Proofs Slice_Model Slice_Spec View_Spec SView_Model SView_Spec
  Reshape_Model Reshape_Proofs Container_Proofs Stepper_Model Stepper_Spec Stepper4_Proofs Container_Model Container_Spec Assign_Model Assign_Spec
  Semantic_Model Semantic_Spec Semantic_Proofs Semantic2_Proofs Semantic3_Proofs Reduce_Model Reduce_Spec Reduce_Proofs Stats_Model Stats_Spec Stats_Proofs Stats2_Proofs Stats3_Proofs
  Diff_Model Diff_Spec Diff_Proofs Diff2_Proofs Diff3_Proofs Diff4_Proofs.
Import ListNotations.
Open Scope Z_scope.

Lemma trap_shape d s : real_shape s -> real_expr d -> (forall u, In u (leaves d) -> fits u s) ->
  exists t, expr_shape (EFun [EFun [d; EFun [ELeaf s; ELeaf s]]; EScalar]) = Ok (s, t).
Proof.
  intros Hs Hd Hf. set (x := EFun _).
  assert (Hl : forall u, In u (leaves x) <-> In u (leaves d) \/ u = s).
  { intros u. unfold x. cbn [leaves flat_map app]. rewrite !app_nil_r. rewrite !in_app_iff. cbn. intuition. }
  assert (Hr : real_expr x).
  { unfold real_expr in *. apply Forall_forall. intros u Hu. apply Hl in Hu. rewrite Forall_forall in Hd. destruct Hu as [Hu| -> ]; [apply Hd; exact Hu|exact Hs]. }
  assert (Hfx : forall u, In u (leaves x) -> fits u s).
  { intros u Hu. apply Hl in Hu. destruct Hu as [Hu| -> ]; [apply Hf; exact Hu|apply fits_self]. }
  assert (Hc : compatible (leaves x)).
  { intros u v k Hu Hv. apply Hfx in Hu, Hv. destruct Hu as [_ Hu], Hv as [_ Hv]. specialize (Hu k). specialize (Hv k). intuition congruence. }
  destruct (proj1 (broadcast_expr_lemma x Hr) Hc) as (out & t & E & B). exists t. rewrite E. do 2 f_equal.
  assert (Hin : In s (leaves x)) by (apply Hl; auto).
  apply (broadcast_of_unique (leaves x) (leaves x) out s); [tauto|exact B|].
  split; [|split].
  - intros u Hu. apply Hfx in Hu. apply Hu.
  - right. exists s. auto.
  - intros k. split; [|right; exists s; auto]. intros u Hu. apply Hfx in Hu. apply Hu.
Qed.

Section Trapz.
Context (SLy : layout) (Dy : option nat) (T : layout) (HT : is_order T).

Lemma axis_real p (sh : list Z) : (p < length sh)%nat -> is_shape sh -> Forall (fun n => n < 2 ^ 63) sh -> real_shape (at_axis p (fun n => Z.max 0 (n - 1)) sh).
Proof.
  intros Hp Hs Hb. change (2 ^ 63) with 9223372036854775808 in *. unfold is_shape in Hs. unfold real_shape.
  assert (H : Forall (fun d => 0 <= d < 9223372036854775808) sh) by (rewrite Forall_forall in *; intros x Hx; split; auto).
  apply Forall_impl with (P := fun d => 0 <= d < 9223372036854775808).
  - intros a Ha. lia.
  - apply at_axis_all; [exact Hp|exact H|]. rewrite Forall_forall in H. specialize (H (nth p sh 0) (nth_In _ _ Hp)). lia.
Qed.

Lemma trapz_lemma (y : cont num) sh yv d axis p :
  well_formed SLy Dy y -> contains y sh (fun ix => Some (yv ix)) -> axis_names (length sh) axis p -> Forall (fun n => n < 2 ^ 63) sh -> Z.of_nat (length sh) < 2 ^ 64 ->
  exists q, trapz T y (Some d) axis = Ok q /\ q_shape q = drop_axis p sh /\
    forall ix, in_bounds (drop_axis p sh) ix ->
      q_at q ix = Ok (Some (trapezoids (nth p sh 0) (fun _ => d) (fun i => yv (insert_axis p i ix)))).
Proof.
  intros Hw Hc Ha Hb Hd. pose proof Hc as (Es & _). pose proof Hw as (Hs & _). rewrite Es in Hs. pose proof Ha as (Hp & _).
  unfold trapz. rewrite Es, (axis_position _ _ _ Hd Ha).
  apply (trapz_sum_ok SLy Dy T HT y sh yv p _ _ (fun _ => d)); auto.
  - split; [|intros jx _; reflexivity]. exact I.
  - apply trap_shape; [apply axis_real; assumption| |].
    + unfold real_expr. cbn. repeat constructor.
    + intros u [].
Qed.

Context (g : Z -> setup) (SL : layout) (D : option nat) (DL : layout) (rs : list num -> Z -> list num).
Context (Hg : setups_ok g) (HDL : is_order DL) (Hrs : resizes rs).

Lemma shape_dimension (x : aexp num) sh f : has_values g x sh f -> dimension (a_expr x) = length sh.
Proof.
  intros (_ & _ & (H1 & H2 & _) & _). rewrite dimension_leaves. unfold operand_shapes in *. fold (leaves (a_expr x)) in *.
  assert (G : forall ss : list (list Z), (forall s, In s ss -> (length s <= length sh)%nat) -> (maxlen ss <= length sh)%nat).
  { clear. induction ss as [|s ss IH]; intros H; cbn; [lia|]. pose proof (H s (or_introl eq_refl)). specialize (IH (fun u Hu => H u (or_intror Hu))). lia. }
  assert (G2 : forall (ss : list (list Z)) s, In s ss -> (length s <= maxlen ss)%nat).
  { clear. induction ss as [|s ss IH]; intros u H; cbn; [destruct H|]. destruct H as [ -> |H]; [lia|]. specialize (IH u H). lia. }
  specialize (G _ H1). destruct H2 as [ -> |(s & Hs & E)]; [cbn in *; lia|]. specialize (G2 _ _ Hs). lia.
Qed.

(** The operand: a container of shape s whose elements, broadcast to sh', are w *)
Lemma strided_finite (dx : cont num) sh' w : strided_ok (c_strided dx) -> fits (ct_shape dx) sh' ->
  (forall ix, in_bounds sh' ix -> rdz (ct_data dx) (dot (bc_index (ct_shape dx) ix) (ct_strides dx)) = Ok (Some (w ix))) ->
  finite sh' (XStrided (c_strided dx) (ct_data dx)) w.
Proof.
  intros Ho Hf Hv. split.
  - unfold operands_ok. cbn [all_leaves]. split; [exact Hf|exact Ho].
  - intros jx Hj. cbn [x_value c_strided k_shape k_begin k_strides]. apply (Hv jx Hj).
Qed.

(** x of the shape of y *)
Lemma trapz_x_same (y : cont num) (x : aexp num) sh yv xv axis p :
  well_formed SLy Dy y -> contains y sh (fun ix => Some (yv ix)) -> axis_names (length sh) axis p -> Forall (fun n => n < 2 ^ 63) sh -> Z.of_nat (length sh) < 2 ^ 64 ->
  SL <> any -> match D with Some k => length sh = k | None => True end -> has_values g x sh (fun ix => Some (xv ix)) -> length sh <> 1%nat -> prod sh <> 0 \/ nth p sh 0 <= 0 ->
  exists q, (forall r, trapz_x g SL D DL T rs y x axis r <-> r = Ok q) /\ q_shape q = drop_axis p sh /\
    forall ix, in_bounds (drop_axis p sh) ix ->
      q_at q ix = Ok (Some (trapezoids (nth p sh 0) (fun i => xv (insert_axis p (i + 1)%Z ix) - xv (insert_axis p i ix))%Qc (fun i => yv (insert_axis p i ix)))).
Proof.
  intros Hw Hc Ha Hb Hd HSL HD Hx H1 Hnz. pose proof Hc as (Es & _). pose proof Hw as (Hs & _). rewrite Es in Hs. pose proof Ha as (Hp & _).
  destruct (diff_lemma g SL D DL T rs None Hg HDL HT Hrs nsub x 1 axis sh _ p HSL HD Hx Hs Hb Hd Ha) as (dx & Hdx & Hwd & (Ed & Hv)); [lia|intuition|].
  change (Z.to_nat 1) with 1%nat in Hv. cbn [differences] in Hv.
  set (sh' := at_axis p (fun n => Z.max 0 (n - 1)) sh) in *.
  destruct (trapz_sum_ok SLy Dy T HT y sh yv p (XStrided (c_strided dx) (ct_data dx)) (ELeaf (ct_shape dx)) (fun ix => (xv (further p 1 ix) - xv ix)%Qc) Hw Hc Hp Hb Hd) as (q & Eq & Sq & Hq).
  { apply strided_finite; [apply Hwd|rewrite Ed; apply fits_self|]. intros ix Hi. fold sh' in Hi. rewrite Ed, bc_index_self by exact Hi.
    rewrite <- (dot_element SL D) by (rewrite ?Ed; assumption). apply (Hv ix Hi). }
  { fold sh'. apply trap_shape; [apply axis_real; assumption| |].
    - rewrite Ed. repeat constructor. apply axis_real; assumption.
    - intros u [ <- |[]]. rewrite Ed. apply fits_self. }
  exists q. split; [|split; [exact Sq|]].
  - assert (En : (dimension (a_expr x) =? 1)%nat = false) by (rewrite (shape_dimension _ _ _ Hx); apply Nat.eqb_neq; exact H1).
    intros r. unfold trapz_x. rewrite En, Es, (axis_position _ _ _ Hd Ha). split.
    + intros (s & Hs1 & ->). apply Hdx in Hs1. subst s. exact Eq.
    + intros ->. exists (Done dx). split; [apply Hdx; reflexivity|symmetry; exact Eq].
  - intros ix Hi. rewrite (Hq ix Hi). do 2 f_equal. unfold trapezoids. f_equal. apply map_ext. intros i.
    rewrite (insert_further p _ 1 sh) by assumption. reflexivity.
Qed.

(** a one-dimensional x *)
Lemma upd_only m : forall l p k, (p < length l)%nat -> nth p l 0 = m -> upd (repeat 1 (length l)) p m = only (k + Z.of_nat p) k 1 l.
Proof.
  induction l as [|a l IH]; intros [|p] k Hp Hn; cbn [length] in Hp; try lia; cbn [length repeat upd only nth] in *.
  - rewrite Z.add_0_r, Z.eqb_refl. subst m. f_equal. rewrite only_after by lia. reflexivity.
  - destruct (Z.eqb_spec k (k + Z.of_nat (S p))); [lia|]. f_equal. rewrite (IH p (k + 1)) by (auto; lia). f_equal. lia.
Qed.

Lemma trapz_x_line (y : cont num) (x : aexp num) sh yv xv axis p :
  well_formed SLy Dy y -> contains y sh (fun ix => Some (yv ix)) -> axis_names (length sh) axis p -> Forall (fun n => n < 2 ^ 63) sh -> Z.of_nat (length sh) < 2 ^ 64 ->
  SL <> any -> match D with Some k => k = 1%nat /\ length sh = 1%nat | None => True end -> has_values g x [nth p sh 0] (fun ix => Some (xv (nth 0 ix 0))) ->
  exists q, (forall r, trapz_x g SL D DL T rs y x axis r <-> r = Ok q) /\ q_shape q = drop_axis p sh /\
    forall ix, in_bounds (drop_axis p sh) ix ->
      q_at q ix = Ok (Some (trapezoids (nth p sh 0) (fun i => xv (i + 1)%Z - xv i)%Qc (fun i => yv (insert_axis p i ix)))).
Proof.
  intros Hw Hc Ha Hb Hd HSL HD Hx. pose proof Hc as (Es & _). pose proof Hw as (Hs & _). rewrite Es in Hs. pose proof Ha as (Hp & _).
  set (n := nth p sh 0) in *.
  assert (Hn : 0 <= n < 2 ^ 63).
  { unfold is_shape in Hs. rewrite Forall_forall in Hs, Hb. unfold n. split; [apply Hs|apply Hb]; apply nth_In; exact Hp. }
  destruct (diff_lemma g SL D DL T rs None Hg HDL HT Hrs nsub x 1 (-1) [n] (fun ix => Some (xv (nth 0 ix 0))) 0%nat HSL) as (dx & Hdx & Hwd & (Ed & Hv)).
  { destruct D; [|exact I]. cbn. lia. }
  { exact Hx. }
  { repeat constructor. lia. }
  { repeat constructor. lia. }
  { cbn. lia. }
  { split; [cbn; lia|right; reflexivity]. }
  { lia. }
  { cbn [nth]. rewrite prod_cons. change (prod []) with 1. destruct (Z_le_gt_dec n 0); [auto|left; lia]. }
  change (Z.to_nat 1) with 1%nat in Hv. cbn [differences at_axis] in Hv, Ed.
  set (sh' := at_axis p (fun n => Z.max 0 (n - 1)) sh) in *. set (m := Z.max 0 (n - 1)) in *.
  assert (Lsh : length sh' = length sh) by apply at_axis_length.
  assert (Hp' : (p < length sh')%nat) by lia.
  assert (Em : nth p sh' 0 = m) by (unfold sh'; rewrite at_axis_nth by exact Hp; reflexivity).
  assert (Hs' : is_shape sh') by (apply at_axis_all; [exact Hp|exact Hs|fold n; lia]).
  set (line := only (Z.of_nat p) 0 1 sh').
  assert (Eu : upd (repeat 1 (length sh)) p m = line).
  { unfold line. rewrite <- Lsh. rewrite (upd_only m sh' p 0 Hp' Em). reflexivity. }
  assert (Hls : is_shape line) by (apply only_is_shape; exact Hs').
  assert (Hlp : prod line = m).
  { unfold line. rewrite only_prod by lia. rewrite Z.sub_0_r, Nat2Z.id. exact Em. }
  assert (Hlb : map to_size_t line = line).
  { assert (Hbig : Forall (fun d => 0 <= d < 2 ^ 64) line).
    { pose proof (axis_real p sh Hp Hs Hb) as Hr. fold sh' in Hr. unfold real_shape in Hr. clear - Hr. unfold line. generalize 0 at 2. change (2 ^ 64) with 18446744073709551616. change (2 ^ 64) with 18446744073709551616 in Hr.
      induction Hr as [|d l Hd Hr IH]; intros k; [constructor|]. cbn [only]. constructor; [destruct (k =? Z.of_nat p); lia|apply IH]. }
    clear - Hbig. induction Hbig as [|d l Hd Hbig IH]; [reflexivity|]. cbn. rewrite IH. unfold to_size_t. rewrite Z.mod_small by exact Hd. reflexivity. }
  set (lay := if layout_eqb SL dynamic && layout_eqb SL dynamic then DL else SL).
  destruct (cs_strided SL lay line) as (st & bs & Ec & Hso & Hdot).
  set (dx' := mk_cont line st bs lay (ct_data dx)).
  assert (Er : c_reshape_unsigned SL DL dx line SL = Ok dx').
  { unfold c_reshape_unsigned. rewrite compute_size_prod, Hlp, (wf_size SL D dx Hwd), Ed, prod_cons. change (prod []) with 1. rewrite Z.mul_1_r, Z.eqb_refl. cbn [negb].
    fold lay. assert (El : negb (layout_eqb SL dynamic) && negb (layout_eqb lay SL) = false).
    { unfold lay. destruct SL; reflexivity. }
    rewrite El. unfold c_set_shape. rewrite Hlb. cbn zeta. rewrite Ec. reflexivity. }
  assert (Hdat : forall i, 0 <= i < m -> rdz (ct_data dx) i = Ok (Some (xv (i + 1)%Z - xv i)%Qc)).
  { intros i Hi. assert (Hin : in_bounds [m] [i]) by (repeat constructor; lia). pose proof (Hv [i] Hin) as E. cbn in E.
    unfold elt in E. rewrite (dot_element SL D) in E by (rewrite ?Ed; assumption).
    destruct Hwd as (_ & _ & _ & _ & _ & _ & _ & l & Hl & _ & Hr). rewrite Hr in E by (rewrite Ed; exact Hin). rewrite Ed in E.
    assert (Ei : rank l [m] [i] = i) by (destruct Hl as [ -> | -> ]; cbn -[m prod]; change (prod []) with 1; lia). rewrite Ei in E. exact E. }
  destruct (trapz_sum_ok SLy Dy T HT y sh yv p (XStrided (c_strided dx') (ct_data dx')) (ELeaf (ct_shape dx')) (fun ix => (xv (nth p ix 0%Z + 1)%Z - xv (nth p ix 0%Z))%Qc) Hw Hc Hp Hb Hd) as (q & Eq & Sq & Hq).
  { apply strided_finite; [exact Hso|apply only_fits|]. intros ix Hi. fold sh' in Hi. cbn [dx' ct_shape ct_data ct_strides].
    unfold line. rewrite only_bc by exact Hi. fold line. rewrite Hdot by (apply only_in; exact Hi). unfold line.
    rewrite only_rank by (try apply order_of_order; try lia; apply in_bounds_length; exact Hi). rewrite Z.sub_0_r, Nat2Z.id. apply Hdat.
    pose proof (in_at_axis _ _ _ _ Hp Hi) as Hk. exact Hk. }
  { fold sh'. apply trap_shape; [apply axis_real; assumption| |].
    - repeat constructor. cbn [dx' ct_shape]. unfold line. pose proof (axis_real p sh Hp Hs Hb) as Hr. fold sh' in Hr. unfold real_shape in *.
      clear - Hr. generalize 0 at 2. change (2 ^ 64) with 18446744073709551616 in *. induction Hr as [|d l Hd Hr IH]; intros k; [constructor|]. cbn [only]. constructor; [destruct (k =? Z.of_nat p); lia|apply IH].
    - intros u [ <- |[]]. apply only_fits. }
  exists q. split; [|split; [exact Sq|]].
  - assert (En : (dimension (a_expr x) =? 1)%nat = true) by (rewrite (shape_dimension _ _ _ Hx); reflexivity).
    assert (G : (let* m := rd (ct_shape dx) 0 in let* shape := wrz (repeat 1 (length sh)) (Z.of_nat p) m in let* dx := c_reshape_unsigned SL DL dx shape SL in
                 trapz_sum T y (XStrided (c_strided dx) (ct_data dx)) (ELeaf (ct_shape dx)) (Z.of_nat p)) = Ok q).
    { rewrite Ed. cbn [rd nth_error bind]. rewrite wrz_ok by (rewrite repeat_length; lia). rewrite Nat2Z.id, Eu. cbn [bind]. rewrite Er. cbn [bind]. exact Eq. }
    intros r. unfold trapz_x. rewrite En, Es, (axis_position _ _ _ Hd Ha). split.
    + intros (s & Hs1 & ->). apply Hdx in Hs1. subst s. exact G.
    + intros ->. exists (Done dx). split; [apply Hdx; reflexivity|symmetry; exact G].
  - intros ix Hi. rewrite (Hq ix Hi). do 2 f_equal. unfold trapezoids. f_equal. apply map_ext. intros i.
    rewrite (insert_nth p _ sh) by assumption. reflexivity.
Qed.
End Trapz.
