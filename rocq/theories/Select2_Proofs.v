From Coq Require Import List ZArith Lia Bool Arith Sorted.
From Verif Require Import Prelude PreludeFacts Strides_Model Strides_Spec Strides_Proofs Access_Model Slice_Model Container_Model Container_Spec Container_Proofs
  Semantic_Spec Reduce_Spec Reduce3_Proofs Reduce5_Proofs Reduce13_Proofs Sort2_Proofs Chunk2_Proofs Select_Model Select_Spec Select_Proofs.
Import ListNotations.
Open Scope Z_scope.

Definition set {V} (v : list Z -> V) (ix : list Z) (x : V) : list Z -> V :=
  fun jx => if list_eq_dec Z.eq_dec jx ix then x else v jx.

Section View.
Context {V : Type} (sh : list Z).

Lemma holds_ext (c : cont V) v w : holds c sh v -> (forall ix, in_bounds sh ix -> v ix = w ix) -> holds c sh w.
Proof. intros (H1 & H2 & H3) E. split; [exact H1|split; [exact H2|]]. intros ix H. rewrite H3, E by exact H. reflexivity. Qed.
Lemma read_ok (c : cont V) v ix : holds c sh v -> in_bounds sh ix -> c_read c ix = Ok (v ix).
Proof. intros (_ & _ & H) B. exact (H ix B). Qed.
Lemma write_ok (c : cont V) v ix x : holds c sh v -> in_bounds sh ix ->
  exists c', c_write c ix x = Ok c' /\ ct_strides c' = ct_strides c /\ ct_layout c' = ct_layout c /\ holds c' sh (set v ix x).
Proof.
  intros (Hc & Hsh & Hv) B. unfold c_write. assert (Bc : in_bounds (ct_shape c) ix) by (rewrite Hsh; exact B).
  pose proof (cons_off c ix Hc Bc) as Ho. rewrite wrz_ok by exact Ho. cbn [bind]. eexists. split; [reflexivity|]. cbn.
  split; [reflexivity|split; [reflexivity|]]. split; [|split; [exact Hsh|]].
  - destruct Hc as (H1 & H2 & H3 & H4 & H5). unfold consistent. cbn. rewrite upd_length. auto 10.
  - intros jx Bj. assert (Bcj : in_bounds (ct_shape c) jx) by (rewrite Hsh; exact Bj). pose proof (cons_off c jx Hc Bcj) as Hoj.
    unfold elt. cbn. rewrite rdz_upd by lia. unfold set.
    destruct (list_eq_dec Z.eq_dec jx ix) as [ -> |N]; [destruct (Z.eq_dec _ _); [reflexivity|congruence]|].
    destruct (Z.eq_dec _ _) as [E|_]; [|exact (Hv jx Bj)]. exfalso. apply N. apply (cons_inj c); [exact Hc|exact Bcj|exact Bc|]. lia.
Qed.

Variable l : list (list Z).
Hypothesis Hl : all_inside sh l.

Lemma at_l i ix : nth_error l i = Some ix -> in_bounds sh ix.
Proof. intros E. unfold all_inside in Hl. rewrite Forall_forall in Hl. apply Hl. eapply nth_error_In. exact E. Qed.
Lemma l_at i : (i < length l)%nat -> exists ix, nth_error l i = Some ix.
Proof. intros H. destruct (nth_error l i) eqn:E; [eauto|]. apply nth_error_None in E. lia. Qed.
Lemma rdz_at i ix : nth_error l i = Some ix -> rdz l (Z.of_nat i) = Ok ix.
Proof. intros E. apply rdz_ok; [lia|]. rewrite Nat2Z.id. exact E. Qed.

Lemma get_ok (c : cont V) v i ix : holds c sh v -> nth_error l i = Some ix -> iv_get c l (Z.of_nat i) = Ok (v ix).
Proof. intros H E. unfold iv_get. rewrite (rdz_at _ _ E). cbn [bind]. apply read_ok; [exact H|apply (at_l i); exact E]. Qed.
Lemma set_ok' (c : cont V) v i ix x : holds c sh v -> nth_error l i = Some ix ->
  exists c', iv_set c l (Z.of_nat i) x = Ok c' /\ ct_strides c' = ct_strides c /\ ct_layout c' = ct_layout c /\ holds c' sh (set v ix x).
Proof. intros H E. unfold iv_set. rewrite (rdz_at _ _ E). cbn [bind]. apply write_ok; [exact H|apply (at_l i); exact E]. Qed.

(** The contents after the first n writes. *)
Fixpoint after (v : list Z -> V) (x : nat -> V) (n : nat) : list Z -> V :=
  match n with O => v | S m => set (after v x m) (nth m l []) (x m) end.
Lemma after_last v x ix i : forall n, (i < n)%nat -> (n <= length l)%nat -> nth_error l i = Some ix ->
  (forall j, (i < j < n)%nat -> nth_error l j <> Some ix) -> after v x n ix = x i.
Proof.
  induction n as [|n IH]; intros Hi Hn E Hj; [lia|]. cbn [after]. unfold set.
  destruct (l_at n ltac:(lia)) as [jx Ej]. rewrite (nth_error_nth _ _ [] Ej).
  destruct (list_eq_dec Z.eq_dec ix jx) as [ <- |N].
  - destruct (Nat.eq_dec i n) as [ -> |Ni]; [reflexivity|]. exfalso. apply (Hj n); [lia|exact Ej].
  - apply IH; [|lia|exact E|intros; apply Hj; lia]. destruct (Nat.eq_dec i n) as [ -> |Ni]; [congruence|lia].
Qed.
Lemma after_none v x ix : forall n, (n <= length l)%nat -> (forall j, (j < n)%nat -> nth_error l j <> Some ix) -> after v x n ix = v ix.
Proof.
  induction n as [|n IH]; intros Hn Hj; [reflexivity|]. cbn [after]. unfold set.
  destruct (l_at n ltac:(lia)) as [jx Ej]. rewrite (nth_error_nth _ _ [] Ej).
  destruct (list_eq_dec Z.eq_dec ix jx) as [ <- |N]; [exfalso; apply (Hj n); [lia|exact Ej]|]. apply IH; [lia|]. intros; apply Hj; lia.
Qed.

Lemma loop_ok (body : nat -> cont V -> res (cont V)) (c : cont V) v x : holds c sh v ->
  (forall n c', (n < length l)%nat -> holds c' sh (after v x n) -> ct_strides c' = ct_strides c -> body n c' = iv_set c' l (Z.of_nat n) (x n)) ->
  exists c', for_up body 0 (length l) c = Ok c' /\ ct_strides c' = ct_strides c /\ ct_layout c' = ct_layout c /\ holds c' sh (after v x (length l)).
Proof.
  intros Hc Hb.
  destruct (for_up_inv (fun n c' => ct_strides c' = ct_strides c /\ ct_layout c' = ct_layout c /\ holds c' sh (after v x n)) body 0 (length l) c) as (c' & E & H).
  - auto.
  - intros n c' Hn (H1 & H2 & H3). rewrite Hb by (try assumption; lia). destruct (l_at n ltac:(lia)) as [ix Ei].
    destruct (set_ok' c' _ n ix (x n) H3 Ei) as (c2 & E2 & S2 & L2 & H4). exists c2. split; [exact E2|]. split; [congruence|split; [congruence|]].
    cbn [after]. rewrite (nth_error_nth _ _ [] Ei). exact H4.
  - exists c'. auto.
Qed.

(** *** Right-hand sides *)

Lemma eval_ok (c : cont V) v n e : holds c sh v -> rhs_ok sh n e -> forall i, (i < n)%nat -> ivx_eval c e (Z.of_nat i) = Ok (rhs_at v e i).
Proof.
  intros Hc. induction e as [s f|l'|f a IHa b IHb]; intros Hr i Hi; cbn [ivx_eval rhs_at rhs_ok] in *; [reflexivity| |].
  - destruct Hr as [Ln Hin]. unfold iv_get. destruct (nth_error l' i) as [ix|] eqn:E; [|apply nth_error_None in E; lia].
    rewrite (rdz_ok _ _ ix) by (try lia; rewrite Nat2Z.id; exact E). cbn [bind]. rewrite (nth_error_nth _ _ [] E). apply read_ok; [exact Hc|].
    unfold all_inside in Hin. rewrite Forall_forall in Hin. apply Hin. eapply nth_error_In. exact E.
  - destruct Hr as [Ha Hb]. rewrite IHa, IHb by assumption. reflexivity.
Qed.

Lemma temp_ok (c : cont V) v e : holds c sh v -> rhs_ok sh (length l) e ->
  exists c', iv_assign_temp c l e = Ok c' /\ ct_strides c' = ct_strides c /\ ct_layout c' = ct_layout c /\ holds c' sh (after v (rhs_at v e) (length l)).
Proof.
  intros Hc Hr. unfold iv_assign_temp.
  destruct (for_up_inv (fun n t => t = map (rhs_at v e) (seq 0 n)) (fun i t => let* v := ivx_eval c e (Z.of_nat i) in Ok (t ++ [v])) 0 (length l) []) as (t & Et & Ht).
  - reflexivity.
  - intros i t Hi ->. rewrite (eval_ok c v (length l) e Hc Hr) by lia. cbn [bind]. eexists. split; [reflexivity|]. rewrite seq_S, map_app. reflexivity.
  - rewrite Et. cbn [bind]. cbn in Ht. subst t. apply loop_ok; [exact Hc|]. intros n c' Hn _ _.
    rewrite (rd_ok _ _ (rhs_at v e n)); [reflexivity|]. rewrite nth_error_map. rewrite nth_error_nth' with (d := 0%nat) by (rewrite seq_length; exact Hn).
    rewrite seq_nth by exact Hn. reflexivity.
Qed.

Lemma rhs_after (c : cont V) v x e r : ends_extreme (element_offset (ct_strides c)) l -> rhs_extreme (element_offset (ct_strides c)) e ->
  iv_range c l = Some r -> overlaps c r e = false -> forall n i, rhs_ok sh n e -> (i < n)%nat -> n = length l -> forall k, (k <= length l)%nat ->
  rhs_at (after v x k) e i = rhs_at v e i.
Proof.
  intros HE He Hr. induction e as [s f|l'|f a IHa b IHb]; intros Ho n i Hok Hi Hn k Hk; cbn [rhs_at rhs_ok rhs_extreme overlaps] in *; [reflexivity| |].
  - destruct Hok as [Ln Hin]. destruct (nth_error l' i) as [ix|] eqn:E; [|apply nth_error_None in E; lia]. rewrite (nth_error_nth _ _ [] E).
    apply after_none; [exact Hk|]. intros j Hj Ej. revert Ej.
    destruct l as [|a0 l0] eqn:El; [cbn in Hk; lia|]. rewrite <- El in *. clear El.
    destruct l' as [|b0 l0'] eqn:El'; [destruct i; discriminate E|]. 
    assert (Hr' : iv_range c (b0 :: l0') = Some (Z.min (element_offset (ct_strides c) (hd [] (b0 :: l0'))) (element_offset (ct_strides c) (last (b0 :: l0') [])),
       Z.max (element_offset (ct_strides c) (hd [] (b0 :: l0'))) (element_offset (ct_strides c) (last (b0 :: l0') [])))) by reflexivity.
    rewrite Hr' in Ho. intros Ej. apply nth_error_In in Ej, E.
    specialize (HE _ Ej). specialize (He _ E).
    assert (Er : r = (Z.min (element_offset (ct_strides c) (hd [] l)) (element_offset (ct_strides c) (last l [])),
       Z.max (element_offset (ct_strides c) (hd [] l)) (element_offset (ct_strides c) (last l [])))).
    { destruct l; [discriminate Hr|]. injection Hr as <-. reflexivity. }
    rewrite Er in Ho. cbn [fst snd] in Ho. apply andb_false_iff in Ho. destruct Ho as [Ho|Ho]; apply Z.leb_gt in Ho; lia.
  - destruct Hok, He. apply orb_false_iff in Ho. destruct Ho. rewrite (IHa ltac:(assumption) ltac:(assumption) n), (IHb ltac:(assumption) ltac:(assumption) n) by assumption. reflexivity.
Qed.

Lemma assign_gen (c : cont V) v e : holds c sh v -> rhs_ok sh (length l) e ->
  (forall r, iv_range c l = Some r -> overlaps c r e = true) \/ (ends_extreme (element_offset (ct_strides c)) l /\ rhs_extreme (element_offset (ct_strides c)) e) ->
  exists c', iv_assign c l e = Ok c' /\ ct_strides c' = ct_strides c /\ ct_layout c' = ct_layout c /\ holds c' sh (after v (rhs_at v e) (length l)).
Proof.
  intros Hc Hr Hx. unfold iv_assign. destruct (iv_range c l) as [r|] eqn:Er.
  - destruct (overlaps c r e) eqn:Eo; [apply temp_ok; assumption|]. destruct Hx as [Hx|[H1 H2]]; [rewrite (Hx r eq_refl) in Eo; discriminate Eo|].
    apply loop_ok; [exact Hc|]. intros n c' Hn Hc' _. rewrite (eval_ok c' _ (length l) e Hc' Hr n Hn). cbn [bind]. f_equal.
    apply (rhs_after c v _ e r H1 H2 Er Eo (length l)); try assumption; lia.
  - destruct l as [|a0 l0]; [|discriminate Er]. exists c. split; [reflexivity|]. auto.
Qed.
End View.

(** ** Assignments *)

Section Assign.
Context {V : Type} (sh : list Z) (l : list (list Z)) (c : cont V) (v : list Z -> V).
Hypotheses (Hc : holds c sh v) (Hl : all_inside sh l).

Definition assigned (c' : cont V) (x : nat -> V) : Prop :=
  exists w, holds c' sh w /\
    (forall ix i, last_at l ix i -> w ix = x i) /\ (forall ix, ~ In ix l -> w ix = v ix).
Lemma after_assigned c' x : holds c' sh (after l v x (length l)) -> assigned c' x.
Proof.
  intros H. exists (after l v x (length l)). split; [exact H|]. split.
  - intros ix i [E Hj]. apply (after_last l); [apply nth_error_Some; congruence|lia|exact E|]. intros j Hij. apply Hj. lia.
  - intros ix N. apply (after_none l); [lia|]. intros j _ E. apply N. eapply nth_error_In. exact E.
Qed.

Lemma assign_lemma e : rhs_ok sh (length l) e -> ends_extreme (element_offset (ct_strides c)) l -> rhs_extreme (element_offset (ct_strides c)) e ->
  exists c', iv_assign c l e = Ok c' /\ assigned c' (rhs_at v e).
Proof.
  intros Hr H1 H2. destruct (assign_gen sh l Hl c v e Hc Hr) as (c' & E & _ & _ & H); [auto|]. exists c'. split; [exact E|apply after_assigned; exact H].
Qed.
Lemma assign_op_lemma f e : rhs_ok sh (length l) e ->
  exists c', iv_assign_op f c l e = Ok c' /\ assigned c' (fun i => f (v (nth i l [])) (rhs_at v e i)).
Proof.
  intros Hr. destruct (assign_gen sh l Hl c v (X_fun f (X_view l) e) Hc) as (c' & E & _ & _ & H).
  - cbn. auto.
  - left. intros [a b] Er. cbn [overlaps]. rewrite Er. cbn [fst snd]. destruct l as [|a0 l0]; [discriminate Er|]. injection Er as <- <-.
    apply orb_true_iff. left. apply andb_true_iff. split; apply Z.leb_le; lia.
  - exists c'. split; [exact E|]. apply after_assigned. exact H.
Qed.
Lemma fill_lemma x : exists c', iv_fill c l x = Ok c' /\ holds c' sh (fun ix => if in_dec (list_eq_dec Z.eq_dec) ix l then x else v ix).
Proof.
  destruct (loop_ok sh l Hl (fun i c => iv_set c l (Z.of_nat i) x) c v (fun _ => x) Hc) as (c' & E & _ & _ & H); [reflexivity|].
  exists c'. split; [exact E|]. eapply holds_ext; [exact H|]. intros ix B. cbn beta.
  assert (G : forall n, (n <= length l)%nat -> after l v (fun _ => x) n ix = if in_dec (list_eq_dec Z.eq_dec) ix (firstn n l) then x else v ix).
  { induction n as [|n IH]; intros Hn; [reflexivity|]. cbn [after]. unfold set. destruct (nth_error l n) as [jx|] eqn:Ej; [|apply nth_error_None in Ej; lia].
    rewrite (nth_error_nth _ _ [] Ej). rewrite IH by lia.
    assert (Hf : firstn (S n) l = firstn n l ++ [jx]).
    { clear - Ej. revert l Ej. induction n as [|n IH]; intros [|y t] E; try discriminate E; cbn in *; [congruence|]. f_equal. apply IH. exact E. }
    destruct (in_dec _ ix (firstn (S n) l)) as [i|N]; rewrite Hf in *.
    - destruct (list_eq_dec Z.eq_dec ix jx) as [Eq|Ne]; [reflexivity|]. destruct (in_dec _ ix (firstn n l)) as [_|N]; [reflexivity|].
      apply in_app_or in i. destruct i as [i|[i|[]]]; [contradiction|congruence].
    - destruct (list_eq_dec Z.eq_dec ix jx) as [Eq|Ne]; [exfalso; apply N, in_or_app; right; left; congruence|].
      destruct (in_dec _ ix (firstn n l)) as [i|_]; [exfalso; apply N, in_or_app; left; exact i|reflexivity]. }
  rewrite (G _ (le_n _)), firstn_all. reflexivity.
Qed.
Lemma scalar_lemma f : exists c', iv_scalar f c l = Ok c' /\ holds c' sh (fun ix => Nat.iter (occurrences l ix) f (v ix)).
Proof.
  unfold iv_scalar.
  destruct (for_up_inv (fun n c' => holds c' sh (fun ix => Nat.iter (occurrences (firstn n l) ix) f (v ix)))
    (fun i c => let* v := iv_get c l (Z.of_nat i) in iv_set c l (Z.of_nat i) (f v)) 0 (length l) c) as (c' & E & H).
  - exact Hc.
  - intros n c' Hn H. destruct (l_at l n ltac:(lia)) as [jx Ej]. rewrite (get_ok sh l Hl c' _ n jx H Ej). cbn [bind].
    destruct (set_ok' sh l Hl c' _ n jx (f (Nat.iter (occurrences (firstn n l) jx) f (v jx))) H Ej) as (c2 & E2 & _ & _ & H2).
    exists c2. split; [exact E2|]. eapply holds_ext; [exact H2|]. intros ix B. cbn beta. unfold set.
    assert (Hf : firstn (S n) l = firstn n l ++ [jx]).
    { clear - Ej. revert l Ej. induction n as [|n IH]; intros [|y t] E; try discriminate E; cbn in *; [congruence|]. f_equal. apply IH. exact E. }
    rewrite Hf. unfold occurrences at 3. rewrite filter_app, app_length. cbn [filter].
    destruct (list_eq_dec Z.eq_dec ix jx) as [ -> |Ne].
    + destruct (list_eq_dec Z.eq_dec jx jx) as [_|N]; [|congruence]. cbn [length]. rewrite Nat.add_1_r. reflexivity.
    + destruct (list_eq_dec Z.eq_dec jx ix) as [Eq|_]; [congruence|]. cbn [length]. rewrite Nat.add_0_r. reflexivity.
  - exists c'. split; [exact E|]. cbn in H. rewrite firstn_all in H. exact H.
Qed.
Lemma read_lemma i ix : nth_error l i = Some ix -> iv_get c l (Z.of_nat i) = Ok (v ix).
Proof. apply (get_ok sh); assumption. Qed.
End Assign.

(** ** Filters *)

Lemma lists_inside L sh p l : lists_where L sh p l -> all_inside sh l.
Proof. intros [H _]. unfold all_inside. apply Forall_forall. intros ix Hx. apply H in Hx. apply Hx. Qed.
Lemma lists_nodup L sh p l : lists_where L sh p l -> NoDup l.
Proof.
  intros [_ S]. induction S as [|x l Sl IH F]; constructor; [|exact IH]. intros Hx. rewrite Forall_forall in F. specialize (F _ Hx). lia.
Qed.
Lemma occ_nodup l ix : NoDup l -> occurrences l ix = if in_dec (list_eq_dec Z.eq_dec) ix l then 1%nat else 0%nat.
Proof.
  unfold occurrences. induction 1 as [|x l Hx Hn IH]; [reflexivity|]. cbn [filter].
  destruct (list_eq_dec Z.eq_dec x ix) as [ -> |N]; cbn [length].
  - rewrite IH. destruct (in_dec _ ix l) as [i|_]; [contradiction|]. destruct (in_dec _ ix (ix :: l)) as [_|N]; [reflexivity|]. exfalso. apply N. left. reflexivity.
  - rewrite IH. destruct (in_dec _ ix l) as [i|n], (in_dec _ ix (x :: l)) as [i'|n']; try reflexivity; exfalso; [apply n'; right; exact i|].
    destruct i' as [E|i']; [congruence|contradiction].
Qed.

Lemma sorted_extreme (off : list Z -> Z) l : StronglySorted (fun a b => off a < off b) l -> ends_extreme off l.
Proof.
  intros S. unfold ends_extreme. induction S as [|x l Sl IH F]; intros ix Hx; [destruct Hx|]. cbn [hd].
  rewrite Forall_forall in F. destruct l as [|y l].
  - destruct Hx as [ <- |[]]. cbn. lia.
  - change (last (x :: y :: l) []) with (last (y :: l) []).
    assert (Hlast : In (last (y :: l) []) (y :: l)).
    { clear. revert y. induction l as [|z l IH]; intros y; [left; reflexivity|]. right. change (last (y :: z :: l) []) with (last (z :: l) []). apply IH. }
    pose proof (F _ Hlast) as Hxl. destruct Hx as [ <- |Hx]; [lia|]. specialize (IH _ Hx). cbn [hd] in IH.
    pose proof (F y (or_introl eq_refl)).
    assert (off y <= off (last (y :: l) [])).
    { inversion Sl as [|? ? _ Fy]; subst. rewrite Forall_forall in Fy. destruct Hlast as [El|Hin]; [rewrite <- El; lia|]. specialize (Fy _ Hin). lia. }
    lia.
Qed.

Section Filter.
Context {V : Type} (L : layout) (sh : list Z) (c : cont V) (v : list Z -> V) (cond : list Z -> res bool) (p : list Z -> bool).
Hypotheses (HL : is_order L) (Hc : holds c sh v) (Hp : prod sh < 2 ^ 64) (He : expr_of sh cond p).

Lemma sh_shape : is_shape sh.
Proof. destruct Hc as ((H & _) & E & _). rewrite E in H. exact H. Qed.
Lemma filter_get : exists l, filter_indices L sh cond = Ok l /\ lists_where L sh p l.
Proof. apply argwhere_lemma; try assumption. apply sh_shape. Qed.

Lemma filter_fill_lemma x : exists l c', filter_indices L sh cond = Ok l /\ iv_fill c l x = Ok c' /\ holds c' sh (fun ix => if p ix then x else v ix).
Proof.
  destruct filter_get as (l & E & Hl). destruct (fill_lemma sh l c v Hc (lists_inside _ _ _ _ Hl) x) as (c' & E' & H).
  exists l, c'. split; [exact E|]. split; [exact E'|]. eapply holds_ext; [exact H|]. intros ix B. cbn beta. destruct Hl as [Hl _].
  destruct (in_dec _ ix l) as [i|N]; [apply Hl in i; destruct i as [_ ->]; reflexivity|]. destruct (p ix) eqn:Ep; [|reflexivity].
  exfalso. apply N, Hl. auto.
Qed.
Lemma filter_scalar_lemma f : exists l c', filter_indices L sh cond = Ok l /\ iv_scalar f c l = Ok c' /\ holds c' sh (fun ix => if p ix then f (v ix) else v ix).
Proof.
  destruct filter_get as (l & E & Hl). destruct (scalar_lemma sh l c v Hc (lists_inside _ _ _ _ Hl) f) as (c' & E' & H).
  exists l, c'. split; [exact E|]. split; [exact E'|]. eapply holds_ext; [exact H|]. intros ix B. cbn beta.
  rewrite occ_nodup by (eapply lists_nodup; exact Hl). destruct Hl as [Hl _].
  destruct (in_dec _ ix l) as [i|N]; [apply Hl in i; destruct i as [_ ->]; reflexivity|]. destruct (p ix) eqn:Ep; [|reflexivity].
  exfalso. apply N, Hl. auto.
Qed.
Lemma filter_extreme l : ct_layout c = L -> lists_where L sh p l -> ends_extreme (element_offset (ct_strides c)) l.
Proof.
  intros El Hl. apply sorted_extreme. pose proof (lists_inside _ _ _ _ Hl) as Hin. destruct Hl as [_ S].
  assert (Ho : forall ix, in_bounds sh ix -> element_offset (ct_strides c) ix = rank L sh ix).
  { intros ix B. destruct Hc as (C & Esh & _). rewrite <- El, <- Esh. apply (offset_rank c C); [rewrite El; exact HL|rewrite Esh; exact B]. }
  unfold all_inside in Hin. clear - S Hin Ho. induction S as [|x l Sl IH F]; [constructor|]. inversion Hin as [|? ? Hx Hin']; subst.
  constructor; [apply IH; exact Hin'|]. rewrite Forall_forall in *. intros y Hy. rewrite !Ho by auto. apply F. exact Hy.
Qed.
Lemma filter_assign_lemma e : ct_layout c = L ->
  exists l, filter_indices L sh cond = Ok l /\ lists_where L sh p l /\
    (rhs_ok sh (length l) e -> rhs_extreme (element_offset (ct_strides c)) e ->
     exists c' w, iv_assign c l e = Ok c' /\ holds c' sh w /\
       (forall i ix, nth_error l i = Some ix -> w ix = rhs_at v e i) /\ (forall ix, p ix = false -> w ix = v ix)).
Proof.
  intros El. destruct filter_get as (l & E & Hl). exists l. split; [exact E|]. split; [exact Hl|]. intros Hr Hx.
  destruct (assign_lemma sh l c v Hc (lists_inside _ _ _ _ Hl) e Hr (filter_extreme l El Hl) Hx) as (c' & E' & w & Hw & H1 & H2).
  exists c', w. split; [exact E'|]. split; [exact Hw|]. split.
  - intros i ix Ei. apply H1. split; [exact Ei|]. intros j Hj Ej. pose proof (lists_nodup _ _ _ _ Hl) as Hn. rewrite NoDup_nth_error in Hn.
    specialize (Hn i j). rewrite Ei, Ej in Hn. assert (i < length l)%nat by (apply nth_error_Some; congruence). specialize (Hn ltac:(assumption) eq_refl). lia.
  - intros ix Hpx. apply H2. intros Hi. apply (proj1 Hl) in Hi. destruct Hi. congruence.
Qed.
End Filter.

(** ** Filtration *)

Lemma filtration_lemma {V} TL sh (c : cont V) v cond p f : is_order TL -> holds c sh v -> local_condition sh v cond p ->
  exists c', filtration TL c cond f = Ok c' /\ holds c' sh (fun ix => if p ix then f (v ix) else v ix).
Proof.
  intros HT Hc Hloc. unfold filtration. destruct Hc as (Hcons & Esh & Hv). rewrite Esh.
  assert (G : forall l done_ c0, incl l (indices_of TL sh) -> NoDup l -> (forall x, In x l -> ~ In x done_) ->
    holds c0 sh (fun ix => if in_dec (list_eq_dec Z.eq_dec) ix done_ then (if p ix then f (v ix) else v ix) else v ix) ->
    exists c', for_each (fun ix c => let* v := c_read c ix in let* b := cond c ix in c_write c ix (if b : bool then f v else v)) l c0 = Ok c' /\
      holds c' sh (fun ix => if in_dec (list_eq_dec Z.eq_dec) ix (l ++ done_) then (if p ix then f (v ix) else v ix) else v ix)).
  { induction l as [|x l IH]; intros done_ c0 Hi Hn Hd H0; cbn [for_each app].
    - exists c0. auto.
    - assert (B : in_bounds sh x) by (apply (indices_of_in TL); [exact HT|apply Hi; left; reflexivity]).
      rewrite (read_ok sh c0 _ x H0 B). cbn [bind]. cbn beta.
      destruct (in_dec (list_eq_dec Z.eq_dec) x done_) as [i|N0]; [exfalso; apply (Hd x); [left; reflexivity|exact i]|].
      rewrite (Hloc c0 _ x H0 B). 2: { cbn beta. destruct (in_dec (list_eq_dec Z.eq_dec) x done_); [contradiction|reflexivity]. }
      cbn [bind]. destruct (write_ok sh c0 _ x (if p x then f (v x) else v x) H0 B) as (c1 & E1 & _ & _ & H1). rewrite E1. cbn [bind].
      inversion Hn as [|? ? Hnx Hn']; subst.
      destruct (IH (x :: done_) c1) as (c' & E' & H').
      + intros y Hy. apply Hi. right. exact Hy.
      + exact Hn'.
      + intros y Hy [ <- |Hyd]; [contradiction|]. apply (Hd y); [right; exact Hy|exact Hyd].
      + eapply holds_ext; [exact H1|]. intros ix Bx. cbn beta. unfold set. destruct (list_eq_dec Z.eq_dec ix x) as [ -> |Ne].
        * destruct (in_dec _ x (x :: done_)) as [_|N]; [reflexivity|]. exfalso. apply N. left. reflexivity.
        * destruct (in_dec _ ix done_) as [i|N], (in_dec _ ix (x :: done_)) as [i'|N']; try reflexivity; exfalso; [apply N'; right; exact i|].
          destruct i' as [Eq|i']; [congruence|contradiction].
      + exists c'. split; [exact E'|]. eapply holds_ext; [exact H'|]. intros ix Bx. cbn beta.
        destruct (in_dec _ ix (l ++ x :: done_)) as [i|N], (in_dec _ ix (x :: l ++ done_)) as [i'|N']; try reflexivity; exfalso.
        * apply N'. apply in_app_or in i. destruct i as [i|[i|i]]; [right; apply in_or_app; left; exact i|left; exact i|right; apply in_or_app; right; exact i].
        * apply N. apply in_or_app. destruct i' as [i|i]; [right; left; exact i|]. apply in_app_or in i. destruct i as [i|i]; [left; exact i|right; right; exact i]. }
  destruct (G (indices_of TL sh) [] c (incl_refl _) (indices_of_nodup TL sh HT)) as (c' & E & H); [intros x _ []|split; [exact Hcons|split; [exact Esh|exact Hv]]|].
  exists c'. split; [exact E|]. eapply holds_ext; [exact H|]. intros ix B. cbn beta. rewrite app_nil_r.
  destruct (in_dec _ ix (indices_of TL sh)) as [_|N]; [reflexivity|]. exfalso. apply N. apply indices_of_in; assumption.
Qed.

(** ** Equality *)

Lemma eq_loop_ok {V} eqb (e1 e2 : list Z -> res V) v1 v2 : forall ixs, (forall ix, In ix ixs -> e1 ix = Ok (v1 ix)) -> (forall ix, In ix ixs -> e2 ix = Ok (v2 ix)) ->
  eq_loop eqb e1 e2 ixs = Ok (forallb (fun ix => eqb (v1 ix) (v2 ix)) ixs).
Proof.
  induction ixs as [|ix ixs IH]; intros H1 H2; cbn [eq_loop forallb]; [reflexivity|].
  rewrite (H1 ix), (H2 ix) by (left; reflexivity). cbn [bind]. destruct (eqb (v1 ix) (v2 ix)); [|reflexivity].
  apply IH; intros y Hy; [apply H1|apply H2]; right; exact Hy.
Qed.
Lemma equality_lemma {V} TL eqb s1 e1 (v1 : list Z -> V) s2 e2 v2 : is_order TL -> is_shape s1 -> expr_of s1 e1 v1 -> expr_of s2 e2 v2 ->
  exists b, expr_eq TL eqb s1 e1 s2 e2 = Ok b /\ expr_ne TL eqb s1 e1 s2 e2 = Ok (negb b) /\
    (b = true <-> s1 = s2 /\ forall ix, in_bounds s1 ix -> eqb (v1 ix) (v2 ix) = true).
Proof.
  intros HT Hs H1 H2. unfold expr_ne, expr_eq. destruct (length s1 =? length s2)%nat eqn:El; [|exists false].
  - destruct (zlist_eqb s1 s2) eqn:Ez; cbn [andb]; [|exists false].
    + apply zlist_eqb_eq in Ez. subst s2. rewrite (eq_loop_ok eqb e1 e2 v1 v2).
      2: { intros ix Hx. apply H1, (indices_of_in TL); assumption. }
      2: { intros ix Hx. apply H2, (indices_of_in TL); assumption. }
      exists (forallb (fun ix => eqb (v1 ix) (v2 ix)) (indices_of TL s1)). cbn [bind]. split; [reflexivity|]. split; [reflexivity|].
      rewrite forallb_forall. split.
      * intros H. split; [reflexivity|]. intros ix B. apply H, indices_of_in; assumption.
      * intros [_ H] ix Hx. apply H, (indices_of_in TL); assumption.
    + cbn [bind]. split; [reflexivity|]. split; [reflexivity|]. split; [discriminate|]. intros [E _]. subst s2.
      assert (zlist_eqb s1 s1 = true) by (apply zlist_eqb_eq; reflexivity). congruence.
  - cbn [andb bind]. split; [reflexivity|]. split; [reflexivity|]. split; [discriminate|]. intros [E _]. subst s2. apply Nat.eqb_neq in El. congruence.
Qed.

(** ** trim_zeros *)

Lemma find_if_spec {V} (p : V -> bool) : forall v, (find_if p v <= length v)%nat /\ (forall i x, (i < find_if p v)%nat -> nth_error v i = Some x -> p x = false) /\
  (forall x, nth_error v (find_if p v) = Some x -> p x = true).
Proof.
  induction v as [|y v (IH1 & IH2 & IH3)]; cbn [find_if length]; [split; [lia|split; [intros; lia|discriminate]]|].
  destruct (p y) eqn:E.
  - split; [lia|]. split; [intros; lia|]. intros x Ex. cbn in Ex. congruence.
  - split; [lia|]. split; [|exact IH3]. intros [|i] x Hi Ex; cbn in Ex; [congruence|]. apply (IH2 i); [lia|exact Ex].
Qed.
Lemma trim_lemma {V} (nz : V -> bool) front back v b e : trim_zeros nz front back v = (b, e) ->
  0 <= b <= e /\ e <= Z.of_nat (length v) /\
  (front = false -> b = 0) /\ (back = false -> e = Z.of_nat (length v)) /\
  (forall i x, nth_error v i = Some x -> (Z.of_nat i < b \/ e <= Z.of_nat i) -> nz x = false) /\
  (forall x, b < e -> nth_error v (Z.to_nat b) = Some x -> front = true -> nz x = true) /\
  (forall x, b < e -> nth_error v (Z.to_nat (e - 1)) = Some x -> back = true -> nz x = true).
Proof.
  unfold trim_zeros. intros E. injection E as Eb Ee.
  destruct (find_if_spec nz v) as (F1 & F2 & F3). destruct (find_if_spec nz (rev v)) as (R1 & R2 & R3). rewrite rev_length in R1.
  set (fi := find_if nz v) in *. set (ri := find_if nz (rev v)) in *.
  assert (Hrev : forall j, (j < length v)%nat -> nth_error (rev v) j = nth_error v (length v - 1 - j)).
  { clear. intros j Hj. destruct (nth_error v (length v - 1 - j)) as [x|] eqn:E; [|apply nth_error_None in E; lia].
    rewrite (nth_error_nth' _ x) by (rewrite rev_length; exact Hj). f_equal. rewrite rev_nth by exact Hj. apply nth_error_nth with (d := x) in E.
    rewrite <- E at 2. f_equal. lia. }
  (* the first non-zero value, if any, is before the end of the trailing zeros *)
  assert (Hord : (fi < length v)%nat -> (fi + ri < length v)%nat).
  { intros Hlt. destruct (nth_error v fi) as [x|] eqn:Ex; [|apply nth_error_None in Ex; lia]. specialize (F3 x eq_refl).
    destruct (Nat.lt_ge_cases (length v - 1 - fi) ri) as [Hr|Hr]; [|lia]. exfalso.
    specialize (R2 (length v - 1 - fi)%nat x Hr). rewrite Hrev in R2 by lia. replace (length v - 1 - (length v - 1 - fi))%nat with fi in R2 by lia.
    specialize (R2 Ex). congruence. }
  assert (Hb : b = if front then Z.of_nat fi else 0) by (symmetry; exact Eb).
  assert (He : e = if back && negb (b =? Z.of_nat (length v)) then Z.of_nat (length v) - Z.of_nat ri else Z.of_nat (length v)) by (rewrite <- Eb in *; symmetry; exact Ee).
  clear Eb Ee.
  destruct (b =? Z.of_nat (length v)) eqn:Ebe; [apply Z.eqb_eq in Ebe|apply Z.eqb_neq in Ebe]; [rewrite andb_false_r in He|rewrite andb_true_r in He].
  - split; [destruct front; lia|]. split; [lia|]. split; [intros ->; exact Hb|]. split; [intros _; exact He|].
    split; [|split; intros; lia]. intros i x Ei Hi. assert (i < length v)%nat by (apply nth_error_Some; congruence).
    destruct front; [|lia]. apply (F2 i); [lia|exact Ei].
  - assert (Hbe : 0 <= b <= e /\ e <= Z.of_nat (length v)).
    { destruct front; [specialize (Hord ltac:(lia))|]; destruct back; lia. }
    split; [apply Hbe|]. split; [apply Hbe|]. split; [intros ->; exact Hb|]. split; [intros ->; exact He|].
    split; [|split].
    + intros i x Ei [Hi|Hi].
      * destruct front; [|lia]. apply (F2 i); [lia|exact Ei].
      * assert (i < length v)%nat by (apply nth_error_Some; congruence). destruct back; [|lia].
        apply (R2 (length v - 1 - i)%nat); [lia|]. rewrite Hrev by lia. replace (length v - 1 - (length v - 1 - i))%nat with i by lia. exact Ei.
    + intros x Hlt Ex ->. subst b. rewrite Nat2Z.id in Ex. apply F3. exact Ex.
    + intros x Hlt Ex ->. apply R3. assert (ri < length v)%nat by lia. rewrite Hrev by lia. rewrite <- Ex. f_equal. lia.
Qed.

Lemma flatten_lemma l d i j : Forall (fun ix => length ix = d) l -> (i < length l)%nat -> (j < d)%nat ->
  nth_error (flatten_indices l) (i * d + j) = Some (nth j (nth i l []) 0) /\ length (flatten_indices l) = (length l * d)%nat.
Proof.
  intros F Hi Hj. unfold flatten_indices. split.
  - revert i Hi. induction F as [|ix l Hd F IH]; intros i Hi; [cbn in Hi; lia|]. cbn [concat]. destruct i as [|i].
    + cbn [Nat.mul Nat.add nth]. rewrite nth_error_app1 by lia. apply nth_error_nth'. lia.
    + rewrite nth_error_app2 by nia. replace (S i * d + j - length ix)%nat with (i * d + j)%nat by nia. apply IH. cbn in Hi. lia.
  - clear Hi. induction F as [|ix l Hd F IH]; [reflexivity|]. cbn [concat length]. rewrite app_length, IH. lia.
Qed.

Definition vec (d : list Z) : cont Z := mk_cont [Z.of_nat (length d)] [1] [Z.of_nat (length d) - 1] row_major d.
Definition grid23 (d : list Z) : cont Z := mk_cont [2; 3] [3; 1] [3; 2] row_major d.
