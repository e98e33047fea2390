(** When the linear loops are chosen, destination and operands are stored in the same order. *)
From Coq Require Import List ZArith Bool Lia.
From Verif Require Import Prelude PreludeFacts Strides_Model Strides_Spec Strides_Proofs Broadcast_Spec Layout_Model Layout_Proofs Slice_Model
  Stepper_Model Stepper_Spec Stepper_Proofs Stepper2_Proofs Stepper3_Proofs Stepper4_Proofs Container_Proofs
  Assign_Model Assign_Spec Assign_Proofs Assign2_Proofs.
Import ListNotations.
Open Scope Z_scope.

Lemma leaves_imp {V} (P Q : meta -> container -> Prop) (e : aexp V) :
  (forall m k, P m k -> Q m k) -> leaves_ok P e -> leaves_ok Q e.
Proof.
  intros H. induction e as [v|m c s|s f|f args IH] using aexp_ind'; intros HP; [exact I|apply H; exact HP|exact I|].
  rewrite leaves_fun in *. revert HP. induction IH; intros HP; inversion HP; subst; constructor; auto.
Qed.
Lemma leaves_and {V} (P Q : meta -> container -> Prop) (e : aexp V) :
  leaves_ok P e -> leaves_ok Q e -> leaves_ok (fun m k => P m k /\ Q m k) e.
Proof.
  induction e as [v|m c s|s f|f args IH] using aexp_ind'; intros HP HQ; [exact I|split; assumption|exact I|].
  rewrite leaves_fun in *. revert HP HQ.
  induction IH; intros HP HQ; inversion HP; inversion HQ; subst; constructor; auto.
Qed.

Lemma lay_compute ls : lay (compute_layout ls) <> dynamic ->
  Forall (fun l => l = any \/ l = lay (compute_layout ls)) ls /\ Forall (fun l => l <> dynamic) ls.
Proof.
  destruct (compute_layout_spec ls) as (r & E & H1 & H2 & H3). rewrite E. cbn [lay]. intros Hr.
  assert (Forall (fun l => l = any \/ l = r) ls).
  { destruct r; [contradiction| | |].
    - eapply Forall_impl; [|apply H1; reflexivity]. cbn. tauto.
    - destruct H2 as [H2 _]. destruct (H2 eq_refl) as [H2' _]. exact H2'.
    - destruct H3 as [H3 _]. destruct (H3 eq_refl) as [H3' _]. exact H3'. }
  split; [assumption|]. eapply Forall_impl; [|exact H]. cbn. intros a [ -> | -> ]; [discriminate|assumption].
Qed.

Lemma leaves_static {V} (e : aexp V) : a_static e <> dynamic ->
  a_strided e = true /\ leaves_ok (fun m _ => m_static m = any \/ m_static m = a_static e) e.
Proof.
  induction e as [v|m c s|s f|f args IH] using aexp_ind'; intros Hn; cbn [a_strided].
  - split; [reflexivity|exact I].
  - split; [reflexivity|]. cbn. auto.
  - exfalso. apply Hn. reflexivity.
  - cbn [a_static] in *. destruct (lay_compute _ Hn) as [H1 H2]. set (r := lay (compute_layout (map a_static args))) in *.
    clearbody r. clear Hn. rewrite leaves_fun. rewrite Forall_map in H1, H2.
    induction IH as [|a args Ha _ IH2]; [split; [reflexivity|constructor]|].
    inversion H1 as [|? ? A1 A2]; inversion H2 as [|? ? B1 B2]; subst. destruct (IH2 A2 B2) as [C1 C2]. destruct (Ha B1) as [D1 D2].
    cbn [forallb]. rewrite D1, C1. split; [reflexivity|]. constructor; [|assumption].
    eapply leaves_imp; [|exact D2]. intros m k [E|E]; [auto|]. destruct A1 as [E'|E']; rewrite E' in E; auto.
Qed.

Lemma leaves_dim {V} (e : aexp V) : forall n, a_dim e = Some n ->
  leaves_ok (fun m _ => exists n', m_dim m = Some n' /\ (n' <= n)%nat) e.
Proof.
  induction e as [v|m c s|s f|f args IH] using aexp_ind'; intros n Hn; [exact I| |exact I|].
  - exists n. auto.
  - rewrite leaves_fun. cbn [a_dim] in Hn. revert n Hn. induction IH as [|a args Ha _ IH2]; intros n Hn; constructor; cbn [fold_right] in Hn.
    + destruct (a_dim a) as [x|]; [|discriminate]. match goal with H : context [match ?t with _ => _ end] |- _ => destruct t as [y|] end; [|discriminate].
      injection Hn as Hn. eapply leaves_imp; [|apply (Ha x eq_refl)]. intros m k (n' & E & Hle). exists n'. split; [assumption|lia].
    + destruct (a_dim a) as [x|]; [|discriminate].
      match goal with H : context [match ?t with _ => _ end] |- _ => destruct t as [y|] eqn:Ey end; [|discriminate].
      injection Hn as Hn. eapply Forall_impl; [|apply (IH2 y); reflexivity]. cbn beta. intros a' Ha'.
      eapply leaves_imp; [|exact Ha']. intros m k (n' & E & Hle). exists n'. split; [assumption|lia].
Qed.

Lemma row_col_1d sh ix : (length sh <= 1)%nat -> row_pos sh ix = col_pos sh ix.
Proof.
  destruct sh as [|d [|d' sh]]; cbn [length]; intros H; [reflexivity| |lia].
  destruct ix as [|i ix]; [reflexivity|]. cbn [row_pos col_pos]. rewrite prod_nil. destruct ix; ring.
Qed.

Lemma stored_dense s l k : stored_as s k -> (l = row_major \/ l = column_major) -> s = any \/ s = l -> dense l k.
Proof.
  intros H [ -> | -> ] [ -> | -> ] ix Hb; specialize (H ix Hb); cbn in *; tauto.
Qed.
Lemma stored_dense_1d s l k : stored_as s k -> s <> dynamic -> (l = row_major \/ l = column_major) ->
  (length (k_shape k) <= 1)%nat -> dense l k.
Proof.
  intros H Hs Hl Hd ix Hb. specialize (H ix Hb). pose proof (row_col_1d (k_shape k) ix Hd) as E.
  destruct s, Hl as [ -> | -> ]; try contradiction; cbn in *; try tauto; congruence.
Qed.

Lemma select_cases s d : select_layout s d = s \/ (select_layout s d = any /\ s <> dynamic /\ exists n, d = Some n /\ (n <= 1)%nat).
Proof.
  unfold select_layout. destruct d as [n|]; [|auto]. destruct (n <=? 1)%nat eqn:E; [|auto]. apply Nat.leb_le in E.
  destruct (layout_eqb s dynamic) eqn:E2; [auto|]. apply layout_eqb_neq in E2. right. eauto 6.
Qed.

Lemma lay2 a b : lay (compute_layout [a; b]) <> dynamic ->
  exists l, (l = row_major \/ l = column_major) /\ (a = any \/ a = l) /\ (b = any \/ b = l).
Proof.
  intros H. destruct (lay_compute _ H) as [H1 _]. inversion H1 as [|? ? A B]; subst. inversion B as [|? ? C _]; subst.
  destruct (lay (compute_layout [a; b])); [contradiction| |exists row_major; auto|exists column_major; auto].
  exists row_major. destruct A, C; auto.
Qed.

Lemma has_linear_leaves {V} st (e : aexp V) : has_linear_assign st e = true ->
  a_strided e = true /\ leaves_ok (fun _ k => k_strides k = st) e.
Proof.
  induction e as [v|m c s|s f|f args IH] using aexp_ind'; cbn [has_linear_assign a_strided]; intros H.
  - split; [reflexivity|exact I].
  - split; [reflexivity|]. apply zlist_eqb_eq. assumption.
  - discriminate.
  - rewrite leaves_fun.
    induction IH as [|a args Ha _ IH2]; [split; [reflexivity|constructor]|]. cbn [forallb] in *.
    apply andb_true_iff in H. destruct H as [H1 H2]. destruct (Ha H1) as [-> B], (IH2 H2) as [-> D]. split; [reflexivity|].
    constructor; assumption.
Qed.

Lemma contiguous_dense m c : strided_ok c -> stored_as (m_layout m) c -> is_contiguous m c = true ->
  exists l, (l = row_major \/ l = column_major) /\ dense l c.
Proof.
  intros Hs Hst H. unfold is_contiguous in H.
  assert (Hd : m_layout m <> dynamic -> exists l, (l = row_major \/ l = column_major) /\ dense l c).
  { intros Hn. destruct (m_layout m); [contradiction|exists row_major|exists row_major|exists column_major]; split; auto;
      eapply stored_dense; eauto. }
  destruct (m_kind m).
  - destruct (m_layout m) eqn:El.
    + destruct (k_strides c) eqn:Es; [|discriminate]. exists row_major. split; [auto|]. intros ix Hb.
      destruct Hs as [H1 _]. rewrite Es in *. cbn in H1. destruct (k_shape c); [|discriminate].
      destruct ix; reflexivity.
    + apply Hd. discriminate.
    + apply Hd. discriminate.
    + apply Hd. discriminate.
  - apply negb_true_iff, layout_eqb_neq in H. auto.
  - apply negb_true_iff, layout_eqb_neq in H. auto.
Qed.

Lemma linear_dense {V} (m : meta) (c : container) (e : aexp V) : strided_ok c -> truthful m c -> leaves_ok truthful e ->
  leaves_ok (fun _ k => k_shape k = k_shape c) e -> is_linear_assign m c e = true ->
  a_strided e = true /\ exists l, (l = row_major \/ l = column_major) /\ dense l c /\ leaves_ok (fun _ k => dense l k) e.
Proof.
  intros Hs (T1 & T2 & T3) Htr Hsh H. unfold is_linear_assign in H. apply orb_true_iff in H. destruct H as [H|H].
  - apply andb_true_iff in H. destruct H as [H Hc]. apply andb_true_iff in H. destruct H as [S1 S2].
    unfold contiguous_layout in S1, S2. apply negb_true_iff, layout_eqb_neq in S1, S2, Hc.
    destruct (leaves_static e S2) as [Hst Hlv]. split; [assumption|].
    destruct (lay2 _ _ Hc) as (l & Hl & A & B). exists l. split; [assumption|]. split.
    + destruct (select_cases (m_static m) (m_dim m)) as [E|(E & _ & n & Ed & Hn)].
      * rewrite E in A. exact (stored_dense _ l c T1 Hl A).
      * rewrite Ed in T3. apply (stored_dense_1d _ l c T1); auto. lia.
    + destruct (select_cases (a_static e) (a_dim e)) as [E|(E & _ & n & Ed & Hn)].
      * rewrite E in B. eapply leaves_imp; [|apply (leaves_and _ _ _ Htr Hlv)]. cbn beta. intros m' k ((U1 & _) & [U2|U2]).
        -- apply (stored_dense _ l k U1 Hl). auto.
        -- apply (stored_dense _ l k U1 Hl). rewrite U2. assumption.
      * eapply leaves_imp; [|apply (leaves_and _ _ _ (leaves_and _ _ _ Htr Hlv) (leaves_dim e n Ed))].
        cbn beta. intros m' k (((U1 & _ & U3) & U2) & n' & En & Hle). rewrite En in U3.
        eapply stored_dense_1d; [exact U1| |assumption|lia]. destruct U2 as [ -> | -> ]; [discriminate|assumption].
  - apply andb_true_iff in H. destruct H as [H1 H2]. destruct (has_linear_leaves _ _ H2) as [Hst Hlv]. split; [assumption|].
    destruct (contiguous_dense m c Hs T2 H1) as (l & Hl & Hd). exists l. split; [assumption|]. split; [assumption|].
    eapply leaves_imp; [|apply (leaves_and _ _ _ Hsh Hlv)]. cbn beta. intros _ k (E1 & E2) ix Hb. rewrite E2.
    rewrite E1 in *. apply Hd. assumption.
Qed.

Lemma simd_leaves {V} (e : aexp V) : a_simd e = true -> leaves_ok (fun m _ => leaf_simd m = true) e.
Proof.
  induction e as [v|m c s|s f|f args IH] using aexp_ind'; intros H; try exact I; [exact H|].
  apply leaves_fun. cbn [a_simd] in H. rewrite forallb_forall in H.
  apply Forall_forall. intros a Ha. rewrite Forall_forall in IH. auto.
Qed.

Lemma leaf_simd_static m : leaf_simd m = true -> m_kind m = KStridedView -> m_static m <> dynamic.
Proof. unfold leaf_simd. intros H E D. rewrite E, D in H. discriminate. Qed.

Lemma linear_enumerates {V} (g : setup) (m : meta) (c : container) (e : aexp V) (mem : list V) simd :
  writable c mem -> truthful m c -> leaves_ok truthful e -> leaves_ok (fun _ k => k_shape k = k_shape c) e ->
  is_linear_assign m c e = true -> (simd = true -> g_types g = true /\ leaf_simd m = true /\ a_simd e = true) ->
  simd_offset_ok g m c -> leaves_ok (simd_offset_ok g) e ->
  enumerates c e (map (flat_lane simd m c e) (zseq 0 (Z.to_nat (prod (k_shape c))))).
Proof.
  intros Hw Ht Htl Hsh Hlin Hsi Ho Hol. pose proof Hw as (_ & Hs & _).
  destruct (linear_dense m c e Hs Ht Htl Hsh Hlin) as (Hst & l & Hl & Hd & Hdl).
  destruct simd.
  - destruct (Hsi eq_refl) as (Gt & Lm & Le). eapply flat_lanes_ok; eauto.
    + intros _ K. apply Ho; [exact Gt|exact K|]. apply leaf_simd_static; assumption.
    + eapply leaves_imp; [|apply (leaves_and _ _ _ (leaves_and _ _ _ (leaves_and _ _ _ Hsh Hdl) Hol) (simd_leaves e Le))].
      cbn beta. intros m' k (((A & B) & C) & D). split; [assumption|]. split; [assumption|]. intros _ K.
      apply C; [exact Gt|exact K|]. apply leaf_simd_static; assumption.
  - eapply flat_lanes_ok; eauto; [discriminate|].
    eapply leaves_imp; [|apply (leaves_and _ _ _ Hsh Hdl)]. cbn beta. intros m' k (A & B).
    split; [assumption|]. split; [assumption|]. discriminate.
Qed.
