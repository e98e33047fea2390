(** Proofs about sorting: the leading axis of a container. *)
From Coq Require Import List ZArith Bool Lia.
From Verif Require Import Prelude PreludeFacts Strides_Model Strides_Spec Strides_Proofs Container_Model Container_Spec Container_Proofs
  Stepper_Proofs Builder_Proofs Reduce9_Proofs SView_Model SView_Spec Manip_Model Reduce13_Proofs
  Accum_Spec Accum2_Proofs Accum3_Proofs Sort_Model Sort_Spec Sort_Proofs.
Import ListNotations.
Open Scope Z_scope.

Lemma in_bounds_upd sh ix a k : in_bounds sh ix -> 0 <= k < nth a sh 0 -> in_bounds sh (upd ix a k).
Proof.
  intros H Hk. apply in_bounds_intro; [rewrite upd_length; apply (in_bounds_length _ _ H)|]. intros i Hi.
  destruct (Nat.eq_dec i a) as [ -> |Hn].
  - rewrite nth_upd_same by (rewrite (in_bounds_length _ _ H); assumption). exact Hk.
  - rewrite nth_upd_other by congruence. apply (in_bounds_nth _ _ i H Hi).
Qed.

Lemma lane_length {V} (ev : list Z -> V) a n ix : length (lane ev a n ix) = Z.to_nat n.
Proof. unfold lane. rewrite map_length, seq_length. reflexivity. Qed.
Lemma lane_nth {V} (ev : list Z -> V) a n ix k : (k < Z.to_nat n)%nat -> nth_error (lane ev a n ix) k = Some (ev (upd ix a (Z.of_nat k))).
Proof.
  intros H. unfold lane. rewrite nth_error_map, nth_error_nth' with (d := 0%nat) by (rewrite seq_length; exact H).
  rewrite seq_nth by exact H. reflexivity.
Qed.

(** An element of an array. *)
Definition elem_of {V} (sh : list Z) (ev : list Z -> V) (x : V) : Prop := exists jx, in_bounds sh jx /\ ev jx = x.

Lemma lane_elem {V} sh (ev : list Z -> V) a n ix x : in_bounds sh ix -> n = nth a sh 0 -> In x (lane ev a n ix) -> elem_of sh ev x.
Proof.
  intros Hb -> H. unfold lane in H. apply in_map_iff in H. destruct H as (k & <- & Hk). apply in_seq in Hk.
  eexists. split; [|reflexivity]. apply in_bounds_upd; [exact Hb|lia].
Qed.

Definition good {V} (c : cont V) : Prop := consistent c /\ documented c /\ is_order (ct_layout c).

Lemma good_with_data {V} (c : cont V) d : good c -> length d = length (ct_data c) -> good (with_data c d).
Proof.
  intros ((H1 & H2 & H3 & H4 & H5) & H6 & H7) Hd. split; [|split; [exact H6|exact H7]].
  unfold consistent, with_data; cbn. rewrite Hd. repeat split; assumption.
Qed.

Lemma size_lead_gen l sh : is_order l -> sh <> [] -> prod sh = prod (others l sh) * nth (lead l (length sh)) sh 0.
Proof.
  intros [ -> | -> ] Hne; cbn [others lead].
  - rewrite (last_split sh Hne) at 1. rewrite prod_app, prod_cons. change (prod []) with 1. lia.
  - destruct sh; [congruence|]. cbn [skipn nth]. rewrite prod_cons. lia.
Qed.
Lemma others_zero l sh : is_order l -> (2 <= length sh)%nat -> Forall (fun d => d = 0) sh -> prod (others l sh) = 0.
Proof.
  intros Ho Hdim F. destruct sh as [|a [|b s]]; cbn [length] in Hdim; try lia. inversion F as [|? ? Ea F']; subst. inversion F'; subst.
  destruct Ho as [ -> | -> ]; cbn [others length]; [|cbn [skipn]; rewrite prod_cons; lia].
  replace (S (S (length s)) - 1)%nat with (S (length s)) by lia. cbn [firstn]. rewrite prod_cons. lia.
Qed.
Lemma secondary_gen {V} (c : cont V) : is_order (ct_layout c) -> (2 <= length (ct_shape c))%nat -> length (ct_strides c) = length (ct_shape c) ->
  exists ss, get_secondary_stride c = Ok ss /\
  ((forall k, (k < length (ct_shape c))%nat -> nth k (ct_strides c) 0 = match ct_layout c with row_major => row_stride (ct_shape c) k | _ => col_stride (ct_shape c) k end) ->
   ss = nth (lead (ct_layout c) (length (ct_shape c))) (ct_shape c) 0).
Proof.
  destruct c as [sh st bs l d]. cbn. intros Ho Hdim Hst. unfold get_secondary_stride. cbn. destruct Ho as [ -> | -> ]; cbn [layout_eqb lead].
  - rewrite (proj2 (Nat.leb_gt _ _)) by lia.
    rewrite (rd_nth 0) by lia. cbn [bind]. rewrite (rd_nth 0) by lia. cbn [bind].
    eexists. split; [reflexivity|]. intros Hd. rewrite Hd by lia.
    unfold adjust_secondary_stride, row_stride. destruct (nth (length sh - 2) sh 0 =? 1); [reflexivity|].
    replace (S (length sh - 2)) with (length sh - 1)%nat by lia.
    assert (Hlt : (length sh - 1 < length sh)%nat) by lia. rewrite (skipn_cons_nth sh _ _ (nth_error_nth' sh 0 Hlt)). replace (S (length sh - 1)) with (length sh) by lia. rewrite skipn_all, prod_cons. change (prod []) with 1. rewrite Z.mul_1_r.
    destruct (Z.eqb_spec (nth (length sh - 1) sh 0) 0); cbn; congruence.
  - rewrite (rd_nth 0) by lia. cbn [bind]. rewrite (rd_nth 0) by lia. cbn [bind].
    eexists. split; [reflexivity|]. intros Hd. rewrite Hd by lia.
    unfold adjust_secondary_stride, col_stride. destruct (nth 1 sh 0 =? 1); [reflexivity|].
    destruct sh as [|a s]; [cbn in Hdim; lia|]. cbn [firstn nth]. rewrite prod_cons. change (prod []) with 1. rewrite Z.mul_1_r.
    destruct (Z.eqb_spec a 0); cbn; congruence.
Qed.
Lemma index_of_rank l s q : is_order l -> is_shape s -> (Z.of_nat q < prod s) -> exists jx, in_bounds s jx /\ Z.to_nat (rank l s jx) = q.
Proof.
  intros Ho Hs Hq. assert (Hp : Forall (fun d => 0 < d) s) by (apply pos_of_prod; [exact Hs|lia]).
  destruct Ho as [ -> | -> ]; cbn [rank].
  - destruct (index_at s q Hp ltac:(lia)) as [B1 B2]. eexists. split; [exact B1|]. lia.
  - destruct (index_at (rev s) q) as [B1 B2]; [apply Forall_rev; exact Hp|rewrite prod_rev; lia|].
    eexists (rev _). split; [apply in_bounds_rev in B1; rewrite rev_involutive in B1; exact B1|].
    rewrite col_row by (rewrite rev_length, (in_bounds_length _ _ B1), rev_length; reflexivity). rewrite rev_involutive. lia.
Qed.
(** An index with given other components. *)
Definition with_lead (l : layout) (jx : list Z) : list Z := match l with row_major => jx ++ [0] | _ => 0 :: jx end.
Lemma with_lead_ok l sh jx : is_order l -> sh <> [] -> in_bounds (others l sh) jx -> 0 < nth (lead l (length sh)) sh 0 ->
  in_bounds sh (with_lead l jx) /\ others l (with_lead l jx) = jx.
Proof.
  intros [ -> | -> ] Hne B Hn; cbn [others lead with_lead] in *.
  - split.
    + rewrite (last_split sh Hne). apply Forall2_app; [exact B|]. constructor; [lia|constructor].
    + rewrite app_length. cbn [length]. replace (length jx + 1 - 1)%nat with (length jx) by lia.
      rewrite firstn_app, Nat.sub_diag, firstn_all. cbn [firstn]. apply app_nil_r.
  - destruct sh as [|a s]; [congruence|]. cbn [nth skipn] in *. split; [|reflexivity]. constructor; [lia|exact B].
Qed.

Section Lead.
Context {V : Type} (c : cont V) (ev : list Z -> V).
Hypothesis Hc : consistent c.
Hypothesis Hdoc : documented c.
Hypothesis Hl : is_order (ct_layout c).
Hypothesis He : forall jx, in_bounds (ct_shape c) jx -> elt c jx = Ok (ev jx).
Hypothesis Hdim : (2 <= length (ct_shape c))%nat.
Let l := ct_layout c.
Let sh := ct_shape c.
Let ld := lead l (length sh).
Let n := nth ld sh 0.

Lemma sh_ne : sh <> [].
Proof. unfold sh. intros E. rewrite E in Hdim. cbn in Hdim. lia. Qed.
Lemma lead_lt : (ld < length sh)%nat.
Proof. unfold ld, lead, sh. destruct l; lia. Qed.
Lemma n_nonneg : 0 <= n.
Proof. unfold n. destruct Hc as (Hs & _). unfold is_shape in Hs. apply (forall_nth (fun d => 0 <= d)); [exact Hs|apply lead_lt]. Qed.
Lemma others_shape : is_shape (others l sh).
Proof.
  destruct Hc as (Hs & _). unfold others, is_shape. fold sh in Hs.
  destruct l; try (apply Forall_skipn'; exact Hs); apply Forall_firstn'; exact Hs.
Qed.
Lemma size_lead : prod sh = prod (others l sh) * n.
Proof. exact (size_lead_gen l sh Hl sh_ne). Qed.
Lemma n_iters_eq : leading_axis_n_iters c = Ok (prod (others l sh)).
Proof.
  unfold leading_axis_n_iters. fold sh l. assert (E : (length sh =? 0)%nat = false) by (apply Nat.eqb_neq; unfold sh; lia). rewrite E.
  destruct Hl as [El|El]; fold l in El; rewrite El; cbn [layout_eqb others]; rewrite compute_size_prod; reflexivity.
Qed.
Lemma secondary : exists ss, get_secondary_stride c = Ok ss /\ (prod (others l sh) = 0 \/ ss = n).
Proof.
  destruct Hc as (_ & Hst & _). destruct (secondary_gen c Hl Hdim Hst) as (ss & E & H). exists ss. split; [exact E|].
  destruct (Z.eq_dec (prod (others l sh)) 0) as [Z0|Z0]; [left; exact Z0|right]. apply H. apply Hdoc; [exact Hl|].
  intros F. apply Z0. apply others_zero; assumption.
Qed.

Let m := Z.to_nat (prod (others l sh)).
Let N := Z.to_nat n.
Lemma m_val : Z.of_nat m = prod (others l sh).
Proof. unfold m. pose proof (prod_nonneg _ others_shape). lia. Qed.
Lemma data_len : length (ct_data c) = (m * N)%nat.
Proof.
  destruct Hc as (_ & _ & _ & H & _). fold sh in H. rewrite size_lead in H. rewrite <- m_val in H. unfold N. pose proof n_nonneg. nia.
Qed.

(** A lane along the leading axis is a block of the buffer. *)
Definition lane_no (ix : list Z) : nat := Z.to_nat (rank l (others l sh) (others l ix)).
Lemma lane_no_lt ix : in_bounds sh ix -> (lane_no ix < m)%nat /\ (0 < N)%nat.
Proof.
  intros H. destruct (rank_lead l sh ix Hl sh_ne H) as (B & _ & _ & B2). pose proof (rank_bound l _ _ B). fold ld n in B2.
  pose proof m_val. unfold lane_no, N. lia.
Qed.
Lemma lane_rank ix k : in_bounds sh ix -> (k < N)%nat -> Z.to_nat (rank l sh (upd ix ld (Z.of_nat k))) = (lane_no ix * N + k)%nat.
Proof.
  intros H Hk. pose proof (in_bounds_length _ _ H) as Hlen.
  assert (Hb : in_bounds sh (upd ix ld (Z.of_nat k))) by (apply in_bounds_upd; [exact H|fold n; unfold N in Hk; lia]).
  destruct (rank_lead l sh _ Hl sh_ne Hb) as (B & E & _ & B2). fold ld n in E, B2. rewrite E.
  rewrite nth_upd_same in * by (rewrite Hlen; apply lead_lt).
  assert (Eo : others l (upd ix ld (Z.of_nat k)) = others l ix).
  { unfold ld. rewrite <- Hlen. apply others_upd; [exact Hl|]. intros ->. cbn in Hlen. pose proof sh_ne. destruct sh; [congruence|discriminate]. }
  rewrite Eo in *. pose proof (rank_bound l _ _ B). unfold lane_no, N in *. nia.
Qed.

(** The elements of a buffer of the right size, in the places of c. *)
Definition placed_in {W} (d : list W) (w : W) (ix : list Z) : W := nth (Z.to_nat (rank l sh ix)) d w.
Lemma lane_block {W} (d : list W) w ix : length d = (m * N)%nat -> in_bounds sh ix ->
  lane (placed_in d w) ld n ix = sub (lane_no ix) N d.
Proof.
  intros Hd H. symmetry. destruct (lane_no_lt ix H). apply (nth_ext_sub _ _ m); [exact Hd|assumption|apply lane_length|].
  intros k Hk. rewrite lane_nth by exact Hk. unfold placed_in. rewrite lane_rank by assumption. apply nth_error_nth'. rewrite Hd. nia.
Qed.
Lemma ev_lane ix : in_bounds sh ix -> lane ev ld n ix = sub (lane_no ix) N (ct_data c).
Proof.
  intros H. rewrite <- (lane_block (ct_data c) (ev [])) by (try apply data_len; exact H). unfold lane. apply map_ext_in. intros k Hk.
  apply in_seq in Hk. unfold placed_in. erewrite nth_error_nth; [reflexivity|].
  apply data_at; try assumption. apply in_bounds_upd; [exact H|change (0 <= Z.of_nat k < n); lia].
Qed.
(** Every block is a lane. *)
Lemma block_lane q : (q < m)%nat -> (0 < N)%nat -> exists ix, in_bounds sh ix /\ lane_no ix = q.
Proof.
  intros Hq HN. destruct (index_of_rank l (others l sh) q Hl others_shape) as (jx & B & E); [rewrite <- m_val; lia|].
  destruct (with_lead_ok l sh jx Hl sh_ne B) as [B' E']; [fold ld n; unfold N in HN; lia|].
  exists (with_lead l jx). split; [exact B'|]. unfold lane_no. rewrite E'. exact E.
Qed.
Lemma block_elem q x : (q < m)%nat -> (0 < N)%nat -> In x (sub q N (ct_data c)) -> elem_of sh ev x.
Proof.
  intros Hq HN Hx. destruct (block_lane q Hq HN) as (ix & B & <-). rewrite <- ev_lane in Hx by exact B. eapply lane_elem; [exact B| |exact Hx]. reflexivity.
Qed.

Lemma with_data_array d : length d = length (ct_data c) -> array (with_data c d) sh (placed_in d (ev [])).
Proof.
  intros Hd. split; [apply good_with_data; [split; [exact Hc|split; [exact Hdoc|exact Hl]]|exact Hd]|]. split; [reflexivity|].
  intros jx H. unfold elt, with_data. cbn. rewrite offset_rank by assumption. fold l sh. pose proof (rank_bound l _ _ H) as R.
  destruct Hc as (_ & _ & _ & L & _). fold sh in L. apply rdz_ok; [lia|]. unfold placed_in. apply nth_error_nth'. lia.
Qed.

(** ** One container *)
Lemma call_over_lead (f : list V -> res (list V)) :
  (forall x, length x = N -> (forall y, In y x -> elem_of sh ev y) -> exists r, f x = Ok r /\ length r = N) ->
  exists d ev', call_over_leading_axis f c = Ok (with_data c d) /\ length d = length (ct_data c) /\
    array (with_data c d) sh ev' /\ (forall ix, in_bounds sh ix -> f (lane ev ld n ix) = Ok (lane ev' ld n ix)).
Proof.
  intros Hf. destruct secondary as (ss & Es & Hss). unfold call_over_leading_axis. rewrite n_iters_eq, Es. cbn [bind].
  assert (Triv : forall P : Prop, prod sh = 0 -> forall ix, in_bounds sh ix -> P).
  { intros P Hz ix B. pose proof (rank_bound l _ _ B). lia. }
  assert (Hsame : with_data c (ct_data c) = c) by (destruct c; reflexivity).
  destruct (Z.eqb_spec ss 0) as [E0|E0].
  { assert (Hz : prod sh = 0) by (rewrite size_lead; destruct Hss; nia). exists (ct_data c), ev. rewrite Hsame. split; [reflexivity|]. split; [reflexivity|].
    split; [split; [exact Hc|split; [reflexivity|exact He]]|]. intros ix B. exact (Triv _ Hz ix B). }
  fold m. destruct (Nat.eq_dec m 0) as [Hm|Hm].
  { assert (Hz : prod sh = 0) by (rewrite size_lead; pose proof m_val; nia). rewrite Hm. cbn [for_up bind]. exists (ct_data c), ev. rewrite Hsame.
    split; [reflexivity|]. split; [reflexivity|]. split; [split; [exact Hc|split; [reflexivity|exact He]]|]. intros ix B. exact (Triv _ Hz ix B). }
  assert (ss = n) as -> by (pose proof m_val; destruct Hss; [lia|assumption]). clear Hss.
  assert (HN : (0 < N)%nat) by (pose proof n_nonneg; unfold N; lia). assert (En : n = Z.of_nat N) by (unfold N; lia).
  destruct (lanes_loop (fun i d => on_range f (Z.of_nat i * n) n d) N m (ct_data c) (fun i r => f (sub i N (ct_data c)) = Ok r) HN data_len) as (d & E & L & Q).
  { intros i d Hi L Eb. destruct (Hf (sub i N (ct_data c))) as (r & Er & Lr).
    - apply (sub_length i N m); [apply data_len|exact Hi].
    - intros y Hy. exact (block_elem i y Hi HN Hy).
    - exists r. split; [exact Er|]. split; [exact Lr|]. rewrite En, <- Nat2Z.inj_mul. apply on_range_ok.
      + rewrite L, data_len. nia.
      + fold (sub i N d). rewrite Eb. exact Er. }
  rewrite E. cbn [bind]. exists d, (placed_in d (ev [])). split; [reflexivity|]. split; [exact L|]. split; [apply with_data_array; exact L|].
  intros ix B. rewrite ev_lane by exact B. rewrite lane_block by (try exact B; rewrite L; apply data_len). apply Q. apply lane_no_lt. exact B.
Qed.
End Lead.
