(** Proofs about sorting: filling an array of indices lane by lane. *)
From Coq Require Import List ZArith Bool Lia Permutation.
From Verif Require Import Prelude PreludeFacts Strides_Model Strides_Spec Strides_Proofs Access_Model Container_Model Container_Spec Container_Proofs
  Semantic_Spec SView_Model SView_Spec Manip_Model Manip_Spec Manip_Proofs
  Reduce3_Proofs Reduce13_Proofs Accum_Spec Accum2_Proofs Accum3_Proofs Sort_Model Sort_Spec Sort_Proofs Sort2_Proofs Sort3_Proofs.
Import ListNotations.
Open Scope Z_scope.

Lemma lane_no_same {V W} (e1 : cont W) (e2 : cont V) ix : ct_shape e1 = ct_shape e2 -> ct_layout e1 = ct_layout e2 -> lane_no e1 ix = lane_no e2 ix.
Proof. intros E1 E2. unfold lane_no. rewrite E1, E2. reflexivity. Qed.

Lemma call_over_lead2 {V : Type} (f : list V -> list Z -> res (list Z)) (Q : list V -> list Z -> Prop) (e1 : cont Z) (e2 : cont V) (ev : list Z -> V) :
  good e1 -> good e2 -> ct_shape e1 = ct_shape e2 -> ct_layout e1 = ct_layout e2 -> (2 <= length (ct_shape e2))%nat ->
  (forall jx, in_bounds (ct_shape e2) jx -> elt e2 jx = Ok (ev jx)) ->
  let sh := ct_shape e2 in let ld := lead (ct_layout e2) (length sh) in let n := nth ld sh 0 in
  (forall src r, length r = Z.to_nat n -> (Z.to_nat n <= length src)%nat -> (forall y, In y (firstn (Z.to_nat n) src) -> elem_of sh ev y) ->
     exists r', f src r = Ok r' /\ length r' = Z.to_nat n /\ Q (firstn (Z.to_nat n) src) r') ->
  exists d ev', call_over_leading_axis2 f e1 e2 = Ok (with_data e1 d) /\ length d = length (ct_data e1) /\
    array (with_data e1 d) sh ev' /\ (forall ix, in_bounds sh ix -> Q (lane ev ld n ix) (lane ev' ld n ix)).
Proof.
  intros (C1 & D1 & O1) (C2 & D2 & O2) Es El Hdim He sh ld n Hf.
  assert (Hdim1 : (2 <= length (ct_shape e1))%nat) by (rewrite Es; exact Hdim).
  destruct (secondary e1 C1 D1 O1 Hdim1) as (s1 & E1 & H1). destruct (secondary e2 C2 D2 O2 Hdim) as (s2 & E2 & H2).
  pose proof (data_len e1 C1 O1 Hdim1) as L1. pose proof (data_len e2 C2 O2 Hdim) as L2.
  pose proof (m_val e2 C2 Hdim) as Hm. pose proof (n_nonneg e2 C2 Hdim) as Hn.
  pose proof (size_lead e2 O2 Hdim) as Hsz.
  unfold call_over_leading_axis2. rewrite (n_iters_eq e1 O1 Hdim1), E1, E2. cbn [bind].
  rewrite Es, El in H1, L1 |- *. fold sh in H1, H2, L1, L2, Hm, Hn, Hsz |- *. fold ld in H1, H2, L1, L2, Hn, Hsz |- *. fold n in H1, H2, L1, L2, Hn, Hsz |- *. set (m := Z.to_nat (prod (others (ct_layout e2) sh))) in *. set (N := Z.to_nat n) in *.
  assert (Triv : forall P : Prop, prod sh = 0 -> forall ix, in_bounds sh ix -> P).
  { intros P Hz ix B. pose proof (rank_bound (ct_layout e2) _ _ B). lia. }
  assert (Hsame : with_data e1 (ct_data e1) = e1) by (destruct e1; reflexivity).
  assert (Hempty : prod sh = 0 -> exists d ev', Ok e1 = Ok (with_data e1 d) /\ length d = length (ct_data e1) /\
    array (with_data e1 d) sh ev' /\ (forall ix, in_bounds sh ix -> Q (lane ev ld n ix) (lane ev' ld n ix))).
  { intros Hz. exists (ct_data e1), (fun _ => 0). rewrite Hsame. split; [reflexivity|]. split; [reflexivity|].
    split; [split; [exact C1|split; [exact Es|]]|]; intros ix B; exact (Triv _ Hz ix B). }
  destruct (Z.eq_dec (prod sh) 0) as [Hz|Hz].
  { destruct ((s1 =? 0) || (s2 =? 0)) eqn:Ez; [exact (Hempty Hz)|].
    apply orb_false_iff in Ez. destruct Ez as [Z1 Z2]. apply Z.eqb_neq in Z1, Z2.
    assert (Hm0 : m = 0%nat) by nia. rewrite Hm0. cbn [for_up bind]. rewrite Hsame. exact (Hempty Hz). }
  assert (Hp : prod (others (ct_layout e2) sh) <> 0) by nia.
  destruct H1 as [H1|H1]; [contradiction|]. destruct H2 as [H2|H2]; [contradiction|]. subst s1 s2.
  assert (HN : (0 < N)%nat) by (unfold N; nia). rewrite (proj2 (Z.eqb_neq n 0)) by (unfold N in HN; lia). cbn [orb].
  assert (En : n = Z.of_nat N) by (unfold N; lia).
  destruct (lanes_loop (fun i d => let p2 := Z.of_nat i * n in
      if (0 <=? p2) && (p2 <=? Z.of_nat (length (ct_data e2))) then on_range (f (skipn (Z.to_nat p2) (ct_data e2))) (Z.of_nat i * n) n d else UB)
      N m (ct_data e1) (fun i r => Q (sub i N (ct_data e2)) r) HN L1) as (d & E & L & HQ).
  { intros i d Hi Ld Eb. assert (Hpos : (i * N + N <= m * N)%nat) by nia.
    destruct (Hf (skipn (i * N) (ct_data e2)) (sub i N d)) as (r & Er & Lr & Qr).
    - apply (sub_length i N m); [lia|exact Hi].
    - rewrite skipn_length, L2. fold N. lia.
    - fold N. fold (sub i N (ct_data e2)). intros y Hy. exact (block_elem e2 ev C2 O2 He Hdim i y Hi HN Hy).
    - exists r. split; [exact Qr|]. split; [exact Lr|]. cbv zeta. rewrite En, <- Nat2Z.inj_mul.
      rewrite !(proj2 (Z.leb_le _ _)) by lia. cbn [andb]. rewrite Nat2Z.id. apply on_range_ok; [lia|exact Er]. }
  cbv zeta in E. rewrite E. cbn [bind]. exists d, (placed_in e1 d 0). split; [reflexivity|]. split; [exact L|]. split.
  { pose proof (with_data_array e1 (fun _ => 0) C1 D1) as X. rewrite El, Es in X. exact (X O2 Hdim d L). }
  intros ix B. pose proof (ev_lane e2 ev C2 O2 He Hdim ix B) as X. fold sh ld n N in X. rewrite X. clear X.
  pose proof (lane_block e1 C1) as X. rewrite El, Es in X. fold sh ld n N in X.
  specialize (X O2 Hdim Z d 0 ix ltac:(lia) B). rewrite X. rewrite (lane_no_same e1 e2) by assumption.
  apply HQ. apply (lane_no_lt e2 C2 O2 Hdim). exact B.
Qed.

Section Arg.
Context {V : Type} (SL DL : layout) (fresh : list V -> Z -> list V) (fresh_i : list Z -> Z -> list Z) (n0 : nat) (v0 : V).
Hypothesis Hfresh : resizes fresh.
Hypothesis Hfreshi : resizes fresh_i.
Hypothesis HDL : is_order DL.

Lemma from_shape_ok l sh : is_order l -> (SL = l \/ (SL = dynamic /\ DL = l)) -> is_shape sh ->
  exists r, from_shape SL DL fresh_i n0 sh = Ok r /\ good r /\ ct_shape r = sh /\ ct_layout r = l.
Proof.
  intros Hl Hlay Hs. unfold from_shape.
  destruct (resize_layout_ok (V := Z) SL DL fresh_i Hfreshi (c_default SL n0 0) sh SL Hs) as [(_ & X & _)|(_ & r & E & C & L & S & Elay)]; [congruence|].
  assert (Er : ct_layout r = l).
  { rewrite Elay. destruct Hlay as [ -> |( -> & -> )]; [|reflexivity]. destruct Hl as [ -> | -> ]; reflexivity. }
  exists r. split; [exact E|]. split; [|split; [exact S|exact Er]]. split; [exact C|]. split; [|rewrite Er; exact Hl].
  unfold c_resize_layout in E. destruct (negb (layout_eqb SL dynamic) && negb (layout_eqb SL SL)) eqn:Eb; [discriminate|].
  apply resize_doc in E; [exact (proj1 E)|intros _; reflexivity|discriminate].
Qed.

Context (c : cont V) (ev : list Z -> V) (axis : Z).
Hypothesis Hc : consistent c.
Hypothesis Hdoc : documented c.
Hypothesis Hl : is_order (ct_layout c).
Hypothesis Hlay : SL = ct_layout c \/ (SL = dynamic /\ DL = ct_layout c /\ n0 = 0%nat).
Hypothesis He : forall jx, in_bounds (ct_shape c) jx -> elt c jx = Ok (ev jx).
Hypothesis Hdim : (2 <= length (ct_shape c))%nat.
Hypothesis Hsmall : Z.of_nat (length (ct_shape c)) < 2 ^ 63.
Hypothesis Haxis : valid_axis (length (ct_shape c)) axis.
Let l := ct_layout c.
Let sh := ct_shape c.
Let dim := length sh.
Let ax := the_axis dim axis.
Let n := nth ax sh 0.

Lemma arg_map_axis_ok (f : list V -> list Z -> res (list Z)) (Q : list V -> list Z -> Prop) :
  (forall src r, length r = Z.to_nat n -> (Z.to_nat n <= length src)%nat -> (forall y, In y (firstn (Z.to_nat n) src) -> elem_of sh ev y) ->
     exists r', f src r = Ok r' /\ length r' = Z.to_nat n /\ Q (firstn (Z.to_nat n) src) r') ->
  exists r ev', arg_map_axis SL DL fresh fresh_i n0 v0 f c axis = Ok r /\ ct_layout r = l /\ array r sh ev' /\
    forall ix, in_bounds sh ix -> Q (lane ev ax n ix) (lane ev' ax n ix).
Proof.
  intros Hf. destruct (norm_axis_eq dim axis) as [Eax Hax]; [unfold dim, sh; lia|exact Hsmall|exact Haxis|].
  assert (Hlay' : SL = ct_layout c \/ (SL = dynamic /\ DL = ct_layout c)) by tauto.
  unfold arg_map_axis. fold sh dim.
  rewrite Eax, (leading_axis_eq c Hl) by (fold sh; fold dim; try exact Hsmall; unfold dim, sh; lia). cbn [bind]. fold l sh dim ax.
  destruct (Z.eqb_spec (Z.of_nat ax) (Z.of_nat (lead l dim))) as [Ea|Ea].
  - apply Nat2Z.inj in Ea. destruct (from_shape_ok l sh Hl Hlay' (proj1 Hc)) as (r & Er & G & Sr & Lr). rewrite Er. cbn [bind].
    destruct (call_over_lead2 f Q r c ev G (conj Hc (conj Hdoc Hl)) Sr Lr Hdim He) as (d & ev' & E & Ld & A & M).
    { fold l sh dim. rewrite <- Ea. exact Hf. }
    fold l sh dim in A, M. rewrite <- Ea in M. exists (with_data r d), ev'. split; [exact E|]. split; [exact Lr|]. split; [exact A|exact M].
  - fold dim in Hax. fold ax in Hax. rewrite get_permutations_eq by assumption. cbn [bind].
    set (p := lead_perm dim ax l). pose proof (lead_perm_ok dim ax l Hax) as Hp. fold p in Hp.
    pose proof (lead_perm_nth dim ax l Hl Hax) as Hpn. fold p in Hpn.
    assert (Hne : sh <> []) by (intros E; unfold sh in E; rewrite E in Hdim; cbn in Hdim; lia).
    destruct (transposed_ok SL DL fresh n0 v0 l Hfresh Hl Hlay HDL c ev p) as (c1 & ev1 & Et & G1 & L1 & A1 & M1); [split; [exact Hc|split; [reflexivity|exact He]]|exact Hp|exact Hne|].
    fold sh in A1, M1. rewrite Et. cbn [bind]. clear Et.
    pose proof A1 as (Hc1 & Hs1 & He1).
    assert (Ldim : length (permute p sh) = dim) by (rewrite permute_length; apply Hp).
    assert (Hld : (lead l dim < dim)%nat) by (unfold lead; destruct l; lia).
    assert (Hn1 : nth (lead l dim) (permute p sh) 0 = n).
    { rewrite permute_nth by (destruct Hp as (Lp & _); lia). rewrite Hpn. reflexivity. }
    rewrite Hs1. destruct (from_shape_ok l (permute p sh) Hl Hlay') as (r & Er & G & Sr & Lr).
    { rewrite <- Hs1. apply Hc1. }
    rewrite Er. cbn [bind].
    destruct (call_over_lead2 f Q r c1 ev1 G G1) as (d & ev2 & E & Ld & A2 & M2).
    { rewrite Hs1. exact Sr. }
    { rewrite L1. exact Lr. }
    { rewrite Hs1, Ldim. unfold dim, sh. exact Hdim. }
    { rewrite Hs1. exact He1. }
    { rewrite L1, Hs1, Ldim, Hn1. intros src r0 H0 H1 H2. apply Hf; [exact H0|exact H1|].
      intros y Hy. apply (elem_of_permute sh p ev ev1); [exact Hp|exact M1|]. apply H2. exact Hy. }
    rewrite E. cbn [bind]. rewrite L1, Hs1, Ldim, Hn1 in M2. rewrite Hs1 in A2.
    pose proof (inv_perm dim p Hp) as Hip.
    destruct (transposed_ok SL DL fresh_i n0 0 l Hfreshi Hl Hlay HDL (with_data r d) ev2 (inv p)) as (c3 & ev3 & Et & G3 & L3 & A3 & M3).
    { cbn [with_data ct_shape]. rewrite Sr. exact A2. }
    { cbn [with_data ct_shape]. rewrite Sr, Ldim. exact Hip. }
    { cbn [with_data ct_shape]. rewrite Sr. intros X. rewrite X in Ldim. cbn in Ldim. unfold dim, sh in Ldim. lia. }
    cbn [with_data ct_shape] in A3, M3. rewrite Sr in A3, M3. rewrite (inv_l dim p Hp) in A3 by reflexivity.
    exists c3, ev3. split; [exact Et|]. split; [exact L3|]. split; [exact A3|].
    intros ix B. pose proof (in_bounds_length _ _ B) as Lix. fold dim in Lix.
    assert (Bp : forall k, (k < Z.to_nat n)%nat -> in_bounds sh (upd ix ax (Z.of_nat k))) by (intros k Hk; apply in_bounds_upd; [exact B|fold n; lia]).
    assert (B1 : in_bounds (permute p sh) (permute p ix)) by (apply in_bounds_permute; [destruct Hp as (_ & _ & F); exact F|exact B]).
    assert (Ep : forall k, permute p (upd ix ax k) = upd (permute p ix) (lead l dim) k).
    { intros k. rewrite <- Hpn at 1. apply (permute_upd dim p Hp); [exact Lix|exact Hld]. }
    specialize (M2 _ B1).
    replace (lane ev1 (lead l dim) n (permute p ix)) with (lane ev ax n ix) in M2.
    2:{ unfold lane. apply map_ext_in. intros k Hk. apply in_seq in Hk. rewrite <- Ep. rewrite M1 by (apply Bp; lia). reflexivity. }
    replace (lane ev2 (lead l dim) n (permute p ix)) with (lane ev3 ax n ix) in M2; [exact M2|].
    unfold lane. apply map_ext_in. intros k Hk. apply in_seq in Hk. rewrite <- Ep.
    rewrite <- M3 by (apply in_bounds_permute; [destruct Hp as (_ & _ & F); exact F|apply Bp; lia]).
    rewrite (inv_l dim p Hp) by (rewrite upd_length; exact Lix). reflexivity.
Qed.
End Arg.
