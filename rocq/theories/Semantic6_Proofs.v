(** Proofs about the assignment operators: noalias on views, and the situations in
    which the operators go wrong. *)
From Coq Require Import List ZArith Bool Lia.
From Verif Require Import Prelude PreludeFacts Strides_Model Strides_Spec Strides_Proofs Broadcast_Model Broadcast_Spec
  Broadcast_Proofs Broadcast2_Proofs Layout_Model Slice_Model Access_Model
  Stepper_Model Stepper_Spec Stepper_Proofs Stepper3_Proofs Stepper4_Proofs Container_Model Container_Spec Container_Proofs
  Assign_Model Assign_Spec Assign_Proofs Assign2_Proofs Assign6_Proofs Assign7_Proofs Semantic_Model Semantic_Spec Semantic_Proofs
  Semantic2_Proofs Semantic3_Proofs Semantic4_Proofs Semantic5_Proofs.
Import ListNotations.
Open Scope Z_scope.

Lemma noalias_view_ok {V} g m (c : container) (e : aexp V) (mem : list V) : setups_ok g ->
  writable c mem -> truthful m c -> (forall n, simd_offset_ok (g n) m c) -> valid_operands g mem e -> independent c e ->
  broadcast_of (operand_shapes e) (k_shape c) ->
  exists mem', (forall r, v_assign_xexpression g m c e mem r <-> r = Done mem') /\ pointwise c e mem mem mem'.
Proof.
  intros Hg Hw Htr Hof Hv Hi Hbc. assert (Hf : fits_view e c) by (intros s Hin; eapply broadcast_fits; eassumption). pose proof (valid_real _ _ _ Hv) as Hreal. pose proof Hw as (Hs & _).
  pose proof (fits_compatible _ _ Hf) as Hcomp. pose proof Hv as (V1 & V2 & V3 & V4 & V5).
  destruct (proj1 (rhs_shape_ok e Hreal) Hcomp) as (sh & t & E & Hb & Ht).
  pose proof (fits_broadcast _ _ _ Hb Hf) as Hfs.
  assert (HA : assignable (g (compute_size (k_shape c))) m c e t mem).
  { split; [rewrite compute_size_prod; apply Hg; apply prod_nn; exact Hs|]. split; [exact Hw|]. split; [exact Htr|]. split; [apply Hof|].
    split; [apply operands_fit; assumption|]. split; [exact V2|]. split; [exact V3|]. split; [apply V4|]. intros Htt.
    assert (sh = k_shape c) by (eapply broadcast_of_unique; eauto; tauto). subst sh. apply (leaves_shapes e (fun s => s = k_shape c)). auto. }
  destruct (assign_data_ok (g (compute_size (k_shape c))) m c e t mem HA) as (mem' & Hiff & Hpw).
  { eapply independent_elementwise; eauto. }
  exists mem'. split; [|exact Hpw]. intros r. unfold v_assign_xexpression. rewrite E, fits_broadcastable by assumption.
  unfold v_assign_data. split.
  - intros (d & Hdd & ->). apply Hiff in Hdd. subst d. reflexivity.
  - intros ->. exists (Ok mem'). split; [apply Hiff; reflexivity|reflexivity].
Qed.

(** ** Wrong results *)
Definition g0 : Z -> setup := fun _ => mk_setup false 1 0 false [] row_major.
Lemma g0_ok : setups_ok g0.
Proof. intros n Hn. split; [exists 0; split; [lia|reflexivity]|]. split; [cbn; lia|left; reflexivity]. Qed.
Definition rs0 (d : list Z) (n : Z) : list Z := firstn (Z.to_nat n) d ++ repeat 0 (Z.to_nat n - length d).
Lemma rs0_ok : resizes rs0.
Proof. intros d n Hn. unfold rs0. rewrite app_length, repeat_length, firstn_length. lia. Qed.

(** A row-major 1-D container. *)
Definition vec (d : list Z) : cont Z :=
  let n := Z.of_nat (length d) in
  mk_cont [n] [if n =? 1 then 0 else 1] [(if n =? 1 then 0 else 1) * (n - 1)] row_major d.
Lemma vec_wf d : well_formed row_major None (vec d).
Proof.
  set (n := Z.of_nat (length d)). split; [constructor; [cbn; lia|constructor]|]. split.
  { cbn. fold n. apply strided1; [intros ->; reflexivity|reflexivity]. }
  split; [cbn; rewrite prod_cons, prod_nil; lia|]. split; [discriminate|]. split; [discriminate|]. split; [reflexivity|]. split; [exact I|].
  exists row_major. split; [left; reflexivity|]. split; [reflexivity|]. cbn. fold n. intros ix Hb.
  apply in_bounds1 in Hb. destruct Hb as (i & -> & Hi). cbn. rewrite prod_nil. destruct (n =? 1) eqn:E; [apply Z.eqb_eq in E|]; lia.
Qed.

Definition vm : meta := mk_meta KContainer row_major None row_major.

(** noalias(a) += e with a of shape (1) and e of shape (0). *)
Definition add2 (l : list Z) : Z := fold_right Z.add 0 l.
Definition e_empty : aexp Z := ALeaf vm (mk_container [0] [1] [-1] 0) (Some []).
Lemma in_bounds0 ix : ~ in_bounds [0] ix.
Proof. intros H. apply in_bounds1 in H. destruct H as (i & _ & Hi). lia. Qed.
Lemma e_empty_valid mem : valid_operands g0 mem e_empty.
Proof.
  split; [split; [constructor; [lia|constructor]|apply strided1; lia]|]. split; [intros ix H; destruct (in_bounds0 _ H)|].
  split; [split; [|split; [|exact I]]; intros ix H; destruct (in_bounds0 _ H)|]. split; [intros n _ H; discriminate H|exact I].
Qed.
Lemma vanishing_lemma : exists (g : Z -> setup) (rs : list Z -> Z -> list Z) (a : cont Z) (e : aexp Z),
  setups_ok g /\ resizes rs /\ well_formed row_major None a /\ real_shape (ct_shape a) /\ valid_operands g (ct_data a) e /\
  independent (c_strided a) e /\ compatible (ct_shape a :: operand_shapes e) /\
  c_noalias_compound g row_major None row_major rs 0 a add2 e Undefined.
Proof.
  exists g0, rs0, (vec [7]), e_empty. split; [apply g0_ok|]. split; [apply rs0_ok|]. split; [apply vec_wf|].
  split; [constructor; [cbn; lia|constructor]|]. split; [apply e_empty_valid|]. split; [exact I|]. split.
  - intros s t k [<-|[<-|[]]] [<-|[<-|[]]]; destruct k as [|[|k]]; cbn; auto.
  - exists UB. split; [|reflexivity]. eapply out_ub with (sched := [0;0]%nat). vm_compute. reflexivity.
Qed.

(** a += a(0): the scalar changes while it is added. *)
Lemma scalar_element_lemma : exists (a : cont Z) (q x : Z) (a' : cont Z), well_formed row_major None a /\ rdz (ct_data a) q = Ok x /\
  c_scalar_compound row_major a Z.add (SElement q) = Done a' /\
  exists ix y, in_bounds (ct_shape a) ix /\ elt a ix = Ok y /\ elt a' ix <> Ok (y + x).
Proof.
  exists (vec [1; 10]), 0, 1, (vec [2; 12]). split; [apply vec_wf|]. split; [reflexivity|]. split; [reflexivity|].
  exists [1], 10. split; [repeat constructor; cbn; lia|]. split; [reflexivity|]. vm_compute. discriminate.
Qed.

(** a = generator reading a. *)
Definition e_reader : aexp Z := AIndexed [2] (fun mem ix => nth (Z.to_nat (1 - hd 0 ix)) mem 0).
Lemma generator_alias_lemma : exists (g : Z -> setup) (rs : list Z -> Z -> list Z) (a a' : cont Z) (e : aexp Z),
  setups_ok g /\ resizes rs /\ well_formed row_major None a /\
  (exists s f, e = AIndexed s f /\ s <> [] /\ real_shape s) /\
  c_operator_assign g row_major None row_major rs 0 a e (Done a') /\ ~ holds_value (ct_data a) e a'.
Proof.
  exists g0, rs0, (vec [5; 6]), (vec [6; 6]), e_reader. split; [apply g0_ok|]. split; [apply rs0_ok|]. split; [apply vec_wf|].
  split. { eexists. eexists. split; [reflexivity|]. split; [discriminate|]. constructor; [lia|constructor]. }
  split.
  - exists (Ok [6; 6]). split; [|reflexivity]. eapply out_phase with (sched := repeat 0%nat 4); [vm_compute; reflexivity|repeat constructor|]. apply out_done.
  - intros [_ H]. destruct (H [1]) as (x & X1 & X2); [constructor; [cbn; lia|constructor]|]. vm_compute in X1, X2. congruence.
Qed.

(** noalias(view) = e with e of shape (1) and a contiguous view of shape (3). *)
Definition one_m : meta := mk_meta KContainer row_major (Some 1%nat) row_major.
Definition view_m : meta := mk_meta KView row_major (Some 1%nat) row_major.
Definition e_one : aexp Z := ALeaf one_m (mk_container [1] [0] [0] 0) (Some [7]).
Definition v3 : container := mk_container [3] [1] [2] 0.
Lemma stored1 n s b k l : (n = 1 \/ s = 1) -> l <> any -> stored_as l (mk_container [n] [s] [b] k).
Proof.
  intros H Hl ix Hb. apply in_bounds1 in Hb. destruct Hb as (i & -> & Hi). assert (E : s * i = i) by (destruct H; [replace i with 0 by lia; lia|subst; lia]). destruct l; [exact I|congruence| |]; cbn; rewrite ?prod_nil; lia.
Qed.
Lemma v3_writable : writable v3 [0; 0; 0].
Proof.
  split; [constructor; [lia|constructor]|]. split; [apply strided1; lia|]. split.
  - intros ix Hb. apply in_bounds1 in Hb. destruct Hb as (i & -> & Hi). unfold position. cbn. lia.
  - intros ix jx H1 H2. apply in_bounds1 in H1. apply in_bounds1 in H2. destruct H1 as (i & -> & Hi), H2 as (j & -> & Hj).
    unfold position. cbn. intros. f_equal. lia.
Qed.
Lemma noalias_small_lemma : exists (g : Z -> setup) (m : meta) (c : container) (e : aexp Z) (mem : list Z),
  setups_ok g /\ writable c mem /\ truthful m c /\ (forall n, simd_offset_ok (g n) m c) /\ valid_operands g mem e /\ fits_view e c /\ independent c e /\
  v_assign_xexpression g m c e mem Undefined.
Proof.
  exists g0, view_m, v3, e_one, [0; 0; 0]. split; [apply g0_ok|]. split; [apply v3_writable|].
  split; [split; [|split]; [apply stored1; [auto|discriminate]|apply stored1; [auto|discriminate]|reflexivity]|].
  split; [intros n H; discriminate H|].
  split.
  { split; [split; [constructor; [lia|constructor]|apply strided1; lia]|].
    split; [intros ix Hb; apply in_bounds1 in Hb; destruct Hb as (i & -> & Hi); cbn; lia|].
    split; [split; [|split]; [apply stored1; [auto|discriminate]|apply stored1; [auto|discriminate]|reflexivity]|].
    split; [intros n H; discriminate H|exact I]. }
  split. { intros s [<-|[]]. split; [cbn; lia|]. intros k. left. destruct k as [|[|k]]; reflexivity. }
  split; [exact I|].
  exists UB. split; [|reflexivity]. eapply out_ub with (sched := repeat 0%nat 5). vm_compute. reflexivity.
Qed.

(** Strides of different signs: the addresses of the first and the last element do
    not enclose the view. *)
Definition vflip : container := mk_container [2; 2] [2; -1] [2; -1] 1.
Definition flip_m : meta := mk_meta KView dynamic None dynamic.
Definition e_corner : aexp Z := AFun (fun l => 2 * add2 l) [ALeaf flip_m (mk_container [1; 1] [0; 0] [0; 0] 0) None].
Lemma in_bounds2 n p ix : in_bounds [n; p] ix -> exists i j, ix = [i; j] /\ 0 <= i < n /\ 0 <= j < p.
Proof. intros H. inversion H as [|? i ? t H1 H2]; subst. inversion H2 as [|? j ? t' H3 H4]; subst. inversion H4; subst. eauto 10. Qed.
Lemma mixed_lemma : exists (g : Z -> setup) (rs : list Z -> Z -> list Z) (m : meta) (c : container) (e : aexp Z) (mem mem' : list Z),
  setups_ok g /\ resizes rs /\ writable c mem /\ truthful m c /\ (forall n, simd_offset_ok (g n) m c) /\ valid_operands g mem e /\ fits_view e c /\
  v_operator_assign g row_major None row_major row_major rs 0 false m c e mem (Done mem') /\ ~ pointwise c e mem mem mem'.
Proof.
  exists g0, rs0, flip_m, vflip, e_corner, [1; 0; 0; 0], [2; 2; 4; 4]. split; [apply g0_ok|]. split; [apply rs0_ok|].
  split.
  { split; [repeat (constructor; [lia|]); constructor|].
    split; [split; [reflexivity|split; [reflexivity|]]; intros [|[|j]] Hj; cbn in *; lia|]. split.
    - intros ix Hb. apply in_bounds2 in Hb. destruct Hb as (i & j & -> & Hi & Hj). unfold position. cbn. lia.
    - intros ix jx H1 H2. apply in_bounds2 in H1. apply in_bounds2 in H2. destruct H1 as (i & j & -> & Hi & Hj), H2 as (k & l & -> & Hk & Hl).
      unfold position. cbn. intros. f_equal; [lia|]. f_equal. lia. }
  split; [split; [|split]; [intros ix _; exact I|intros ix _; exact I|exact I]|].
  split; [intros n H; discriminate H|].
  split.
  { split; [cbn; split; [split; [repeat (constructor; [lia|]); constructor|]|exact I]|].
    { split; [reflexivity|split; [reflexivity|]]; intros [|[|j]] Hj; cbn in *; lia. }
    split; [cbn; split; [|exact I]; intros ix Hb; apply in_bounds2 in Hb; destruct Hb as (i & j & -> & Hi & Hj); cbn; lia|].
    split; [cbn; split; [split; [|split]; [intros ix _; exact I|intros ix _; exact I|exact I]|exact I]|].
    split; [intros n; cbn; split; [intros H; discriminate H|exact I]|cbn; auto]. }
  split. { intros s [<-|[]]. split; [cbn; lia|]. intros k. left. destruct k as [|[|[|k]]]; reflexivity. }
  split.
  - exists (Ok [2; 2; 4; 4]). split; [|reflexivity]. eapply out_phase with (sched := repeat 0%nat 8); [vm_compute; reflexivity|repeat constructor|]. apply out_done.
  - intros (_ & H & _). destruct (H [1; 1]) as (x & X1 & X2); [repeat (constructor; [cbn; lia|]); constructor|]. vm_compute in X1, X2. congruence.
Qed.

(** A view of shape (1) assigned an overlapping expression of shape (3). *)
Definition e_all : aexp Z := AFun add2 [ALeaf one_m v3 None].
Lemma enlarge_lemma : exists (g : Z -> setup) (rs : list Z -> Z -> list Z) (m : meta) (c : container) (e : aexp Z) (mem : list Z),
  setups_ok g /\ resizes rs /\ writable c mem /\ truthful m c /\ (forall n, simd_offset_ok (g n) m c) /\ valid_operands g mem e /\
  one_direction c /\ own_leaves one_direction e /\ ~ fits_view e c /\
  v_operator_assign g row_major None row_major row_major rs 0 false m c e mem Undefined.
Proof.
  exists g0, rs0, view_m, (mk_container [1] [0] [0] 0), e_all, [5; 6; 7]. split; [apply g0_ok|]. split; [apply rs0_ok|].
  split.
  { split; [constructor; [lia|constructor]|]. split; [apply strided1; lia|]. split.
    - intros ix Hb. apply in_bounds1 in Hb. destruct Hb as (i & -> & Hi). unfold position. cbn. lia.
    - intros ix jx H1 H2. apply in_bounds1 in H1. apply in_bounds1 in H2. destruct H1 as (i & -> & Hi), H2 as (j & -> & Hj).
      intros _. f_equal. lia. }
  split; [split; [|split]; [apply stored1; [auto|discriminate]|apply stored1; [auto|discriminate]|reflexivity]|].
  split; [intros n H; discriminate H|].
  split.
  { split; [cbn; split; [split; [constructor; [lia|constructor]|apply strided1; lia]|exact I]|].
    split; [cbn; split; [|exact I]; intros ix Hb; apply in_bounds1 in Hb; destruct Hb as (i & -> & Hi); cbn; lia|].
    split; [cbn; split; [split; [|split]; [apply stored1; [auto|discriminate]|apply stored1; [auto|discriminate]|reflexivity]|exact I]|].
    split; [intros n; cbn; split; [intros H; discriminate H|exact I]|cbn; auto]. }
  split; [left; constructor; [lia|constructor]|]. split; [cbn; split; [left; constructor; [lia|constructor]|exact I]|].
  split. { intros H. destruct (H [3]) as [_ H2]; [left; reflexivity|]. specialize (H2 0%nat). cbn in H2. lia. }
  exists (Done (vec [5; 6; 7])). split; [|reflexivity].
  exists (Done [5; 6; 7]). split; [|reflexivity]. exists (Ok [5; 6; 7]). split; [|reflexivity].
  eapply out_phase with (sched := repeat 0%nat 6); [vm_compute; reflexivity|repeat constructor|]. apply out_done.
Qed.

(** view += e *)
Lemma view_compound_ok {V} g TL TD DL DT rs (v : V) sv m (c : container) f (e : aexp V) (mem : list V) :
  setups_ok g -> is_order DL -> is_order DT -> resizes rs -> TL <> any ->
  writable c mem -> truthful m c -> (forall n, simd_offset_ok (g n) m c) -> one_direction c ->
  match TD with Some n => length (k_shape c) = n | None => True end -> real_shape (k_shape c) ->
  valid_operands g mem e -> own_leaves one_direction e -> fits_view e c ->
  exists mem', (forall r, v_operator_assign g TL TD DL DT rs v sv m c (AFun f [ALeaf m c None; e]) mem r <-> r = Done mem') /\
    pointwise c (AFun f [ALeaf m c None; e]) mem mem mem'.
Proof.
  intros Hg HDL HDT Hrs HTL Hw Htr Hof Hd HTD Hrc (V1 & V2 & V3 & V4 & V5) Ho Hf. pose proof Hw as (_ & Hst & Hpos & _).
  apply view_assign_ok; auto.
  - split; [cbn; auto|]. split; [cbn; split; [exact Hpos|split; [exact V2|exact I]]|]. split; [cbn; auto|]. split; [intros n; cbn; auto|cbn; auto].
  - cbn. auto.
  - intros s. unfold operand_shapes. cbn. rewrite app_nil_r. intros [<-|Hin]; [apply fits_self|]. apply Hf. exact Hin.
Qed.
