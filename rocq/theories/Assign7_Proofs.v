(** Agreement of the strategies, and counterexamples. *)
From Coq Require Import List ZArith Bool Lia.
From Verif Require Import Prelude PreludeFacts Strides_Model Strides_Spec Strides_Proofs Broadcast_Spec Layout_Model Slice_Model
  Stepper_Model Stepper_Spec Stepper_Proofs Stepper2_Proofs Stepper3_Proofs Stepper4_Proofs Container_Proofs
  Assign_Model Assign_Spec Assign_Proofs Assign2_Proofs Assign3_Proofs Assign4_Proofs Assign5_Proofs Assign6_Proofs.
Import ListNotations.
Open Scope Z_scope.

Lemma position_dec {V} (c : container) (mem : list V) p : writable c mem ->
  (exists ix, in_bounds (k_shape c) ix /\ p = position c ix) \/ (forall ix, in_bounds (k_shape c) ix -> p <> position c ix).
Proof.
  intros Hw. pose proof Hw as (Hsh & _).
  pose proof (prod_nn _ Hsh) as Hnn.
  assert (G : forall n, (Z.of_nat n <= prod (k_shape c)) ->
    (exists ix, in_bounds (k_shape c) ix /\ p = position c ix) \/
    (forall ix, in_bounds (k_shape c) ix -> row_pos (k_shape c) ix < Z.of_nat n -> p <> position c ix)).
  { induction n as [|n IH]; intros Hn.
    - right. intros ix Hb Hr. pose proof (row_pos_bound _ _ Hb). lia.
    - destruct (IH ltac:(lia)) as [H'|H']; [left; exact H'|].
      destruct (order_unpos row_major (k_shape c) (Z.of_nat n) (or_introl eq_refl) Hsh ltac:(lia)) as (ix & Hb & Hr).
      destruct (Z.eq_dec p (position c ix)) as [->|N]; [left; eauto|].
      right. intros jx Hj Hlt. destruct (Z.eq_dec (row_pos (k_shape c) jx) (Z.of_nat n)) as [E|E]; [|apply H'; [assumption|lia]].
      assert (jx = ix) as -> by (eapply (order_pos_inj row_major (k_shape c) (or_introl eq_refl)); eauto; cbn in *; congruence). assumption. }
  destruct (G (Z.to_nat (prod (k_shape c))) ltac:(lia)) as [H1|H1]; [left; assumption|].
  right. intros ix Hb. apply H1; [assumption|]. pose proof (row_pos_bound _ _ Hb). lia.
Qed.

Lemma pointwise_unique {V} (c : container) (e1 e2 : aexp V) (mem0 mem m1 m2 : list V) : writable c mem ->
  inst mem0 e1 = inst mem0 e2 ->
  pointwise c e1 mem0 mem m1 -> pointwise c e2 mem0 mem m2 -> m1 = m2.
Proof.
  intros Hw E (L1 & A1 & B1) (L2 & A2 & B2). apply rdz_ext; [congruence|]. intros p.
  destruct (position_dec c mem p Hw) as [(ix & Hb & ->)|H].
  - destruct (A1 ix Hb) as (v1 & E1 & R1). destruct (A2 ix Hb) as (v2 & E2 & R2). rewrite E in E1. congruence.
  - rewrite B1, B2 by assumption. reflexivity.
Qed.

Lemma independent_elementwise {V} (c : container) (e : aexp V) (mem : list V) : writable c mem -> independent c e -> elementwise c e.
Proof.
  intros (_ & _ & _ & Hinj) H ix mem1 mem2 Hb Hlen Hag. induction e as [v|m k [s|]|s f|f args IH] using aexp_ind'; cbn in *.
  - reflexivity.
  - reflexivity.
  - apply Hag. intros jx Hj Hne E. destruct (H ix Hb) as [H1|H1].
    + unfold position in H1 at 1. rewrite H1 in E. apply Hne. symmetry. apply Hinj; assumption.
    + apply (H1 jx Hj). exact E.
  - rewrite (H mem1 mem2). reflexivity.
  - assert (E : map (x_value ix) (map (inst mem1) args) = map (x_value ix) (map (inst mem2) args)).
    { clear f. induction IH as [|a args Ha _ IH2]; cbn in *; [reflexivity|]. destruct H as [H1 H2]. rewrite Ha by assumption. rewrite IH2 by assumption. reflexivity. }
    rewrite E. reflexivity.
Qed.

Lemma assign_lemma : forall (V : Type) (g : setup) (m : meta) (c : container) (e : aexp V) (trivial : bool) (mem : list V),
  assignable g m c e trivial mem -> elementwise c e ->
  exists mem', (forall r, assign_data g m c e trivial mem r <-> r = Ok mem') /\ pointwise c e mem mem mem'.
Proof. intros. apply assign_data_ok; assumption. Qed.

Lemma independent_lemma : forall (V : Type) (g : setup) (m : meta) (c : container) (e : aexp V) (trivial : bool) (mem : list V),
  assignable g m c e trivial mem -> independent c e ->
  exists mem', (forall r, assign_data g m c e trivial mem r <-> r = Ok mem') /\ pointwise c e mem mem mem'.
Proof. intros. apply assign_data_ok; [assumption|]. eapply independent_elementwise; [|eassumption]. destruct H as (_ & H & _). exact H. Qed.

Lemma strategies_lemma : forall (V : Type) (g : setup) (m : meta) (c : container) (e : aexp V) (trivial : bool) (mem : list V),
  assignable g m c e trivial mem -> elementwise c e ->
  exists mem', pointwise c e mem mem mem' /\
    (trivial = true -> is_linear_assign m c e = true -> forall r, outcome e (linear_plan g m c e) mem r <-> r = Ok mem') /\
    (trivial = true -> is_linear_assign m c e = true -> g_types g = true -> leaf_simd m = true -> a_simd e = true -> forall r, outcome e (simd_plan g m c e) mem r <-> r = Ok mem') /\
    (a_strided e = true -> exists ls, get_loop_sizes c e = Ok ls /\
       (ls_can ls = true -> exists phs, strided_plan g m c e ls = Ok phs /\ forall r, outcome e phs mem r <-> r = Ok mem')) /\
    (exists phs, stepper_plan g m c e = Ok phs /\ forall r, outcome e phs mem r <-> r = Ok mem').
Proof.
  intros V g m c e trivial mem (Hg & Hw & Ht & Ho & Hop & Hst & Htl & Hol & Htr) He. pose proof Hw as (Hsh & _). pose proof Hg as (_ & _ & Hdef).
  destruct (stepper_plan_ok g m c e mem Hw Hop Hdef) as (phs & Ep & Hen).
  destruct (exec_pointwise c e mem phs Hw Hop Hst He Hen) as (mem' & H1 & H2).
  assert (G : forall phs' : list phase, enumerates c e (concat (concat (concat phs'))) -> forall r, outcome e phs' mem r <-> r = Ok mem').
  { intros phs' Hen'. destruct (exec_pointwise c e mem phs' Hw Hop Hst He Hen') as (mem2 & H1' & H2').
    rewrite (pointwise_unique c e e mem mem mem' mem2 Hw eq_refl H2 H2'). exact H1'. }
  exists mem'. split; [assumption|]. split; [|split; [|split]].
  - intros T L. apply G. rewrite linear_plan_lanes. apply (linear_enumerates g m c e mem false); auto. discriminate.
  - intros T L Gt Lm Le. apply G. rewrite (simd_plan_lanes g m c e Hsh Hg). apply (linear_enumerates g m c e mem true); auto.
  - intros Hs. pose proof (operands_inst _ _ mem [] Hop) as Hop'.
    destruct (loop_sizes_ok c e mem Hw Hop' Hs) as (ls & Els & Hls). exists ls. split; [assumption|]. intros Hc.
    destruct (Hls Hc) as (osh & d & A1 & A2 & A3 & A4 & A5 & A6).
    destruct (strided_plan_ok g m c e mem ls osh d) as (phs' & E' & Hen'); auto. exists phs'. split; [assumption|]. apply G. assumption.
  - exists phs. split; [assumption|]. apply G. assumption.
Qed.

Lemma agreement_lemma : forall (V : Type) (g1 g2 : setup) (m1 m2 : meta) (c : container) (e1 e2 : aexp V) (t1 t2 : bool) (mem : list V),
  assignable g1 m1 c e1 t1 mem -> assignable g2 m2 c e2 t2 mem -> same_expression e1 e2 -> elementwise c e1 ->
  forall r, assign_data g1 m1 c e1 t1 mem r <-> assign_data g2 m2 c e2 t2 mem r.
Proof.
  intros V g1 g2 m1 m2 c e1 e2 t1 t2 mem H1 H2 Hs He r.
  assert (He2 : elementwise c e2). { intros ix a b Hb Hl Ha. rewrite <- !Hs. apply He; assumption. }
  destruct (assign_data_ok g1 m1 c e1 t1 mem H1 He) as (r1 & A1 & P1).
  destruct (assign_data_ok g2 m2 c e2 t2 mem H2 He2) as (r2 & A2 & P2).
  rewrite A1, A2. rewrite (pointwise_unique c e1 e2 mem mem r1 r2); [reflexivity| |apply Hs|assumption|assumption]. apply H1.
Qed.

(** ** Counterexamples *)

Definition off_g : setup := mk_setup true 2 0 false [] row_major.
Definition off_m : meta := mk_meta KStridedView row_major None row_major.
Definition off_c : container := mk_container [2] [1] [1] 1.
Definition off_e : aexp Z := ALeaf (mk_meta KContainer row_major None row_major) (mk_container [2] [1] [1] 0) (Some [5; 6]).

Lemma in_bounds1 n ix : in_bounds [n] ix -> exists i, ix = [i] /\ 0 <= i < n.
Proof. intros H. inversion H as [|? i ? t H1 H2]; subst. inversion H2; subst. eauto. Qed.

Lemma strided1 n s b k : (n = 1 -> s = 0) -> b = s * (n - 1) -> strided_ok (mk_container [n] [s] [b] k).
Proof.
  intros H1 H2. split; [reflexivity|]. split; [reflexivity|]. intros [|j] Hj; cbn in *; [split; assumption|lia].
Qed.

Lemma offset_refuted_lemma : exists (g : setup) (m : meta) (c : container) (e : aexp Z) (mem : list Z),
  setup_ok g (prod (k_shape c)) /\ writable c mem /\ truthful m c /\ operands_ok (k_shape c) (inst mem e) /\ storage_ok (inst mem e) /\
  leaves_ok truthful e /\ leaves_ok (fun _ k => k_shape k = k_shape c) e /\ independent c e /\
  exists mem', assign_data g m c e true mem (Ok mem') /\ ~ pointwise c e mem mem mem'.
Proof.
  exists off_g, off_m, off_c, off_e, [0; 1; 2; 3].
  assert (S1 : stored_as row_major off_c /\ stored_as row_major (mk_container [2] [1] [1] 0)).
  { split; intros ix Hb; apply in_bounds1 in Hb; destruct Hb as (i & -> & Hi); cbn; rewrite ?prod_nil; ring. }
  destruct S1 as [S1 S2].
  split. { split; [exists 1; split; [lia|reflexivity]|]. split; [vm_compute; split; discriminate|left; reflexivity]. }
  split.
  { split; [constructor; [lia|constructor]|]. split; [apply strided1; lia|]. split.
    - intros ix Hb. apply in_bounds1 in Hb. destruct Hb as (i & -> & Hi). unfold position. cbn. lia.
    - intros ix jx Hb Hj. apply in_bounds1 in Hb. apply in_bounds1 in Hj. destruct Hb as (i & -> & Hi). destruct Hj as (j & -> & Hj).
      unfold position. cbn. intros. f_equal. lia. }
  split. { split; [exact S1|]. split; [exact S1|exact I]. }
  split. { split; [apply fits_self|]. apply strided1; lia. }
  split. { cbn. intros ix Hb. apply in_bounds1 in Hb. destruct Hb as (i & -> & Hi). cbn. lia. }
  split. { split; [exact S2|]. split; [exact S2|exact I]. }
  split. { reflexivity. }
  split. { exact I. }
  exists [5; 6; 2; 3]. split.
  - unfold assign_data. replace (assign_plan off_g off_m off_c off_e true) with (Ok (simd_plan off_g off_m off_c off_e)) by reflexivity.
    eapply out_phase with (sched := []); [reflexivity|repeat constructor|].
    eapply out_phase with (sched := repeat 0%nat 4); [reflexivity|repeat constructor|].
    eapply out_phase with (sched := []); [reflexivity|repeat constructor|]. apply out_done.
  - intros (_ & H & _). destruct (H [0]) as (v & E1 & E2); [constructor; [lia|constructor]|]. vm_compute in E1, E2. congruence.
Qed.

Lemma generator_0d_lemma : exists (g : setup) (m : meta) (c : container) (e : aexp Z) (mem : list Z),
  setup_ok g (prod (k_shape c)) /\ writable c mem /\ truthful m c /\ independent c e /\
  e = AIndexed [] (fun _ _ => 7) /\ k_shape c = [] /\ assign_data g m c e true mem UB.
Proof.
  exists (mk_setup false 1 0 false [] row_major), (mk_meta KContainer row_major None row_major), (mk_container [] [] [] 0), (AIndexed [] (fun _ _ => 7)), [0].
  split. { split; [exists 0; split; [lia|reflexivity]|]. split; [vm_compute; split; discriminate|left; reflexivity]. }
  split. { split; [constructor|]. split; [split; [reflexivity|split; [reflexivity|intros j Hj; cbn in Hj; lia]]|]. split.
    - intros ix Hb. inversion Hb; subst. unfold position. cbn. lia.
    - intros ix jx Hb Hj _. inversion Hb; inversion Hj; subst. reflexivity. }
  split. { split; [|split; [|exact I]]; intros ix Hb; inversion Hb; subst; reflexivity. }
  split. { intros ? ? ?. reflexivity. }
  split; [reflexivity|]. split; [reflexivity|]. reflexivity.
Qed.
