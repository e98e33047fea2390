(** Properties C14 and C15: assignment. *)
From Coq Require Import List ZArith Lia.
From Verif Require Import Prelude Strides_Model Strides_Spec Broadcast_Spec Layout_Model Stepper_Model Stepper_Spec
  Stepper4_Proofs Assign_Model Assign_Spec Assign7_Proofs.
Import ListNotations.
Open Scope Z_scope.

(** C14. Whatever loop is chosen and however its threads are scheduled, the
    assignment ends, and ends in one way: element ix of the destination is the
    value of the expression at ix, everything else in the memory is unchanged.
    Missing: SIMD assignment to or from an offset xstrided_view with a static
    layout, and 0-dimensional generators, see the refutations. *)
Theorem C14_assignment_pointwise_partial :
  forall (V : Type) (g : setup) (m : meta) (c : container) (e : aexp V) (trivial : bool) (mem : list V),
  assignable g m c e trivial mem -> elementwise c e ->
  exists mem', (forall r, assign_data g m c e trivial mem r <-> r = Ok mem') /\ pointwise c e mem mem mem'.
Proof. exact assign_lemma. Qed.
Print Assumptions C14_assignment_pointwise_partial.

(** The same with the condition on the right-hand side spelled out. *)
Theorem C14_independent_operands_partial :
  forall (V : Type) (g : setup) (m : meta) (c : container) (e : aexp V) (trivial : bool) (mem : list V),
  assignable g m c e trivial mem -> independent c e ->
  exists mem', (forall r, assign_data g m c e trivial mem r <-> r = Ok mem') /\ pointwise c e mem mem mem'.
Proof. exact independent_lemma. Qed.
Print Assumptions C14_independent_operands_partial.

(** a = a + col + 1 on a 2x3 part of a larger memory: the strided loop with a
    batch of two lanes and one remaining value, and two threads. *)
Definition case_c : container := mk_container [2; 3] [4; 1] [4; 2] 1.
Definition case_m : meta := mk_meta KView dynamic None dynamic.
Definition case_e : aexp Z := AFun (fun vs => fold_right Z.add 0 vs)
  [ALeaf case_m case_c None; AScalar 1; ALeaf case_m (mk_container [2; 3] [6; 1] [6; 2] 0) (Some [10; 20; 30; 0; 0; 0; 40; 50; 60])].
Definition case_g : setup := mk_setup true 2 0 true [1%nat] row_major.
Definition case_mem : list Z := [100; 1; 2; 3; 101; 4; 5; 6].

Example C14_case_hypotheses : assignable case_g case_m case_c case_e false case_mem /\ independent case_c case_e.
Proof.
  assert (B : forall ix, in_bounds [2; 3] ix -> exists i j, ix = [i; j] /\ 0 <= i < 2 /\ 0 <= j < 3).
  { intros ix H. inversion H as [|? i ? t H1 H2]; subst. inversion H2 as [|? j ? t' H3 H4]; subst. inversion H4; subst. eauto. }
  assert (S : forall s b, strided_ok (mk_container [2; 3] [s; 1] [s; 2] b)).
  { intros s b. split; [reflexivity|]. split; [reflexivity|]. intros [|[|j]] Hj; cbn in *; lia. }
  split.
  - split; [|split; [|split; [|split; [|split; [|split; [|split; [|split]]]]]]].
    + split; [exists 1; split; [lia|reflexivity]|]. split; [vm_compute; split; discriminate|left; reflexivity].
    + split; [repeat (constructor; [lia|]); constructor|]. split; [apply S|]. split.
      * intros ix H. destruct (B ix H) as (i & j & -> & Hi & Hj). unfold position. cbn. lia.
      * intros ix jx H H'. destruct (B ix H) as (i & j & -> & Hi & Hj). destruct (B jx H') as (i' & j' & -> & Hi' & Hj').
        unfold position. cbn. intros. f_equal; [lia|]. f_equal. lia.
    + repeat split.
    + discriminate.
    + split; [split; [split; [cbn; lia|auto]|apply S]|]. split; [exact I|]. split; [split; [split; [cbn; lia|auto]|apply S]|exact I].
    + cbn. repeat split; intros; match goal with H : in_bounds _ ?ix |- _ => destruct (B ix H) as (i & j & -> & Hi & Hj) end; cbn; lia.
    + repeat split.
    + repeat split; discriminate.
    + discriminate.
  - cbn. split; [|auto]. intros ix H. left. destruct (B ix H) as (i & j & -> & Hi & Hj). reflexivity.
Qed.
Example C14_case_result :
  (let* phs := assign_plan case_g case_m case_c case_e false in
   let* '(mem, _) := run_schedule case_e [1;1;1;0;1;0;0;0;1;0;0;0;1;1;1;1]%nat case_mem (map start (hd [] phs)) in Ok mem)
  = Ok [100; 12; 23; 34; 101; 45; 56; 67].
Proof. vm_compute. reflexivity. Qed.

(** A static-layout xstrided_view whose first element is not the first element of
    its storage: with SIMD the values go to the wrong elements. *)
Theorem C14_offset_strided_view_refuted :
  exists (g : setup) (m : meta) (c : container) (e : aexp Z) (mem : list Z),
  setup_ok g (prod (k_shape c)) /\ writable c mem /\ truthful m c /\ operands_ok (k_shape c) (inst mem e) /\ storage_ok (inst mem e) /\
  leaves_ok truthful e /\ leaves_ok (fun _ k => k_shape k = k_shape c) e /\ independent c e /\
  exists mem', assign_data g m c e true mem (Ok mem') /\ ~ pointwise c e mem mem mem'.
Proof. exact offset_refuted_lemma. Qed.
Print Assumptions C14_offset_strided_view_refuted.

(** Assigning a 0-dimensional generator is undefined behaviour. *)
Theorem C14_generator_0d_refuted :
  exists (g : setup) (m : meta) (c : container) (e : aexp Z) (mem : list Z),
  setup_ok g (prod (k_shape c)) /\ writable c mem /\ truthful m c /\ independent c e /\
  e = AIndexed [] (fun _ _ => 7) /\ k_shape c = [] /\ assign_data g m c e true mem UB.
Proof. exact generator_0d_lemma. Qed.
Print Assumptions C14_generator_0d_refuted.

(** C15. Every loop whose selection condition holds gives the same memory, under
    every schedule, for every batch width, alignment and partition in [g]. *)
Theorem C15_every_strategy_agrees :
  forall (V : Type) (g : setup) (m : meta) (c : container) (e : aexp V) (trivial : bool) (mem : list V),
  assignable g m c e trivial mem -> elementwise c e ->
  exists mem', pointwise c e mem mem mem' /\
    (trivial = true -> is_linear_assign m c e = true -> forall r, outcome e (linear_plan g m c e) mem r <-> r = Ok mem') /\
    (trivial = true -> is_linear_assign m c e = true -> g_types g = true -> leaf_simd m = true -> a_simd e = true -> forall r, outcome e (simd_plan g m c e) mem r <-> r = Ok mem') /\
    (a_strided e = true -> exists ls, get_loop_sizes c e = Ok ls /\
       (ls_can ls = true -> exists phs, strided_plan g m c e ls = Ok phs /\ forall r, outcome e phs mem r <-> r = Ok mem')) /\
    (exists phs, stepper_plan g m c e = Ok phs /\ forall r, outcome e phs mem r <-> r = Ok mem').
Proof. exact strategies_lemma. Qed.
Print Assumptions C15_every_strategy_agrees.

(** C15 as seen by the user: the same assignment compiled in two ways (other
    static types, other vector width or alignment, with or without threads, other
    default layout) has the same outcomes. *)
Theorem C15_builds_agree :
  forall (V : Type) (g1 g2 : setup) (m1 m2 : meta) (c : container) (e1 e2 : aexp V) (t1 t2 : bool) (mem : list V),
  assignable g1 m1 c e1 t1 mem -> assignable g2 m2 c e2 t2 mem -> same_expression e1 e2 -> elementwise c e1 ->
  forall r, assign_data g1 m1 c e1 t1 mem r <-> assign_data g2 m2 c e2 t2 mem r.
Proof. exact agreement_lemma. Qed.
Print Assumptions C15_builds_agree.

(** A contiguous destination with a matching operand: all four loops apply. *)
Example C15_case :
  let c := mk_container [2; 3] [3; 1] [3; 2] 0 in
  let m := mk_meta KContainer row_major None row_major in
  let e := AFun (fun vs => fold_right Z.add 0 vs) [ALeaf m c None; ALeaf m c (Some [10;20;30;40;50;60])] in
  let g := mk_setup true 2 1 true [1%nat] row_major in
  is_linear_assign m c e = true /\ a_strided e = true /\
  (exists ls, get_loop_sizes c e = Ok ls /\ ls_can ls = true) /\
  (forall phs, In phs [linear_plan g m c e; simd_plan g m c e] -> outcome e phs [1;2;3;4;5;6] (Ok [11;22;33;44;55;66])).
Proof.
  cbv zeta. split; [reflexivity|]. split; [reflexivity|]. split; [eexists; split; reflexivity|].
  intros phs [<-|[<-|[]]].
  - eapply out_phase with (sched := [1;0;1;0;1;1;1;1;1;1;1;1]%nat); [reflexivity|repeat constructor|apply out_done].
  - eapply out_phase with (sched := [0;0]%nat); [reflexivity|repeat constructor|].
    eapply out_phase with (sched := [1;0;1;0;0;1;1;0]%nat); [reflexivity|repeat constructor|].
    eapply out_phase with (sched := [0;0]%nat); [reflexivity|repeat constructor|apply out_done].
Qed.
