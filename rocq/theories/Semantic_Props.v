(** C16 and C36: the assignment operators. See Semantic_Spec for the vocabulary,
    and Assign_Spec for [writable], [truthful], [pointwise], [independent]. *)
From Coq Require Import List ZArith Bool Lia.
From Verif Require Import Prelude PreludeFacts Strides_Model Strides_Spec Strides_Proofs Broadcast_Model Broadcast_Spec Stepper_Model Stepper_Spec Stepper4_Proofs
  Container_Model Container_Spec Assign_Model Assign_Spec Assign7_Proofs Semantic_Model Semantic_Spec
  Semantic_Proofs Semantic2_Proofs Semantic3_Proofs Semantic4_Proofs Semantic5_Proofs Semantic6_Proofs.
Import ListNotations.
Open Scope Z_scope.

(** C36. a = e on a container: for every build and every schedule, a ends up with the
    common shape of the operands and with the value that e had before the assignment,
    also when e reads a; incompatible shapes throw and leave a unchanged. Partial:
    generators that read a are excluded (refuted below). *)
Theorem C36_container_assign_partial :
  forall (V : Type) (g : Z -> setup) (SL : layout) (D : option nat) (DL : layout) (rs : list V -> Z -> list V) (v : V) (a : cont V) (e : aexp V),
  setups_ok g -> is_order DL -> resizes rs ->
  well_formed SL D a -> valid_operands g (ct_data a) e -> rank_matches D e ->
  (compatible (operand_shapes e) ->
     exists a', (forall r, c_operator_assign g SL D DL rs v a e r <-> r = Done a') /\ well_formed SL D a' /\ holds_value (ct_data a) e a') /\
  (~ compatible (operand_shapes e) -> forall r, c_operator_assign g SL D DL rs v a e r <-> r = Threw broadcast_error a).
Proof. exact (fun V g SL D DL rs v a e Hg HDL Hrs => operator_assign_ok g SL D DL rs v Hg HDL Hrs a e). Qed.
Print Assumptions C36_container_assign_partial.

(** A generator reading the destination is not detected. *)
Theorem C36_generator_alias_refuted :
  exists (g : Z -> setup) (rs : list Z -> Z -> list Z) (a a' : cont Z) (e : aexp Z),
  setups_ok g /\ resizes rs /\ well_formed row_major None a /\
  (exists s f, e = AIndexed s f /\ s <> [] /\ real_shape s) /\
  c_operator_assign g row_major None row_major rs 0 a e (Done a') /\ ~ holds_value (ct_data a) e a'.
Proof. exact generator_alias_lemma. Qed.
Print Assumptions C36_generator_alias_refuted.

(** Non-vacuity: a = a + b where a has shape (2) and b shape (2,2). *)
Definition case_b : aexp Z := ALeaf vm (mk_container [2; 2] [2; 1] [2; 1] 0) (Some [10; 20; 30; 40]).
Example C36_case_hypotheses :
  let a := vec [1; 2] in let e := AFun add2 [self row_major None a; case_b] in
  setups_ok g0 /\ resizes rs0 /\ well_formed row_major None a /\ valid_operands g0 (ct_data a) e /\ rank_matches None e /\
  compatible (operand_shapes e) /\ check_overlap (c_strided a) e = Ok true.
Proof.
  cbv zeta. split; [apply g0_ok|]. split; [apply rs0_ok|]. split; [apply vec_wf|]. split.
  - apply self_valid; [apply vec_wf|constructor; [cbn; lia|constructor]|].
    assert (S : stored_as row_major (mk_container [2; 2] [2; 1] [2; 1] 0)).
    { intros ix Hb. apply in_bounds2 in Hb. destruct Hb as (i & j & -> & Hi & Hj). cbn. rewrite prod_cons, prod_nil. lia. }
    split; [split; [repeat (constructor; [lia|]); constructor|split; [reflexivity|split; [reflexivity|intros [|[|j]] Hj; cbn in *; lia]]]|].
    split; [intros ix Hb; apply in_bounds2 in Hb; destruct Hb as (i & j & -> & Hi & Hj); cbn; lia|].
    split; [split; [exact S|split; [exact S|exact I]]|]. split; [intros n _ H; discriminate H|exact I].
  - split; [exact I|]. split; [|reflexivity]. intros s t k [<-|[<-|[]]] [<-|[<-|[]]]; destruct k as [|[|[|k]]]; cbn; auto.
Qed.
Example C36_case_result :
  exists a', c_operator_assign g0 row_major None row_major rs0 0 (vec [1; 2]) (AFun add2 [self row_major None (vec [1; 2]); case_b]) (Done a') /\
    ct_shape a' = [2; 2] /\ ct_data a' = [11; 22; 31; 42].
Proof.
  eexists. split; [|split; [|]].
  - exists (Done (mk_cont [2; 2] [2; 1] [2; 1] row_major [11; 22; 31; 42])). split; [|reflexivity].
    exists (Ok [11; 22; 31; 42]). split; [|reflexivity]. eapply out_phase with (sched := repeat 0%nat 8); [vm_compute; reflexivity|repeat constructor|]. apply out_done.
  - reflexivity.
  - reflexivity.
Qed.

(** C36 for views: view = e changes exactly the elements of the view, to the values e
    had before the assignment, broadcast to the shape of the view. Partial: strides
    of a view and of operands on its memory must not have different signs (refuted
    below), and generators must not read that memory. *)
Theorem C36_view_assign_partial :
  forall (V : Type) (g : Z -> setup) (TL : layout) (TD : option nat) (DL DT : layout) (rs : list V -> Z -> list V) (v : V) (strided_view : bool)
    (m : meta) (c : container) (e : aexp V) (mem : list V),
  setups_ok g -> is_order DL -> is_order DT -> resizes rs -> TL <> any ->
  writable c mem -> truthful m c -> (forall n, simd_offset_ok (g n) m c) -> one_direction c ->
  match TD with Some n => length (k_shape c) = n | None => True end -> real_shape (k_shape c) ->
  valid_operands g mem e -> own_leaves one_direction e -> fits_view e c ->
  exists mem', (forall r, v_operator_assign g TL TD DL DT rs v strided_view m c e mem r <-> r = Done mem') /\ pointwise c e mem mem mem'.
Proof. exact (fun V g TL TD DL DT rs v sv m c e mem Hg HDL HDT Hrs HTL => view_assign_ok g TL TD DL DT rs v sv Hg HDL HDT Hrs HTL m c e mem). Qed.
Print Assumptions C36_view_assign_partial.

(** ... and when e does not fit the view it throws and changes nothing. Partial: an
    overlapping e that would enlarge the view is excluded (refuted below). *)
Theorem C36_view_throws_partial :
  forall (V : Type) (g : Z -> setup) (TL : layout) (TD : option nat) (DL DT : layout) (rs : list V -> Z -> list V) (v : V) (strided_view : bool)
    (m : meta) (c : container) (e : aexp V) (mem : list V),
  real_shape (k_shape c) -> valid_operands g mem e ->
  (~ compatible (k_shape c :: operand_shapes e) \/ (~ fits_view e c /\ own_leaves (fun _ => False) e)) ->
  forall r, v_operator_assign g TL TD DL DT rs v strided_view m c e mem r <-> r = Threw broadcast_error mem.
Proof. exact (fun V g TL TD DL DT rs v sv => view_throws g TL TD DL DT rs v sv). Qed.
Print Assumptions C36_view_throws_partial.

(** The overlap check looks at the addresses of the first and last element only. *)
Theorem C36_mixed_strides_refuted :
  exists (g : Z -> setup) (rs : list Z -> Z -> list Z) (m : meta) (c : container) (e : aexp Z) (mem mem' : list Z),
  setups_ok g /\ resizes rs /\ writable c mem /\ truthful m c /\ (forall n, simd_offset_ok (g n) m c) /\ valid_operands g mem e /\ fits_view e c /\
  v_operator_assign g row_major None row_major row_major rs 0 false m c e mem (Done mem') /\ ~ pointwise c e mem mem mem'.
Proof. exact mixed_lemma. Qed.
Print Assumptions C36_mixed_strides_refuted.

(** An overlapping right-hand side larger than the view is copied out of bounds
    instead of throwing. *)
Theorem C36_overlapping_larger_refuted :
  exists (g : Z -> setup) (rs : list Z -> Z -> list Z) (m : meta) (c : container) (e : aexp Z) (mem : list Z),
  setups_ok g /\ resizes rs /\ writable c mem /\ truthful m c /\ (forall n, simd_offset_ok (g n) m c) /\ valid_operands g mem e /\
  one_direction c /\ own_leaves one_direction e /\ ~ fits_view e c /\
  v_operator_assign g row_major None row_major row_major rs 0 false m c e mem Undefined.
Proof. exact enlarge_lemma. Qed.
Print Assumptions C36_overlapping_larger_refuted.

(** noalias(view) = e, for operands independent of the view, when e has the shape
    of the view. *)
Theorem C36_noalias_view_partial :
  forall (V : Type) (g : Z -> setup) (m : meta) (c : container) (e : aexp V) (mem : list V),
  setups_ok g -> writable c mem -> truthful m c -> (forall n, simd_offset_ok (g n) m c) -> valid_operands g mem e -> independent c e ->
  broadcast_of (operand_shapes e) (k_shape c) ->
  exists mem', (forall r, v_assign_xexpression g m c e mem r <-> r = Done mem') /\ pointwise c e mem mem mem'.
Proof. exact (fun V g m c e mem => noalias_view_ok g m c e mem). Qed.
Print Assumptions C36_noalias_view_partial.

(** noalias(view) = e throws and changes nothing when e does not fit the view. *)
Theorem C36_noalias_view_throws :
  forall (V : Type) (g : Z -> setup) (m : meta) (c : container) (e : aexp V) (mem : list V),
  valid_operands g mem e -> ~ fits_view e c ->
  forall r, v_assign_xexpression g m c e mem r <-> r = Threw broadcast_error mem.
Proof. exact (fun V g m c e mem => noalias_view_throws g m c e mem). Qed.
Print Assumptions C36_noalias_view_throws.

(** With a smaller shape that could be broadcast, it reads out of bounds. *)
Theorem C36_noalias_smaller_refuted :
  exists (g : Z -> setup) (m : meta) (c : container) (e : aexp Z) (mem : list Z),
  setups_ok g /\ writable c mem /\ truthful m c /\ (forall n, simd_offset_ok (g n) m c) /\ valid_operands g mem e /\ fits_view e c /\ independent c e /\
  v_assign_xexpression g m c e mem Undefined.
Proof. exact noalias_small_lemma. Qed.
Print Assumptions C36_noalias_smaller_refuted.

(** Non-vacuity: overlapping views of a 4-element memory, the elements 1-3 get the
    elements 0-2; both views move forward and the ranges overlap. *)
Definition case_dst : container := mk_container [3] [1] [2] 1.
Definition case_src : aexp Z := AFun add2 [ALeaf view_m (mk_container [3] [1] [2] 0) None].
Example C36_view_case_hypotheses :
  writable case_dst [1; 2; 3; 4] /\ truthful view_m case_dst /\ one_direction case_dst /\ valid_operands g0 [1; 2; 3; 4] case_src /\
  own_leaves one_direction case_src /\ fits_view case_src case_dst /\ check_overlap case_dst case_src = Ok true.
Proof.
  split.
  { split; [constructor; [lia|constructor]|]. split; [apply strided1; lia|]. split.
    - intros ix Hb. apply in_bounds1 in Hb. destruct Hb as (i & -> & Hi). unfold position. cbn. lia.
    - intros ix jx H1 H2. apply in_bounds1 in H1. apply in_bounds1 in H2. destruct H1 as (i & -> & Hi), H2 as (j & -> & Hj).
      unfold position. cbn. intros. f_equal. lia. }
  split; [split; [|split]; [apply stored1; [auto|discriminate]|apply stored1; [auto|discriminate]|reflexivity]|].
  split; [left; repeat (constructor; [lia|]); constructor|]. split.
  { split; [cbn; split; [split; [constructor; [lia|constructor]|apply strided1; lia]|exact I]|].
    split; [cbn; split; [|exact I]; intros ix Hb; apply in_bounds1 in Hb; destruct Hb as (i & -> & Hi); cbn; lia|].
    split; [cbn; split; [split; [|split]; [apply stored1; [auto|discriminate]|apply stored1; [auto|discriminate]|reflexivity]|exact I]|].
    split; [intros n; cbn; split; [intros H; discriminate H|exact I]|cbn; auto]. }
  split; [cbn; split; [left; repeat (constructor; [lia|]); constructor|exact I]|].
  split; [|reflexivity]. intros s [<-|[]]. apply fits_self.
Qed.
Example C36_view_case_result :
  v_operator_assign g0 row_major None row_major row_major rs0 0 false view_m case_dst case_src [1; 2; 3; 4] (Done [1; 1; 2; 3]).
Proof.
  exists (Done (vec [1; 2; 3])). split.
  - exists (Ok [1; 2; 3]). split; [|reflexivity]. eapply out_phase with (sched := repeat 0%nat 6); [vm_compute; reflexivity|repeat constructor|]. apply out_done.
  - exists (Ok [1; 1; 2; 3]). split; [|reflexivity]. eapply out_phase with (sched := repeat 0%nat 6); [vm_compute; reflexivity|repeat constructor|]. apply out_done.
Qed.

(** C16. a += e (and -=, *= ...) on a container. *)
Theorem C16_compound_assign :
  forall (V : Type) (g : Z -> setup) (SL : layout) (D : option nat) (DL : layout) (rs : list V -> Z -> list V) (v : V) (a : cont V) (f : list V -> V) (e : aexp V),
  setups_ok g -> is_order DL -> resizes rs ->
  well_formed SL D a -> real_shape (ct_shape a) -> valid_operands g (ct_data a) e -> rank_matches D (AFun f [self SL D a; e]) ->
  (compatible (ct_shape a :: operand_shapes e) ->
     exists a', (forall r, c_operator_compound g SL D DL rs v a f e r <-> r = Done a') /\ well_formed SL D a' /\
       broadcast_of (ct_shape a :: operand_shapes e) (ct_shape a') /\ holds_value (ct_data a) (AFun f [self SL D a; e]) a') /\
  (~ compatible (ct_shape a :: operand_shapes e) ->
     forall r, c_operator_compound g SL D DL rs v a f e r <-> r = Threw broadcast_error a).
Proof. exact compound_lemma. Qed.
Print Assumptions C16_compound_assign.

(** noalias(a) += e, and the plus_assign family: computed_assign. Partial: no axis
    where a has extent 1 and e extent 0 (refuted below). *)
Theorem C16_noalias_compound_partial :
  forall (V : Type) (g : Z -> setup) (SL : layout) (D : option nat) (DL : layout) (rs : list V -> Z -> list V) (v : V) (a : cont V) (f : list V -> V) (e : aexp V),
  setups_ok g -> is_order DL -> resizes rs ->
  well_formed SL D a -> real_shape (ct_shape a) -> valid_operands g (ct_data a) e -> rank_matches D (AFun f [self SL D a; e]) ->
  independent (c_strided a) e -> no_vanishing_axis a e ->
  (compatible (ct_shape a :: operand_shapes e) ->
     exists a', (forall r, c_noalias_compound g SL D DL rs v a f e r <-> r = Done a') /\ well_formed SL D a' /\
       broadcast_of (ct_shape a :: operand_shapes e) (ct_shape a') /\ holds_value (ct_data a) (AFun f [self SL D a; e]) a') /\
  (~ compatible (ct_shape a :: operand_shapes e) ->
     forall r, c_noalias_compound g SL D DL rs v a f e r <-> r = Threw broadcast_error a).
Proof. exact noalias_compound_lemma. Qed.
Print Assumptions C16_noalias_compound_partial.

Theorem C16_noalias_vanishing_refuted :
  exists (g : Z -> setup) (rs : list Z -> Z -> list Z) (a : cont Z) (e : aexp Z),
  setups_ok g /\ resizes rs /\ well_formed row_major None a /\ real_shape (ct_shape a) /\ valid_operands g (ct_data a) e /\
  independent (c_strided a) e /\ compatible (ct_shape a :: operand_shapes e) /\
  c_noalias_compound g row_major None row_major rs 0 a add2 e Undefined.
Proof. exact vanishing_lemma. Qed.
Print Assumptions C16_noalias_vanishing_refuted.

(** view += e *)
Theorem C16_view_compound_partial :
  forall (V : Type) (g : Z -> setup) (TL : layout) (TD : option nat) (DL DT : layout) (rs : list V -> Z -> list V) (v : V) (strided_view : bool)
    (m : meta) (c : container) (f : list V -> V) (e : aexp V) (mem : list V),
  setups_ok g -> is_order DL -> is_order DT -> resizes rs -> TL <> any ->
  writable c mem -> truthful m c -> (forall n, simd_offset_ok (g n) m c) -> one_direction c ->
  match TD with Some n => length (k_shape c) = n | None => True end -> real_shape (k_shape c) ->
  valid_operands g mem e -> own_leaves one_direction e -> fits_view e c ->
  exists mem', (forall r, v_operator_assign g TL TD DL DT rs v strided_view m c (AFun f [ALeaf m c None; e]) mem r <-> r = Done mem') /\
    pointwise c (AFun f [ALeaf m c None; e]) mem mem mem'.
Proof. exact (fun V g TL TD DL DT rs v sv m c f e mem => view_compound_ok g TL TD DL DT rs v sv m c f e mem). Qed.
Print Assumptions C16_view_compound_partial.

(** a += s for a scalar object s that is not an element of a. *)
Theorem C16_scalar_compound_partial :
  forall (V : Type) (SL : layout) (D : option nat) (a : cont V) (f : V -> V -> V) (s : V), well_formed SL D a ->
  exists a', c_scalar_compound SL a f (SValue s) = Done a' /\ well_formed SL D a' /\ ct_shape a' = ct_shape a /\
    forall ix, in_bounds (ct_shape a) ix -> exists x, elt a ix = Ok x /\ elt a' ix = Ok (f x s).
Proof. exact (fun V => scalar_compound_ok). Qed.
Print Assumptions C16_scalar_compound_partial.

(** a += a(0): the operand is read again after it has been changed. *)
Theorem C16_scalar_element_refuted :
  exists (a : cont Z) (q x : Z) (a' : cont Z), well_formed row_major None a /\ rdz (ct_data a) q = Ok x /\
  c_scalar_compound row_major a Z.add (SElement q) = Done a' /\
  exists ix y, in_bounds (ct_shape a) ix /\ elt a ix = Ok y /\ elt a' ix <> Ok (y + x).
Proof. exact scalar_element_lemma. Qed.
Print Assumptions C16_scalar_element_refuted.

Example C16_case :
  exists r, c_noalias_compound g0 row_major None row_major rs0 0 (vec [1; 2]) add2 case_b (Done r) /\
    ct_shape r = [2; 2] /\ ct_data r = [11; 22; 31; 42].
Proof.
  eexists. split; [|split; [|]].
  - exists (Done (mk_cont [2; 2] [2; 1] [2; 1] row_major [11; 22; 31; 42])). split; [|reflexivity].
    exists (Ok [11; 22; 31; 42]). split; [|reflexivity]. eapply out_phase with (sched := repeat 0%nat 8); [vm_compute; reflexivity|repeat constructor|]. apply out_done.
  - reflexivity.
  - reflexivity.
Qed.
Example C16_case_hypotheses : independent (c_strided (vec [1; 2])) case_b /\ no_vanishing_axis (vec [1; 2]) case_b.
Proof. split; [exact I|]. intros s k [<-|[]]. destruct k as [|[|[|k]]]; cbn; lia. Qed.
