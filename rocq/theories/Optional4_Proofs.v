(** Arrays with missing values: where they go wrong, and examples. *)
From Coq Require Import List ZArith Bool Lia.
From Verif Require Import Prelude PreludeFacts Strides_Model Strides_Spec Strides_Proofs Broadcast_Model Broadcast_Spec
  Broadcast_Proofs Broadcast2_Proofs Layout_Model Slice_Model Access_Model
  Stepper_Model Stepper_Spec Stepper_Proofs Stepper3_Proofs Stepper4_Proofs Container_Model Container_Spec Container_Proofs
  Assign_Model Assign_Spec Assign_Proofs Assign2_Proofs Assign6_Proofs Assign7_Proofs Semantic_Model Semantic_Spec Semantic_Proofs
  Semantic2_Proofs Semantic3_Proofs Semantic4_Proofs Semantic5_Proofs Semantic6_Proofs Functor_Model Functor_Proofs Reduce_Model Reduce_Spec
  Optional_Model Optional_Spec Optional_Proofs Optional2_Proofs Optional3_Proofs.
Import ListNotations.
Open Scope Z_scope.

Definition rsb (d : list bool) (n : Z) : list bool := firstn (Z.to_nat n) d ++ repeat false (Z.to_nat n - length d).
Lemma rsb_ok : resizes rsb.
Proof. intros d n Hn. unfold rsb. rewrite app_length, repeat_length, firstn_length. lia. Qed.
Definition bvec (d : list bool) : cont bool :=
  let n := Z.of_nat (length d) in
  mk_cont [n] [if n =? 1 then 0 else 1] [(if n =? 1 then 0 else 1) * (n - 1)] row_major d.
Lemma bvec_wf d : well_formed row_major None (bvec d).
Proof.
  set (n := Z.of_nat (length d)). split; [constructor; [cbn; lia|constructor]|]. split.
  { cbn. fold n. apply strided1; [intros ->; reflexivity|reflexivity]. }
  split; [cbn; rewrite prod_cons, prod_nil; lia|]. split; [discriminate|]. split; [discriminate|]. split; [reflexivity|]. split; [exact I|].
  exists row_major. split; [left; reflexivity|]. split; [reflexivity|]. cbn. fold n. intros ix Hb.
  apply in_bounds1 in Hb. destruct Hb as (i & -> & Hi). cbn. rewrite prod_nil. destruct (n =? 1) eqn:E; [apply Z.eqb_eq in E|]; lia.
Qed.
(** A 1-D assembly *)
Definition avec (v : list Z) (f : list bool) : asm Z := mk_asm (vec v) (bvec f).
Lemma avec_good v f : length f = length v -> good_asm row_major row_major None (avec v f).
Proof. intros E. split; [apply vec_wf|]. split; [apply bvec_wf|]. cbn. rewrite E. reflexivity. Qed.
(** as an operand stored elsewhere *)
Definition ovec (v : list Z) (f : list bool) : oexp Z :=
  OAssembly vm (c_strided (vec v)) vm (c_strided (bvec f)) (Some (v, f)).

Lemma leaf_valid {B} (b : list B) (c : container) src mem : Z.of_nat (length b) < 100 -> src = Some b \/ (src = None /\ mem = b) ->
  c = mk_container [Z.of_nat (length b)] [if Z.of_nat (length b) =? 1 then 0 else 1] [(if Z.of_nat (length b) =? 1 then 0 else 1) * (Z.of_nat (length b) - 1)] 0 ->
  valid_operands g0 mem (ALeaf vm c src).
Proof.
  intros Hn Hsrc ->. set (n := Z.of_nat (length b)) in *.
  assert (Hn0 : 0 <= n) by (unfold n; lia).
  assert (Eb : match src with Some b => b | None => mem end = b) by (destruct Hsrc as [->|[-> ->]]; reflexivity).
  split; [split; [constructor; [lia|constructor]|apply strided1; [intros ->; reflexivity|reflexivity]]|].
  split. { cbn. rewrite Eb. intros ix Hb. apply in_bounds1 in Hb. destruct Hb as (i & -> & Hi). cbn. fold n. destruct (n =? 1) eqn:E; [apply Z.eqb_eq in E|]; lia. }
  split. { cbn. split; [|split; [|exact I]]; intros ix Hb; apply in_bounds1 in Hb; destruct Hb as (i & -> & Hi); cbn; rewrite prod_nil; destruct (n =? 1) eqn:E; [apply Z.eqb_eq in E| |apply Z.eqb_eq in E|]; lia. }
  split; [intros m _ H; discriminate H|exact I].
Qed.

Lemma apply_strict {A} (d : A) f : strict (opt_apply d f) f.
Proof. intros l. unfold opt_apply, seen. destruct (forallb o_has l); reflexivity. Qed.
Lemma ovec_valid mv mf v f : Z.of_nat (length v) < 100 -> length f = length v -> valid_o g0 g0 mv mf (ovec v f).
Proof.
  intros Hn E. split; [|split].
  - apply (leaf_valid v); [exact Hn|left; reflexivity|reflexivity].
  - apply (leaf_valid f); [lia|left; reflexivity|reflexivity].
  - cbn. rewrite E. reflexivity.
Qed.
Lemma valid_fun {V} g (mem : list V) f args : Forall (valid_operands g mem) args -> valid_operands g mem (AFun f args).
Proof.
  intros H. rewrite Forall_forall in H. unfold valid_operands, storage_ok. cbn.
  split; [|split; [|split; [|split]]].
  - apply fr_and. rewrite Forall_map, Forall_forall. intros x Hx. apply H. exact Hx.
  - apply fr_and. rewrite Forall_map, Forall_forall. intros x Hx. apply H. exact Hx.
  - apply fr_and. rewrite Forall_forall. intros x Hx. apply H. exact Hx.
  - intros n. apply fr_and. rewrite Forall_forall. intros x Hx. apply H. exact Hx.
  - apply fr_and. rewrite Forall_forall. intros x Hx. apply H. exact Hx.
Qed.
Lemma valid_ofun {A} g gf (mv : list A) mf fo f args : Forall (valid_o g gf mv mf) args -> valid_o g gf mv mf (OFun fo f args).
Proof.
  intros H. rewrite Forall_forall in H. split; [|split].
  - apply valid_fun. rewrite Forall_map, Forall_forall. intros x Hx. apply H. exact Hx.
  - apply valid_fun. rewrite Forall_map, Forall_forall. intros x Hx. apply H. exact Hx.
  - cbn. apply (proj2 (fr_and paired args)). rewrite Forall_forall. intros x Hx. apply H. exact Hx.
Qed.
Lemma bc_all s n : broadcast_of (repeat s (S n)) s.
Proof.
  assert (H : forall t, In t (repeat s (S n)) -> t = s) by (intros t Ht; apply repeat_spec in Ht; exact Ht).
  split; [intros t Ht; rewrite (H t Ht); lia|]. split; [right; exists s; split; [left; reflexivity|reflexivity]|].
  intros k. split; [intros t Ht; rewrite (H t Ht); auto|]. right. exists s. split; [left; reflexivity|reflexivity].
Qed.

(** where(true, 5, missing) *)
Definition truth (x : Z) : bool := negb (x =? 0).
Definition e_where : oexp Z := OFun (opt_where 0 truth) (val_where 0 truth) [ovec [1] [true]; ovec [5] [true]; ovec [9] [false]].
Lemma where_lemma : exists (g gf : Z -> setup) (rv : list Z -> Z -> list Z) (rf : list bool -> Z -> list bool) (a a' : asm Z) (args : list (oexp Z)) (ix : list Z) (o : opt Z),
  setups_ok g /\ setups_ok gf /\ resizes rv /\ resizes rf /\ good_asm row_major row_major None a /\
  let e := OFun (opt_where 0 truth) (val_where 0 truth) args in
  valid_o g gf [] [] e /\ elsewhere e /\
  o_at [] [] e ix = Ok (mk_opt 5 true) /\
  o_operator_assign row_major row_major None row_major rv rf g gf a e (Done a') /\ in_bounds (as_shape a') ix /\ as_at a' ix = Ok o /\ o_has o = false.
Proof.
  assert (Va : valid_o g0 g0 [] [] e_where).
  { apply valid_ofun. constructor; [|constructor; [|constructor; [|constructor]]]; apply ovec_valid; cbn; reflexivity. }
  assert (Hel : elsewhere e_where) by (cbn; tauto).
  assert (Hb : broadcast_of (o_shapes e_where) [1]) by (apply (bc_all [1] 2)).
  destruct (o_assign_ok g0 g0 row_major row_major None row_major rs0 rsb g0_ok g0_ok (or_introl eq_refl) rs0_ok rsb_ok (avec [0] [true]) e_where [] []) as (a' & Hiff & _ & (Hb' & Hv)).
  - apply avec_good. reflexivity.
  - exact Va.
  - exact Hel.
  - exact I.
  - eapply broadcast_compatible. exact Hb.
  - assert (Es : as_shape a' = [1]) by (eapply broadcast_unique; eassumption).
    assert (Hix : in_bounds (as_shape a') [0]) by (rewrite Es; constructor; [lia|constructor]).
    destruct (Hv [0] Hix) as (o & Eo & Mo).
    exists g0, g0, rs0, rsb, (avec [0] [true]), a', [ovec [1] [true]; ovec [5] [true]; ovec [9] [false]], [0], o.
    split; [apply g0_ok|]. split; [apply g0_ok|]. split; [apply rs0_ok|]. split; [apply rsb_ok|]. split; [apply avec_good; reflexivity|].
    cbv zeta. split; [exact Va|]. split; [exact Hel|]. split; [reflexivity|]. split; [apply Hiff; reflexivity|]. split; [exact Hix|]. split; [exact Eo|].
    assert (M : means [] [] [0] e_where None).
    { eapply M_missing; [right; right; left; reflexivity|]. apply M_not_there. reflexivity. }
    pose proof (means_fun _ _ _ _ _ _ Mo M) as E. unfold seen in E. destruct (o_has o); [discriminate|reflexivity].
Qed.

(** a = flip(a) *)
Definition back3 : container := mk_container [3] [-1] [-2] 2.
Definition e_flip : oexp Z := OAssembly flip_m back3 flip_m back3 None.
Lemma flip_valid {B} (mem : list B) : length mem = 3%nat -> valid_operands g0 mem (ALeaf flip_m back3 None).
Proof.
  intros E. split; [split; [constructor; [lia|constructor]|apply strided1; [discriminate|reflexivity]]|].
  split. { cbn. rewrite E. intros ix Hb. apply in_bounds1 in Hb. destruct Hb as (i & -> & Hi). cbn. lia. }
  split; [cbn; split; [|split]; [intros ix _; exact I|intros ix _; exact I|exact I]|].
  split; [intros m _ H; discriminate H|exact I].
Qed.
Ltac run4 n := eapply out_phase with (sched := repeat 0%nat n); [vm_compute; reflexivity|repeat constructor|apply out_done].
Lemma alias_lemma : exists (g gf : Z -> setup) (rv : list Z -> Z -> list Z) (rf : list bool -> Z -> list bool) (a a' : asm Z) (e : oexp Z),
  setups_ok g /\ setups_ok gf /\ resizes rv /\ resizes rf /\ good_asm row_major row_major None a /\
  valid_o g gf (ct_data (as_value a)) (ct_data (as_flag a)) e /\ all_strict e /\ broadcast_of (o_shapes e) (as_shape a) /\
  o_operator_assign row_major row_major None row_major rv rf g gf a e (Done a') /\
  ~ holds (ct_data (as_value a)) (ct_data (as_flag a)) e a'.
Proof.
  exists g0, g0, rs0, rsb, (avec [1; 2; 3] [true; true; false]), (avec [3; 2; 3] [false; true; false]), e_flip.
  split; [apply g0_ok|]. split; [apply g0_ok|]. split; [apply rs0_ok|]. split; [apply rsb_ok|]. split; [apply avec_good; reflexivity|].
  split; [split; [apply flip_valid; reflexivity|split; [apply flip_valid; reflexivity|reflexivity]]|]. split; [exact I|].
  split; [apply (bc_all [3] 0)|]. split.
  - exists (Done (vec [3; 2; 3])). split; [exists (Ok [3; 2; 3]); split; [run4 6%nat|reflexivity]|].
    exists (Done (bvec [false; true; false])). split; [exists (Ok [false; true; false]); split; [run4 6%nat|reflexivity]|reflexivity].
  - intros [_ H]. destruct (H [2]) as (o & Eo & Mo); [constructor; [cbn; lia|constructor]|].
    vm_compute in Eo. injection Eo as <-. cbn in Mo.
    assert (M : means [1; 2; 3] [true; true; false] [2] e_flip (Some 1)) by (constructor; reflexivity).
    pose proof (means_fun _ _ _ _ _ _ Mo M). discriminate.
Qed.

(** a += e, e larger than a *)
Lemma self_valid_o v f : Z.of_nat (length v) < 100 -> length f = length v -> valid_o g0 g0 v f (o_self row_major row_major None (avec v f)).
Proof.
  intros Hn E. split; [|split].
  - apply (leaf_valid v); [exact Hn|right; auto|reflexivity].
  - apply (leaf_valid f); [lia|right; auto|reflexivity].
  - cbn. rewrite E. reflexivity.
Qed.
Definition oadd : list (opt Z) -> opt Z := opt_apply 0 add2.
Lemma grow_lemma : exists (g gf : Z -> setup) (rv : list Z -> Z -> list Z) (rf : list bool -> Z -> list bool) (a a' : asm Z) (e : oexp Z),
  setups_ok g /\ setups_ok gf /\ resizes rv /\ resizes rf /\ good_asm row_major row_major None a /\
  let sum := OFun oadd add2 [o_self row_major row_major None a; e] in
  valid_o g gf (ct_data (as_value a)) (ct_data (as_flag a)) sum /\ elsewhere e /\ compatible (o_shapes sum) /\
  o_operator_assign row_major row_major None row_major rv rf g gf a sum (Done a') /\
  ~ holds (ct_data (as_value a)) (ct_data (as_flag a)) sum a'.
Proof.
  exists g0, g0, rs0, rsb, (avec [5] [true]), (avec [6; 2] [true; false]), (ovec [1; 2] [true; true]).
  split; [apply g0_ok|]. split; [apply g0_ok|]. split; [apply rs0_ok|]. split; [apply rsb_ok|]. split; [apply avec_good; reflexivity|]. cbv zeta.
  split. { apply valid_ofun. constructor; [apply self_valid_o; reflexivity|]. constructor; [apply ovec_valid; reflexivity|constructor]. }
  split; [exact I|].
  split. { intros s t k [<-|[<-|[]]] [<-|[<-|[]]]; destruct k as [|[|k]]; cbn; auto. }
  split.
  - exists (Done (vec [6; 2])). split; [exists (Ok [6; 2]); split; [run4 6%nat|reflexivity]|].
    exists (Done (bvec [true; false])). split; [exists (Ok [true; false]); split; [run4 6%nat|reflexivity]|reflexivity].
  - intros [_ H]. destruct (H [1]) as (o & Eo & Mo); [constructor; [cbn; lia|constructor]|].
    vm_compute in Eo. injection Eo as <-. cbn in Mo.
    assert (M : means [5] [true] [1] (OFun oadd add2 [o_self row_major row_major None (avec [5] [true]); ovec [1; 2] [true; true]]) (Some (add2 [5; 2]))).
    { apply M_fun. constructor; [constructor; reflexivity|]. constructor; [constructor; reflexivity|constructor]. }
    pose proof (means_fun _ _ _ _ _ _ Mo M). discriminate.
Qed.

(** An assembly built from a moved array *)
Lemma moved_lemma : exists (rf : list bool -> Z -> list bool) (v : cont Z) (a b : asm Z),
  resizes rf /\ well_formed row_major None v /\ as_of_moved row_major None row_major rf v = Ok a /\
  as_at a [0] = Ok (mk_opt 7 true) /\ as_at a [1] = Ok (mk_opt 8 true) /\
  as_flat a 1 = UB /\ as_set a [0] (mk_opt 7 false) = Ok b /\ as_at b [1] = Ok (mk_opt 8 false).
Proof.
  exists rsb, (vec [7; 8]), (mk_asm (vec [7; 8]) (mk_cont [] [] [] row_major [true])), (mk_asm (vec [7; 8]) (mk_cont [] [] [] row_major [false])).
  split; [apply rsb_ok|]. split; [apply vec_wf|]. repeat split; reflexivity.
Qed.

(** Values in rows, flags in columns *)
Definition grid (B : Type) (l : layout) (d : list B) : cont B :=
  match l with row_major => mk_cont [2; 2] [2; 1] [2; 1] l d | _ => mk_cont [2; 2] [1; 2] [1; 2] l d end.
Lemma grid_wf B l d : is_order l -> length d = 4%nat -> well_formed l None (grid B l d).
Proof.
  intros Ho E. split; [destruct l; cbn; repeat (constructor; [lia|]); constructor|].
  split; [destruct l; (split; [reflexivity|split; [reflexivity|]]); intros [|[|j]] Hj; cbn in *; lia|].
  split; [destruct l; cbn; rewrite E; reflexivity|].
  destruct Ho as [-> | ->].
  - split; [discriminate|]. split; [discriminate|]. split; [reflexivity|]. split; [exact I|]. exists row_major. split; [left; reflexivity|]. split; [reflexivity|].
    intros ix Hb. apply in_bounds2 in Hb. destruct Hb as (i & j & -> & Hi & Hj). cbn. rewrite ?prod_cons, ?prod_nil. lia.
  - split; [discriminate|]. split; [discriminate|]. split; [reflexivity|]. split; [exact I|]. exists column_major. split; [right; reflexivity|]. split; [reflexivity|].
    intros ix Hb. apply in_bounds2 in Hb. destruct Hb as (i & j & -> & Hi & Hj). cbn. rewrite ?prod_cons, ?prod_nil. lia.
Qed.
Lemma flat_refuted_lemma : exists (a : asm Z) (ix : list Z) (o p : opt Z),
  good_asm row_major column_major None a /\ in_bounds (as_shape a) ix /\ as_at a ix = Ok o /\
  as_flat a (rank row_major (as_shape a) ix) = Ok p /\ seen o <> seen p.
Proof.
  exists (mk_asm (grid Z row_major [1; 2; 3; 4]) (grid bool column_major [true; false; true; true])), [0; 1], (mk_opt 2 true), (mk_opt 2 false).
  split; [split; [apply grid_wf; [left; reflexivity|reflexivity]|split; [apply grid_wf; [right; reflexivity|reflexivity]|reflexivity]]|].
  split; [repeat (constructor; [lia|]); constructor|]. split; [reflexivity|]. split; [reflexivity|]. discriminate.
Qed.

(** A container of optional values whose layout is chosen at run time *)
Lemma keeps_rs0 : keeps rs0.
Proof. intros d. unfold rs0. rewrite Nat2Z.id, firstn_all, Nat.sub_diag. cbn. apply app_nil_r. Qed.
Lemma keeps_rsb : keeps rsb.
Proof. intros d. unfold rsb. rewrite Nat2Z.id, firstn_all, Nat.sub_diag. cbn. apply app_nil_r. Qed.
Definition columns : ocont Z := mk_ocont [2; 2] [1; 2] column_major [1; 2; 3; 4] [true; false; true; true].
Lemma dyn_wf {B} (d : list B) : length d = 4%nat -> well_formed dynamic None (mk_cont [2; 2] [1; 2] [1; 2] column_major d).
Proof.
  intros E. destruct (grid_wf B column_major d (or_intror eq_refl) E) as (H1 & H2 & H3 & _ & H5 & _ & H7 & H8).
  split; [exact H1|]. split; [exact H2|]. split; [exact H3|]. split; [discriminate|]. split; [discriminate|]. split; [congruence|]. split; [exact I|]. exact H8.
Qed.
Lemma adaptor_refuted_lemma : exists (rv : list Z -> Z -> list Z) (rf : list bool -> Z -> list bool) (a : ocont Z) (v : cont Z) (f : cont bool) (ix : list Z) (o : opt Z) (x : Z) (h : bool),
  resizes rv /\ resizes rf /\ keeps rv /\ keeps rf /\ good_ocont dynamic a /\
  oc_value dynamic row_major rv a = Ok v /\ oc_has_value dynamic row_major rf a = Ok f /\ in_bounds (oc_shape a) ix /\
  oc_at a ix = Ok o /\ elt v ix = Ok x /\ elt f ix = Ok h /\ x <> o_value o /\ h <> o_has o.
Proof.
  exists rs0, rsb, columns, (mk_cont [2; 2] [2; 1] [2; 1] row_major [1; 2; 3; 4]), (mk_cont [2; 2] [2; 1] [2; 1] row_major [true; false; true; true]), [0; 1], (mk_opt 3 true), 2, false.
  split; [apply rs0_ok|]. split; [apply rsb_ok|]. split; [apply keeps_rs0|]. split; [apply keeps_rsb|].
  split; [exists [1; 2]; split; apply dyn_wf; reflexivity|]. split; [vm_compute; reflexivity|]. split; [vm_compute; reflexivity|].
  split; [repeat (constructor; [lia|]); constructor|]. repeat split; try reflexivity; discriminate.
Qed.

(** ** Statements *)
Lemma elements_lemma : forall (A : Type) (g gf : Z -> setup) (mv : list A) (mf : list bool) (e : oexp A) (sh ix : list Z),
  valid_o g gf mv mf e -> all_strict e -> (forall s, In s (o_shapes e) -> fits s sh) -> in_bounds sh ix ->
  exists o v h, o_at mv mf e ix = Ok o /\ x_value ix (inst mv (val_of e)) = Ok v /\ x_value ix (inst mf (flag_of e)) = Ok h /\
    seen o = seen (mk_opt v h) /\ forall m, means mv mf ix e m <-> m = seen o.
Proof.
  intros A g gf mv mf e sh ix Hv Hs Hf Hb. pose proof Hv as (Vv & Vf & Hp).
  destruct (o_at_means mv mf sh ix e (valid_good _ _ _ _ _ Hv) Hs Hf Hb) as (o & Eo & Mo).
  destruct (inst_values g mv (val_of e) sh ix Vv Hf Hb) as (v & Ev).
  destruct (inst_values gf mf (flag_of e) sh ix Vf) as (h & Eh); [rewrite flag_shapes by exact Hp; exact Hf|exact Hb|].
  pose proof (split_means mv mf ix e v h Ev Eh) as Ms.
  exists o, v, h. split; [exact Eo|]. split; [exact Ev|]. split; [exact Eh|]. split; [eapply means_fun; eassumption|].
  intros m. split; [intros Hm; eapply means_fun; eassumption|]. intros ->. exact Mo.
Qed.
Lemma assign_lemma : forall (A : Type) (g gf : Z -> setup) (SV SF : layout) (D : option nat) (DL : layout) (rv : list A -> Z -> list A)
    (rf : list bool -> Z -> list bool) (a : asm A) (e : oexp A) (mv : list A) (mf : list bool),
  setups_ok g -> setups_ok gf -> is_order DL -> resizes rv -> resizes rf -> good_asm SV SF D a ->
  valid_o g gf mv mf e -> elsewhere e -> rank_matches D (val_of e) ->
  (compatible (o_shapes e) ->
     exists a', (forall r, o_operator_assign SV SF D DL rv rf g gf a e r <-> r = Done a') /\ good_asm SV SF D a' /\ holds mv mf e a') /\
  (~ compatible (o_shapes e) -> forall r, o_operator_assign SV SF D DL rv rf g gf a e r <-> r = Threw broadcast_error a).
Proof.
  intros A g gf SV SF D DL rv rf a e mv mf Hg Hgf HDL Hrv Hrf Ha Hv He HD. split.
  - intros Hc. eapply o_assign_ok; eassumption.
  - intros Hc. eapply o_assign_throws; eassumption.
Qed.
Lemma compound_lemma : forall (A : Type) (g gf : Z -> setup) (SV SF : layout) (D : option nat) (DL : layout) (rv : list A -> Z -> list A)
    (rf : list bool -> Z -> list bool) (a : asm A) (e : oexp A),
  setups_ok g -> setups_ok gf -> good_asm SV SF D a ->
  valid_o g gf (ct_data (as_value a)) (ct_data (as_flag a)) e -> only_itself SV SF D a e -> broadcast_of (o_shapes e) (as_shape a) ->
  exists a', (forall r, o_operator_assign SV SF D DL rv rf g gf a e r <-> r = Done a') /\ good_asm SV SF D a' /\
    holds (ct_data (as_value a)) (ct_data (as_flag a)) e a'.
Proof. intros A g gf SV SF D DL rv rf a e Hg Hgf. apply o_assign_itself; assumption. Qed.

(** An example: [1, -, 3] + [10, 20, 30] and so on *)
Definition e_sum : oexp Z := OFun oadd add2 [ovec [1; 2; 3] [true; false; true]; OArray vm (c_strided (vec [10; 20; 30])) (Some [10; 20; 30])].
Definition e_plus : oexp Z := OFun oadd add2 [o_self row_major row_major None (avec [1; 2; 3] [true; false; true]); ovec [10] [true]].
Lemma ones_valid mem : valid_operands g0 mem (AIndexed [3] (fun (_ : list bool) (_ : list Z) => true)).
Proof.
  split; [split; [constructor; [lia|constructor]|discriminate]|]. split; [exact I|]. split; [exact I|]. split; [intros n; exact I|]. cbn. auto.
Qed.
Lemma e_sum_valid mv mf : valid_o g0 g0 mv mf e_sum.
Proof.
  apply valid_ofun. constructor; [apply ovec_valid; reflexivity|]. constructor; [|constructor].
  split; [apply (leaf_valid [10; 20; 30]); [reflexivity|left; reflexivity|reflexivity]|]. split; [apply ones_valid|exact I].
Qed.
Lemma e_plus_valid : valid_o g0 g0 [1; 2; 3] [true; false; true] e_plus.
Proof. apply valid_ofun. constructor; [apply self_valid_o; reflexivity|]. constructor; [apply ovec_valid; reflexivity|constructor]. Qed.
Lemma e_plus_bc : broadcast_of (o_shapes e_plus) [3].
Proof.
  split; [intros t [<-|[<-|[]]]; cbn; lia|]. split; [right; exists [3]; split; [left; reflexivity|reflexivity]|].
  intros k. split; [intros t [<-|[<-|[]]]; destruct k as [|[|k]]; cbn; auto|]. right. exists [3]. split; [left; reflexivity|reflexivity].
Qed.
Lemma e_sum_fits s : In s (o_shapes e_sum) -> fits s [3].
Proof. intros [<-|[<-|[]]]; split; [cbn; lia|auto|cbn; lia|auto]. Qed.
Definition six_o (ix : list Z) : opt Z :=
  match ix with [i; j] => mk_opt (i * 3 + j) (negb ((i =? 0) && (j =? 1))) | _ => mk_opt 0 false end.
