(** Proofs about arrays with missing values: assemblies and containers of optional values, reductions. *)
From Coq Require Import List ZArith Bool Lia.
From Verif Require Import Prelude PreludeFacts Strides_Model Strides_Spec Strides_Proofs Broadcast_Model Broadcast_Spec
  Broadcast_Proofs Broadcast2_Proofs Layout_Model Slice_Model Access_Model
  Stepper_Model Stepper_Spec Stepper_Proofs Stepper3_Proofs Stepper4_Proofs Container_Model Container_Spec Container_Proofs
  Assign_Model Assign_Spec Assign_Proofs Assign2_Proofs Assign6_Proofs Assign7_Proofs Semantic_Model Semantic_Spec Semantic_Proofs
  Semantic2_Proofs Semantic3_Proofs Functor_Model Functor_Proofs Reduce_Model Reduce_Spec Reduce7_Proofs
  Optional_Model Optional_Spec Optional_Proofs Optional2_Proofs.
Import ListNotations.
Open Scope Z_scope.

Lemma wf_rank {V} SL D (a : cont V) ix : well_formed SL D a -> is_order SL -> in_bounds (ct_shape a) ix ->
  element_offset (ct_strides a) ix = rank SL (ct_shape a) ix.
Proof.
  intros Hw Ho Hb. rewrite (dot_element SL D a ix Hw Hb). destruct Hw as (_ & _ & _ & _ & _ & Hl & _ & l & _ & Hl2 & Hr).
  assert (E : ct_layout a = SL) by (apply Hl; destruct Ho as [-> | ->]; discriminate).
  rewrite Hr by exact Hb. rewrite Hl2, E by (rewrite E; exact Ho). reflexivity.
Qed.
Lemma wf_offset {V} SL D (a : cont V) ix : well_formed SL D a -> in_bounds (ct_shape a) ix ->
  0 <= element_offset (ct_strides a) ix < Z.of_nat (length (ct_data a)).
Proof.
  intros Hw Hb. rewrite (dot_element SL D a ix Hw Hb). destruct Hw as (_ & _ & Hn & _ & _ & _ & _ & l & _ & _ & Hr).
  rewrite Hr, Hn by exact Hb. apply rank_bound. exact Hb.
Qed.
Lemma wf_inj {V} SL D (a : cont V) ix jx : well_formed SL D a -> in_bounds (ct_shape a) ix -> in_bounds (ct_shape a) jx ->
  element_offset (ct_strides a) ix = element_offset (ct_strides a) jx -> ix = jx.
Proof.
  intros Hw Hb Hb'. rewrite !(dot_element SL D a _ Hw) by assumption. destruct Hw as (_ & _ & Hn & _ & _ & _ & _ & l & Hl & _ & Hr).
  rewrite !Hr by assumption. intros E. eapply rank_inj; eauto.
Qed.

(** ** Construction *)
Section F.
Context {V : Type} (SL : layout) (D : option nat) (DL : layout) (rs : list V -> Z -> list V).
Hypothesis HDL : is_order DL.
Hypothesis Hrs : resizes rs.
Lemma resize_layout_any (c : cont V) sh l : SL <> any -> l <> any -> (SL <> dynamic -> l = SL) -> is_shape sh ->
  match D with Some n => length sh = n | None => True end ->
  exists a', c_resize_layout SL DL rs c sh l = Ok a' /\ well_formed SL D a' /\ ct_shape a' = sh.
Proof.
  intros HSL Hl Hsl Hs HD. unfold c_resize_layout.
  assert (E : negb (layout_eqb SL dynamic) && negb (layout_eqb l SL) = false).
  { destruct (layout_eqb SL dynamic) eqn:E; [reflexivity|]. apply layout_eqb_neq in E. rewrite (Hsl E), layout_eqb_refl. reflexivity. }
  rewrite E. clear E. unfold c_resize. rewrite orb_true_r. cbn [ct_layout ct_data].
  set (lay := if layout_eqb SL dynamic && layout_eqb l dynamic then DL else l).
  assert (Hl1 : SL <> dynamic -> lay = SL).
  { intros Hn. unfold lay. pose proof Hn as Hn'. apply layout_eqb_neq in Hn'. rewrite Hn'. cbn. auto. }
  assert (Hl2 : lay <> any).
  { unfold lay. destruct (_ && _); [destruct HDL as [-> | ->]; discriminate|exact Hl]. }
  destruct (cs_strided SL lay sh) as (st & bs & E' & _). rewrite E'. cbn [bind].
  eexists. split; [reflexivity|]. split; [|reflexivity].
  eapply resize_any_wf; eauto. apply Hrs. apply prod_nn. exact Hs.
Qed.
Lemma c_filled_ok n sh (v : V) l : SL <> any -> l <> any -> (SL <> dynamic -> l = SL) -> is_shape sh ->
  match D with Some n => length sh = n | None => True end ->
  exists a', c_filled SL DL rs n sh v l = Ok a' /\ well_formed SL D a' /\ ct_shape a' = sh /\
    forall ix, in_bounds sh ix -> elt a' ix = Ok v.
Proof.
  intros HSL Hl Hsl Hs HD. unfold c_filled.
  destruct (resize_layout_any (c_default SL n v) sh l HSL Hl Hsl Hs HD) as (c & E & Hw & Es). rewrite E. cbn [bind].
  eexists. split; [reflexivity|].
  assert (Hw' : well_formed SL D (with_data c (map (fun _ => v) (ct_data c)))) by (apply wf_with_data; [exact Hw|apply map_length]).
  split; [exact Hw'|]. split; [exact Es|]. intros ix Hb. unfold elt.
  destruct (rdz_some (map (fun _ => v) (ct_data c)) (element_offset (ct_strides c) ix)) as (y & Ey).
  { rewrite map_length. eapply wf_offset; [exact Hw|]. rewrite Es. exact Hb. }
  cbn. rewrite Ey. f_equal. unfold rdz, rd in Ey. destruct (_ <? 0); [discriminate|].
  destruct (nth_error _ _) eqn:En; [|discriminate]. injection Ey as <-. apply nth_error_In in En. apply in_map_iff in En.
  destruct En as (z & -> & _). reflexivity.
Qed.
Lemma c_filled_throws n sh (v : V) l : SL <> dynamic -> l <> SL -> c_filled SL DL rs n sh v l = Throw runtime_error.
Proof.
  intros H1 H2. unfold c_filled, c_resize_layout. apply layout_eqb_neq in H1. apply layout_eqb_neq in H2. rewrite H1, H2. reflexivity.
Qed.
End F.

Lemma filled_lemma : forall (A : Type) (SV SF : layout) (D : option nat) (DL : layout) (rv : list A -> Z -> list A) (rf : list bool -> Z -> list bool)
    (sh : list Z) (o : opt A) (l : layout),
  is_order DL -> resizes rv -> resizes rf -> SV <> any -> SF <> any -> l <> any -> is_shape sh ->
  match D with Some n => length sh = n | None => True end ->
  ((SV <> dynamic -> l = SV) -> (SF <> dynamic -> l = SF) ->
     exists a, as_filled SV SF D DL rv rf sh o l = Ok a /\ good_asm SV SF D a /\ as_shape a = sh /\
       forall ix, in_bounds sh ix -> as_at a ix = Ok o) /\
  ((SV <> dynamic /\ l <> SV) \/ (SF <> dynamic /\ l <> SF) -> as_filled SV SF D DL rv rf sh o l = Throw runtime_error).
Proof.
  intros A SV SF D DL rv rf sh o l HDL Hrv Hrf HV HF Hl Hs HD. unfold as_filled. split.
  - intros H1 H2.
    destruct (c_filled_ok SV D DL rv HDL Hrv (rank0 D) sh (o_value o) l HV Hl H1 Hs HD) as (v & Ev & Wv & Sv & Xv).
    destruct (c_filled_ok SF D DL rf HDL Hrf (rank0 D) sh (o_has o) l HF Hl H2 Hs HD) as (f & Ef & Wf & Sf & Xf).
    rewrite Ev, Ef. cbn [bind]. eexists. split; [reflexivity|]. split; [split; [exact Wv|split; [exact Wf|cbn; congruence]]|].
    split; [exact Sv|]. intros ix Hb. unfold as_at. cbn [as_value as_flag]. unfold elt in *. rewrite Xv, Xf by exact Hb. destruct o. reflexivity.
  - intros H.
    assert (Hd : forall SL, (SL <> dynamic /\ l <> SL) \/ (SL <> dynamic -> l = SL)).
    { intros SL. destruct (layout_eqb SL dynamic) eqn:E1; [apply layout_eqb_eq in E1; right; congruence|].
      destruct (layout_eqb l SL) eqn:E2; [apply layout_eqb_eq in E2; right; auto|]. left. split; apply layout_eqb_neq; assumption. }
    destruct (Hd SV) as [[H1 H2]|H1]; [rewrite c_filled_throws by assumption; reflexivity|].
    destruct (c_filled_ok SV D DL rv HDL Hrv (rank0 D) sh (o_value o) l HV Hl H1 Hs HD) as (v & Ev & _). rewrite Ev. cbn [bind].
    destruct H as [[H2 H3]|[H2 H3]]; [exfalso; apply H3; auto|]. rewrite c_filled_throws by assumption. reflexivity.
Qed.

Lemma of_values_lemma : forall (A : Type) (SV SF : layout) (D : option nat) (DL : layout) (rf : list bool -> Z -> list bool) (v : cont A),
  is_order DL -> resizes rf -> SF <> any -> well_formed SV D v -> (SF <> dynamic -> ct_layout v = SF) ->
  exists a, as_of_values SF D DL rf v = Ok a /\ good_asm SV SF D a /\ as_shape a = ct_shape v /\
    forall ix, in_bounds (ct_shape v) ix -> exists x, elt v ix = Ok x /\ as_at a ix = Ok (mk_opt x true).
Proof.
  intros A SV SF D DL rf v HDL Hrf HF Hw Hl. unfold as_of_values. pose proof Hw as (Hs & _ & _ & _ & Hany & _ & HD & _).
  destruct (c_filled_ok SF D DL rf HDL Hrf (rank0 D) (ct_shape v) true (ct_layout v) HF Hany Hl Hs HD) as (f & Ef & Wf & Sf & Xf).
  rewrite Ef. cbn [bind]. eexists. split; [reflexivity|]. split; [split; [exact Hw|split; [exact Wf|exact Sf]]|].
  split; [reflexivity|]. intros ix Hb. unfold as_at. cbn [as_value as_flag]. unfold elt in *.
  destruct (rdz_some (ct_data v) (element_offset (ct_strides v) ix)) as (x & Ex); [eapply wf_offset; eassumption|].
  exists x. rewrite Xf by exact Hb. rewrite Ex. split; reflexivity.
Qed.

(** ** Elements *)
Lemma set_lemma : forall (A : Type) (SV SF : layout) (D : option nat) (a : asm A) (ix : list Z) (o : opt A),
  good_asm SV SF D a -> in_bounds (as_shape a) ix ->
  exists a', as_set a ix o = Ok a' /\ good_asm SV SF D a' /\ as_shape a' = as_shape a /\ as_at a' ix = Ok o /\
    forall jx, in_bounds (as_shape a) jx -> jx <> ix -> exists o', as_at a jx = Ok o' /\ as_at a' jx = Ok o'.
Proof.
  intros A SV SF D [v f] ix o (Wv & Wf & Es) Hb. unfold as_shape in *. cbn in *. unfold as_set, as_at. cbn [as_value as_flag].
  assert (Hbf : in_bounds (ct_shape f) ix) by (rewrite Es; exact Hb).
  destruct (rdz_wrz (ct_data v) (element_offset (ct_strides v) ix) (o_value o)) as (dv & E1 & L1 & R1 & K1); [eapply wf_offset; eassumption|].
  destruct (rdz_wrz (ct_data f) (element_offset (ct_strides f) ix) (o_has o)) as (df & E2 & L2 & R2 & K2); [eapply wf_offset; eassumption|].
  rewrite E1, E2. cbn [bind]. eexists. split; [reflexivity|].
  split; [split; [apply wf_with_data; assumption|split; [apply wf_with_data; assumption|exact Es]]|].
  split; [reflexivity|]. cbn. rewrite R1, R2. split; [destruct o; reflexivity|].
  intros jx Hj Hne. assert (Hjf : in_bounds (ct_shape f) jx) by (rewrite Es; exact Hj).
  destruct (rdz_some (ct_data v) (element_offset (ct_strides v) jx)) as (x & Ex); [eapply wf_offset; eassumption|].
  destruct (rdz_some (ct_data f) (element_offset (ct_strides f) jx)) as (h & Eh); [eapply wf_offset; eassumption|].
  exists (mk_opt x h). rewrite Ex, Eh. split; [reflexivity|]. rewrite K1, K2.
  - rewrite Ex, Eh. reflexivity.
  - intros E. apply Hne. eapply (wf_inj SF D f); eassumption.
  - intros E. apply Hne. eapply (wf_inj SV D v); eassumption.
Qed.
Lemma flat_lemma : forall (A : Type) (L : layout) (D : option nat) (a : asm A) (ix : list Z),
  is_order L -> good_asm L L D a -> in_bounds (as_shape a) ix -> exists o, as_flat a (rank L (as_shape a) ix) = Ok o /\ as_at a ix = Ok o.
Proof.
  intros A L D [v f] ix Ho (Wv & Wf & Es) Hb. unfold as_shape in *. cbn in *. unfold as_flat, as_at. cbn.
  assert (Hbf : in_bounds (ct_shape f) ix) by (rewrite Es; exact Hb).
  destruct (rdz_some (ct_data v) (element_offset (ct_strides v) ix)) as (x & Ex); [eapply wf_offset; eassumption|].
  destruct (rdz_some (ct_data f) (element_offset (ct_strides f) ix)) as (h & Eh); [eapply wf_offset; eassumption|].
  exists (mk_opt x h). rewrite Ex, Eh. split; [|reflexivity].
  rewrite (wf_rank L D v ix Wv Ho Hb) in Ex. rewrite (wf_rank L D f ix Wf Ho Hbf), Es in Eh. rewrite Ex, Eh. reflexivity.
Qed.
Lemma wf_consistent {V} SL D (a : cont V) : well_formed SL D a -> consistent a.
Proof.
  intros Hw. pose proof Hw as (H1 & (H2 & H3 & _) & H4 & _ & _ & _ & _ & l & Ho & Hl & Hr). cbn in *.
  split; [exact H1|]. split; [exact H2|]. split; [exact H3|]. split; [exact H4|]. exists l. split; [exact Ho|]. split; [exact Hl|].
  intros ix Hb. rewrite (dot_element SL D a ix Hw Hb). apply Hr. exact Hb.
Qed.
Lemma reshape_lemma : forall (A : Type) (L DL : layout) (a : asm A) (sh : list Z),
  is_order L -> good_asm L L None a -> Forall (fun d => 0 <= d < 2 ^ 64) sh ->
  (prod sh = prod (as_shape a) ->
     exists a', as_reshape L L DL a sh L = Ok a' /\ as_shape a' = sh /\ ct_shape (as_flag a') = sh /\
       forall ix jx, in_bounds (as_shape a) ix -> in_bounds sh jx -> rank L (as_shape a) ix = rank L sh jx ->
         exists o, as_at a ix = Ok o /\ as_at a' jx = Ok o) /\
  (prod sh <> prod (as_shape a) -> as_reshape L L DL a sh L = Throw runtime_error).
Proof.
  intros A L DL [v f] sh Ho (Wv & Wf & Es) Hsh. unfold as_shape in *. cbn in *. unfold as_reshape. cbn.
  assert (HL : L <> dynamic) by (destruct Ho as [-> | ->]; discriminate).
  pose proof (wf_consistent _ _ _ Wv) as Cv. pose proof (wf_consistent _ _ _ Wf) as Cf.
  pose proof Wv as (_ & _ & _ & _ & _ & Lv & _). pose proof Wf as (_ & _ & _ & _ & _ & Lf & _).
  destruct (reshape_unsigned_lemma L DL v sh L Cv Lv Hsh) as [Rv Tv].
  destruct (reshape_unsigned_lemma L DL f sh L Cf Lf Hsh) as [Rf Tf]. split.
  - intros E. destruct (Rv E (or_intror eq_refl)) as (v' & Ev & Sv & Cv' & (Dv & Xv) & Yv).
    destruct (Rf ltac:(rewrite Es; exact E) (or_intror eq_refl)) as (f' & Ef & Sf & Cf' & (Df & Xf) & Yf).
    rewrite Ev, Ef. cbn [bind]. eexists. split; [reflexivity|]. cbn. split; [exact Sv|]. split; [exact Sf|].
    assert (Ll : match L, L with dynamic, dynamic => DL | _, _ => L end = L) by (destruct L; congruence).
    rewrite Ll in Yv, Yf. specialize (Lv HL). specialize (Lf HL).
    intros ix jx Hi Hj R. assert (Hif : in_bounds (ct_shape f) ix) by (rewrite Es; exact Hi).
    unfold as_at. cbn. unfold elt in *.
    destruct (rdz_some (ct_data v) (element_offset (ct_strides v) ix)) as (x & Ex); [eapply wf_offset; eassumption|].
    destruct (rdz_some (ct_data f) (element_offset (ct_strides f) ix)) as (h & Eh); [eapply wf_offset; eassumption|].
    exists (mk_opt x h). rewrite Ex, Eh. split; [reflexivity|].
    rewrite (Xv ix jx); [|congruence|rewrite Lv; exact Ho|exact Hi|rewrite Sv; exact Hj|rewrite Lv, Sv; exact R].
    rewrite (Xf ix jx); [|congruence|rewrite Lf; exact Ho|exact Hif|rewrite Sf; exact Hj|rewrite Lf, Sf, Es; exact R].
    rewrite Ex, Eh. reflexivity.
  - intros E. rewrite Tv by (left; exact E). reflexivity.
Qed.

(** ** Containers of optional values *)
Lemma adaptor_ok {B} SL DL (rs : list B -> Z -> list B) sh st bk lay (d : list B) : is_order SL -> is_order DL -> keeps rs ->
  well_formed SL None (mk_cont sh st bk lay d) ->
  exists c, c_resize_layout SL DL rs (mk_cont [] [] [] SL d) sh SL = Ok c /\ well_formed SL None c /\ ct_shape c = sh /\ ct_data c = d.
Proof.
  intros Ho HDL Hk Hw. pose proof Hw as (Hs & _ & Hn & _). cbn in Hs, Hn. unfold c_resize_layout. rewrite layout_eqb_refl. cbn [negb]. rewrite andb_false_r.
  unfold c_resize. rewrite orb_true_r. cbn [ct_layout ct_data].
  assert (HSL : SL <> any) by (destruct Ho as [-> | ->]; discriminate).
  assert (HSd : SL <> dynamic) by (destruct Ho as [-> | ->]; discriminate). pose proof HSd as E. apply layout_eqb_neq in E. rewrite E. cbn [andb].
  destruct (cs_strided SL SL sh) as (st' & bs' & E' & _). rewrite E'. cbn [bind]. rewrite <- Hn, Hk.
  eexists. split; [reflexivity|]. split; [|split; reflexivity]. eapply resize_any_wf; eauto.
Qed.
Lemma adaptor_lemma : forall (A : Type) (SL DL : layout) (rv : list A -> Z -> list A) (rf : list bool -> Z -> list bool) (a : ocont A),
  is_order SL -> is_order DL -> keeps rv -> keeps rf -> good_ocont SL a ->
  exists v f, oc_value SL DL rv a = Ok v /\ oc_has_value SL DL rf a = Ok f /\ ct_shape v = oc_shape a /\ ct_shape f = oc_shape a /\
    forall ix, in_bounds (oc_shape a) ix -> exists o, oc_at a ix = Ok o /\ elt v ix = Ok (o_value o) /\ elt f ix = Ok (o_has o).
Proof.
  intros A SL DL rv rf a Ho HDL Hv Hf (bk & W1 & W2). unfold oc_value, oc_has_value, oc_adaptor.
  destruct (adaptor_ok _ _ _ _ _ _ _ _ Ho HDL Hv W1) as (v & E1 & Wv & S1 & D1).
  destruct (adaptor_ok _ _ _ _ _ _ _ _ Ho HDL Hf W2) as (f & E2 & Wf & S2 & D2).
  exists v, f. split; [exact E1|]. split; [exact E2|]. split; [exact S1|]. split; [exact S2|]. intros ix Hb.
  unfold oc_at, elt. pose proof (wf_rank _ _ _ ix W1 Ho Hb) as R1. pose proof (wf_rank _ _ v ix Wv Ho ltac:(rewrite S1; exact Hb)) as R2.
  pose proof (wf_rank _ _ f ix Wf Ho ltac:(rewrite S2; exact Hb)) as R3. cbn [ct_shape ct_strides] in R1. rewrite R1, R2, R3, S1, S2, D1, D2.
  pose proof (wf_offset _ _ _ ix W1 Hb) as B1. pose proof (wf_offset _ _ _ ix W2 Hb) as B2. cbn [ct_data ct_strides] in B1, B2. rewrite R1 in B1, B2.
  destruct (rdz_some _ _ B1) as (x & Ex). destruct (rdz_some _ _ B2) as (h & Eh). exists (mk_opt x h). rewrite Ex, Eh. auto.
Qed.

(** ** Reductions *)
Lemma op_eq {A} (d : A) f i a y : rf_reduce (opt_f d f i) a y = if o_has a && o_has y then mk_opt (f (o_value a) (o_value y)) true else mk_opt d false.
Proof. cbn. unfold opt_apply. cbn. rewrite andb_true_r. reflexivity. Qed.
Lemma merge_eq {A} (d : A) f i a y : rf_merge (opt_f d f i) a y = if o_has a && o_has y then mk_opt (f (o_value a) (o_value y)) true else mk_opt d false.
Proof. exact (op_eq d f i a y). Qed.
Lemma op_missing {A} (d : A) f i ys a : o_has a = false -> ys <> [] -> fold_left (rf_reduce (opt_f d f i)) ys a = mk_opt d false.
Proof.
  intros Ha. assert (K : forall ys, fold_left (rf_reduce (opt_f d f i)) ys (mk_opt d false) = mk_opt d false).
  { induction ys0 as [|y l IH]; cbn [fold_left]; [reflexivity|]. rewrite op_eq. exact IH. }
  destruct ys as [|y ys]; [congruence|]. intros _. cbn [fold_left]. rewrite op_eq, Ha. apply K.
Qed.
Lemma fold_opt {A} (d : A) f i : forall ys a, o_has a = true ->
  seen (fold_left (rf_reduce (opt_f d f i)) ys a) =
  if forallb o_has ys then Some (fold_left f (map o_value ys) (o_value a)) else None.
Proof.
  induction ys as [|y ys IH]; intros a Ha; cbn [fold_left map forallb].
  - unfold seen. rewrite Ha. reflexivity.
  - rewrite op_eq, Ha. cbn [andb].
    destruct (o_has y) eqn:Ey; cbn [andb].
    + rewrite IH by reflexivity. reflexivity.
    + destruct ys as [|z ys]; [reflexivity|]. rewrite op_missing by (reflexivity || discriminate). reflexivity.
Qed.
Lemma fold_flag : forall ys a, fold_left (rf_reduce flag_f) ys a = a && forallb (fun b => b) ys.
Proof.
  induction ys as [|y ys IH]; intros a; cbn [fold_left forallb]; [rewrite andb_true_r; reflexivity|].
  rewrite IH. cbn. rewrite andb_true_r, andb_assoc. reflexivity.
Qed.
Lemma fold_canon {A} (d : A) f i : forall ys a, o_has (fold_left (rf_reduce (opt_f d f i)) ys a) = false -> ys <> [] ->
  fold_left (rf_reduce (opt_f d f i)) ys a = mk_opt d false.
Proof.
  intros ys. induction ys as [|y ys IH] using rev_ind; [congruence|]. intros a H _. rewrite fold_left_app in *. cbn [fold_left] in *.
  rewrite op_eq in *. destruct (_ && _); [discriminate|reflexivity].
Qed.
Lemma opt_eq {A} (d : A) x y : seen x = seen y -> (o_has x = false -> x = mk_opt d false) -> (o_has y = false -> y = mk_opt d false) -> x = y.
Proof.
  destruct x as [v1 [|]], y as [v2 [|]]; cbn; intros E H1 H2; try congruence. rewrite H1, H2 by reflexivity. reflexivity.
Qed.
Lemma opt_law {A} (d : A) f i : merge_law (val_f f i) -> merge_law (opt_f d f i).
Proof.
  intros H a ys Hne. unfold merge_law in H. cbn [val_f rf_merge rf_reduce rf_init] in H.
  destruct (o_has a) eqn:Ha.
  - apply (opt_eq d).
    + rewrite fold_opt by exact Ha. rewrite merge_eq, Ha. cbn [andb].
      pose proof (fold_opt d f i ys (rf_init (opt_f d f i)) eq_refl) as E. unfold seen in E at 1.
      destruct (o_has (fold_left _ ys _)); destruct (forallb o_has ys); try discriminate.
      * injection E as E. unfold seen. cbn [o_has o_value]. f_equal.
        transitivity (f (o_value a) (fold_left f (map o_value ys) i)); [f_equal; exact E|]. apply H.
        intros Hm. apply Hne. destruct ys; [reflexivity|discriminate].
      * reflexivity.
    + rewrite merge_eq. destruct (_ && _); [discriminate|reflexivity].
    + intros E. apply fold_canon; assumption.
  - rewrite (op_missing d f i ys a) by assumption. rewrite merge_eq, Ha. reflexivity.
Qed.
Lemma flag_law : merge_law flag_f.
Proof. intros a ys _. rewrite !fold_flag. cbn. rewrite andb_true_r. reflexivity. Qed.

Lemma reduce_lemma : forall (A : Type) (d : A) (f : A -> A -> A) (i : A) (dflt : opt A) (dv : A) (df : bool) (esh : list Z)
    (e : sexp (opt A)) (v : sexp A) (h : sexp bool) (ev : list Z -> opt A) (axes : list Z) (keep : bool) (initial : option A),
  Z.of_nat (length esh) < 2 ^ 64 -> is_shape esh -> valid_axes (length esh) axes ->
  has_elements esh e ev -> has_elements esh v (fun ix => o_value (ev ix)) -> has_elements esh h (fun ix => o_has (ev ix)) ->
  law_if_needed (val_f f i) axes initial ->
  exists r rv rh, make_reducer esh axes keep (option_map (fun x => mk_opt x true) initial) = Ok r /\
    make_reducer esh axes keep initial = Ok rv /\ make_reducer esh axes keep (option_map (fun _ => true) initial) = Ok rh /\
    forall ix, in_bounds (red_shape keep axes esh) ix ->
      exists o x b, rs_element (opt_f d f i) dflt esh (x_ops esh e) (x_deref e) r (x_begin e) ix = Ok o /\
        rs_element (val_f f i) dv esh (x_ops esh v) (x_deref v) rv (x_begin v) ix = Ok x /\
        rs_element flag_f df esh (x_ops esh h) (x_deref h) rh (x_begin h) ix = Ok b /\
        seen o = seen (mk_opt x b) /\
        seen o = let es := map ev (block row_major keep axes esh ix) in
                 if forallb o_has es then Some (fold_left f (map o_value es) (match initial with Some x => x | None => i end)) else None.
Proof.
  intros A d f i dflt dv df esh e v h ev axes keep initial Hlen Hsh Hax He Hv Hh Hlaw.
  destruct (lazy_elements_lemma (opt_f d f i) dflt esh e ev axes keep (option_map (fun x => mk_opt x true) initial) Hlen Hsh Hax He) as (r & E1 & _ & X1 & _).
  { destruct Hlaw as [[H1 ->]|H]; [left; auto|right; apply opt_law; exact H]. }
  destruct (lazy_elements_lemma (val_f f i) dv esh v _ axes keep initial Hlen Hsh Hax Hv Hlaw) as (rv & E2 & _ & X2 & _).
  destruct (lazy_elements_lemma flag_f df esh h _ axes keep (option_map (fun _ => true) initial) Hlen Hsh Hax Hh) as (rh & E3 & _ & X3 & _).
  { right. exact flag_law. }
  exists r, rv, rh. split; [exact E1|]. split; [exact E2|]. split; [exact E3|]. intros ix Hb.
  specialize (X1 [] ix Hb). specialize (X2 [] ix Hb). specialize (X3 [] ix Hb). cbn [app] in *.
  eexists _, _, _. split; [exact X1|]. split; [exact X2|]. split; [exact X3|].
  set (es := map ev (block row_major keep axes esh ix)).
  assert (S1 : seen (reduced (opt_f d f i) (option_map (fun x => mk_opt x true) initial) row_major keep axes esh ev ix) =
    if forallb o_has es then Some (fold_left f (map o_value es) (match initial with Some x => x | None => i end)) else None).
  { unfold reduced. fold es. rewrite fold_opt by (destruct initial; reflexivity). destruct initial; reflexivity. }
  rewrite S1. split; [|reflexivity].
  unfold seen. cbn [o_has o_value]. unfold reduced. rewrite fold_flag.
  replace (map (fun ix => o_has (ev ix)) (block row_major keep axes esh ix)) with (map o_has es) by (unfold es; rewrite map_map; reflexivity).
  replace (map (fun ix => o_value (ev ix)) (block row_major keep axes esh ix)) with (map o_value es) by (unfold es; rewrite map_map; reflexivity).
  replace (forallb (fun b => b) (map o_has es)) with (forallb o_has es) by (clear; induction es; cbn; congruence).
  destruct initial; cbn; destruct (forallb o_has es); reflexivity.
Qed.
