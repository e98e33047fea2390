(** Proofs about construction from nested initializer lists. *)
From Coq Require Import List ZArith Bool Lia.
From Verif Require Import Prelude PreludeFacts Strides_Model Strides_Spec Strides_Proofs Broadcast_Model Broadcast_Spec
  Broadcast_Proofs Broadcast2_Proofs Layout_Model Slice_Model Access_Model
  Stepper_Model Stepper_Spec Stepper_Proofs Stepper2_Proofs Stepper3_Proofs Stepper4_Proofs Container_Model Container_Spec Container_Proofs
  Assign_Model Assign_Spec Assign_Proofs Semantic_Model Semantic_Spec Semantic_Proofs Quantile_Proofs
  Fixed_Model Fixed_Spec Fixed_Proofs Init_Model Init_Spec.
Import ListNotations.
Open Scope Z_scope.

Section N.
Context {V : Type}.

Lemma nest_ind' (P : nest V -> Prop) : (forall v, P (NVal v)) -> (forall l, Forall P l -> P (NList l)) -> forall t, P t.
Proof.
  intros H1 H2. fix IH 1. intros [v|l]; [apply H1|]. apply H2. induction l as [|x l IHl]; constructor; [apply IH|exact IHl].
Qed.

(** ** Shapes *)
Lemma cut_length sh : length (cut sh) = length sh.
Proof. induction sh as [|d sh IH]; cbn; [reflexivity|]. destruct (d =? 0); [rewrite repeat_length|rewrite IH]; reflexivity. Qed.

Lemma regular_cut : forall sh (t : nest V), regular sh t -> regular (cut sh) t /\ is_shape (cut sh) /\ nested_shape (length sh) t = cut sh.
Proof.
  induction sh as [|d sh IH]; intros [v|l] H; cbn in H; try contradiction.
  - split; [exact I|]. split; [constructor|reflexivity].
  - destruct H as [Hl HF]. unfold nested_shape. cbn [length seq map]. rewrite <- seq_shift, map_map. cbn [initializer_shape_impl cut].
    destruct l as [|x l].
    + cbn in Hl. subst d. cbn [Z.eqb length Z.of_nat]. split; [split; [reflexivity|constructor]|]. split.
      * constructor; [lia|]. apply Forall_forall. intros y Hy. apply repeat_spec in Hy. lia.
      * change (Z.of_nat 0 =? 0) with true. cbn iota. f_equal. clear. induction (length sh) as [|n IHn]; [reflexivity|]. cbn [seq map repeat]. rewrite <- seq_shift, map_map. f_equal. exact IHn.
    + assert (d <> 0) by (cbn in Hl; lia). apply Z.eqb_neq in H. rewrite H. inversion HF as [|? ? Hx HF']; subst.
      destruct (IH x Hx) as (_ & Hs & He). split; [|split].
      * split; [reflexivity|]. eapply Forall_impl; [|exact HF]. intros y Hy. apply (IH y Hy).
      * constructor; [lia|exact Hs].
      * f_equal. exact He.
Qed.

(** ** Elements in order *)
Fixpoint flat (t : nest V) : list V :=
  match t with
  | NVal v => [v]
  | NList l => flat_map flat l
  end.

Lemma flat_length : forall sh t, regular sh t -> Z.of_nat (length (flat t)) = prod sh.
Proof.
  induction sh as [|d sh IH]; intros [v|l] H; cbn [regular] in H; try contradiction; cbn [flat].
  - reflexivity.
  - destruct H as [Hl HF]. rewrite prod_cons, <- Hl. clear Hl. induction HF as [|x l Hx HF IHl]; cbn [flat_map length]; [lia|].
    rewrite app_length, Nat2Z.inj_add, IHl, (IH x Hx). lia.
Qed.

Lemma nth_error_blocks (l : list (nest V)) (n : Z) : 0 <= n -> Forall (fun x => Z.of_nat (length (flat x)) = n) l ->
  forall i r x, nth_error l i = Some x -> 0 <= r < n ->
  nth_error (flat_map flat l) (Z.to_nat (Z.of_nat i * n + r)) = nth_error (flat x) (Z.to_nat r).
Proof.
  intros Hn HF. induction HF as [|y l Hy HF IH]; intros [|i] r x Hx Hr; cbn in Hx; try discriminate; cbn [flat_map].
  - injection Hx as ->. rewrite nth_error_app1 by lia. f_equal.
  - rewrite nth_error_app2 by nia. rewrite <- (IH i r x Hx Hr). f_equal. nia.
Qed.

Lemma flat_at : forall sh t ix, is_shape sh -> regular sh t -> in_bounds sh ix ->
  exists v, nest_at t ix = Some v /\ nth_error (flat t) (Z.to_nat (row_pos sh ix)) = Some v.
Proof.
  induction sh as [|d sh IH]; intros [v|l] ix Hs Hr Hb; cbn [regular] in Hr; try contradiction; inversion Hb; subst.
  - exists v. split; reflexivity.
  - destruct Hr as [Hl HF]. inversion Hs as [|? ? Hd Hs']; subst. cbn [row_pos nest_at flat].
    destruct (nth_error l (Z.to_nat y)) as [x|] eqn:Ex; [|apply nth_error_None in Ex; lia].
    assert (Hx : regular sh x) by (rewrite Forall_forall in HF; apply HF; eapply nth_error_In; exact Ex).
    destruct (IH x l' Hs' Hx H3) as (v & E1 & E2). exists v. split; [exact E1|]. rewrite <- E2.
    rewrite <- (Z2Nat.id y) at 1 by lia. apply nth_error_blocks; [|..].
    + apply prod_nn. exact Hs'.
    + eapply Forall_impl; [|exact HF]. intros z Hz. apply flat_length. exact Hz.
    + exact Ex.
    + apply row_pos_bound. exact H3.
Qed.

(** ** Copying in order *)
Section Put.
Context {I : Type} (put : I -> list V -> V -> res (I * list V)).
Fixpoint puts (vs : list V) (s : I * list V) : res (I * list V) :=
  match vs with [] => Ok s | v :: vs' => let* s := put (fst s) (snd s) v in puts vs' s end.
Lemma puts_app u w s : puts (u ++ w) s = let* s := puts u s in puts w s.
Proof. revert s. induction u as [|v u IH]; intros s; cbn; [reflexivity|]. destruct (put (fst s) (snd s) v) as [s'| |]; cbn; auto. Qed.
Lemma nested_copy_flat t : forall s, nested_copy put t s = puts (flat t) s.
Proof.
  induction t as [v|l IH] using nest_ind'; intros s; cbn [nested_copy flat].
  - cbn. destruct (put (fst s) (snd s) v) as [s'| |]; reflexivity.
  - revert s. induction IH as [|x l Hx IH IHl]; intros s; cbn [flat_map]; [reflexivity|].
    rewrite puts_app, Hx. destruct (puts (flat x) s) as [s'| |]; cbn [bind]; [apply IHl|reflexivity|reflexivity].
Qed.
End Put.

Lemma ptr_puts : forall vs u old w, length old = length vs ->
  puts ptr_put vs (Z.of_nat (length u), u ++ old ++ w) = Ok (Z.of_nat (length u + length vs), u ++ vs ++ w).
Proof.
  induction vs as [|v vs IH]; intros u [|o old] w H; cbn in H; try lia; cbn [puts app].
  - rewrite Nat.add_0_r. reflexivity.
  - unfold ptr_put at 1. cbn [fst snd]. rewrite wrz_mid. cbn [bind]. specialize (IH (u ++ [v]) old w ltac:(lia)).
    rewrite app_length in IH. cbn [length] in IH. rewrite <- !app_assoc in IH. cbn [app] in IH.
    replace (Z.of_nat (length u) + 1) with (Z.of_nat (length u + 1)) by lia. rewrite IH. do 3 f_equal. cbn [length]. lia.
Qed.

Lemma iter_puts (c : container) (all : list V) : writable c all -> Forall (fun d => 0 < d) (k_shape c) ->
  forall vs k it d, it_valid (k_shape c) row_major (XStrided c all) (Z.of_nat k) it ->
  length d = length all -> Z.of_nat (k + length vs) <= prod (k_shape c) ->
  exists it' d', puts (iter_put c) vs (it, d) = Ok (it', d') /\ length d' = length d /\
    forall ix, in_bounds (k_shape c) ix ->
      rdz d' (position c ix) = (if (row_pos (k_shape c) ix <? Z.of_nat k) || (Z.of_nat (k + length vs) <=? row_pos (k_shape c) ix) then rdz d (position c ix)
         else match nth_error vs (Z.to_nat (row_pos (k_shape c) ix) - k) with Some v => Ok v | None => UB end).
Proof.
  intros (Hs & Hst & Hpos & Hinj) Hp.
  assert (Hok : operands_ok (k_shape c) (XStrided c all)) by (split; [apply fits_self|exact Hst]).
  induction vs as [|v vs IH]; intros k it d Hv Hd Hle.
  - exists it, d. split; [reflexivity|]. split; [reflexivity|]. intros ix Hb. cbn [length]. rewrite Nat.add_0_r.
    destruct (Z.ltb_spec (row_pos (k_shape c) ix) (Z.of_nat k)), (Z.leb_spec (Z.of_nat k) (row_pos (k_shape c) ix)); try lia; reflexivity.
  - cbn [length] in Hle. destruct it as [[st jx] lin]. pose proof Hv as [Hlin [(Hb & Hk & Ha)|(He & _)]]; [|lia].
    destruct st as [|p| |]; try contradiction. destruct Ha as [Hlj Ep].
    assert (Eoff : k_offset c (k_shape c) = 0%nat) by (unfold k_offset; lia).
    rewrite Eoff in Ep. cbn [skipn] in Ep. assert (Ep' : p = position c jx) by exact Ep. clear Ep. subst p.
    pose proof (Hpos jx Hb) as Bp. cbn [puts fst snd]. unfold iter_put at 1. rewrite wrz_ok by lia. cbn [bind].
    change (x_ops (k_shape c) (XStrided c (upd d (Z.to_nat (position c jx)) v))) with (x_ops (k_shape c) (XStrided c all)).
    destruct (iv_inc row_major (k_shape c) (XStrided c all) (or_introl eq_refl) Hok Hp (Z.of_nat k) _ Hv ltac:(lia)) as (it' & Ei & Hv').
    rewrite Ei. cbn [bind]. replace (Z.of_nat k + 1) with (Z.of_nat (S k)) in Hv' by lia.
    destruct (IH (S k) it' (upd d (Z.to_nat (position c jx)) v) Hv' ltac:(rewrite upd_length; exact Hd) ltac:(lia)) as (it2 & d2 & E2 & L2 & R2).
    exists it2, d2. split; [exact E2|]. split; [rewrite L2; apply upd_length|].
    intros ix Hbi. rewrite (R2 ix Hbi). pose proof (Hpos ix Hbi) as Bi. pose proof (row_pos_bound _ _ Hbi) as Br.
    cbn [posn] in Hk. set (r := row_pos (k_shape c) ix) in *.
    destruct (Z.eq_dec r (Z.of_nat k)) as [Er|Er].
    + assert (ix = jx) as -> by (eapply row_pos_inj; eauto; unfold r in Er; congruence).
      destruct (Z.ltb_spec r (Z.of_nat (S k))); [|lia]. cbn [orb].
      destruct (Z.ltb_spec r (Z.of_nat k)); [lia|]. destruct (Z.leb_spec (Z.of_nat (k + length (v :: vs))) r); [cbn [length] in *; lia|]. cbn [orb].
      replace (Z.to_nat r - k)%nat with 0%nat by lia. cbn [nth_error].
      apply rdz_ok; [lia|]. apply nth_error_upd_same. lia.
    + assert (rdz (upd d (Z.to_nat (position c jx)) v) (position c ix) = rdz d (position c ix)) as ->.
      { assert (Hn : position c ix <> position c jx) by (intros Heq; apply Er; apply Hinj in Heq; [subst ix; exact Hk|exact Hbi|exact Hb]).
        unfold rdz. destruct (position c ix <? 0); [reflexivity|]. unfold rd. rewrite nth_error_upd_other by lia. reflexivity. }
      destruct (Z.ltb_spec r (Z.of_nat (S k))), (Z.ltb_spec r (Z.of_nat k)); try lia; cbn [orb]; [reflexivity|].
      replace (S k + length vs)%nat with (k + length (v :: vs))%nat by (cbn [length]; lia).
      destruct (Z.of_nat (k + length (v :: vs)) <=? r); [reflexivity|].
      replace (Z.to_nat r - k)%nat with (S (Z.to_nat r - S k)) by lia. reflexivity.
Qed.

(** ** Filling a container *)
Lemma with_data_wf SL D (a : cont V) d : well_formed SL D a -> length d = length (ct_data a) -> well_formed SL D (with_data a d).
Proof. intros (H1 & H2 & H3 & H4) Hl. split; [exact H1|]. split; [exact H2|]. split; [cbn; rewrite Hl; exact H3|exact H4]. Qed.
Lemma elt_position SL D (a : cont V) ix : well_formed SL D a -> in_bounds (ct_shape a) ix -> elt a ix = rdz (ct_data a) (position (c_strided a) ix).
Proof.
  intros (_ & (H2 & _) & _) Hb. unfold elt, position. cbn in *. rewrite element_offset_same; [reflexivity|].
  rewrite (in_bounds_length _ _ Hb). symmetry. exact H2.
Qed.

Lemma ptr_fill SL D (a : cont V) t : well_formed SL D a -> regular (ct_shape a) t ->
  (forall ix, in_bounds (ct_shape a) ix -> dot ix (ct_strides a) = row_pos (ct_shape a) ix) ->
  exists a', (let* '(_, d) := nested_copy ptr_put t (0, ct_data a) in Ok (with_data a d)) = Ok a' /\ well_formed SL D a' /\ ct_shape a' = ct_shape a /\
    forall ix, in_bounds (ct_shape a) ix -> exists v, nest_at t ix = Some v /\ elt a' ix = Ok v.
Proof.
  intros Hw Hr Hrow. pose proof Hw as (Hs & _ & Hlen & _).
  assert (Hf : length (ct_data a) = length (flat t)) by (pose proof (flat_length _ _ Hr); lia).
  rewrite nested_copy_flat. pose proof (ptr_puts (flat t) [] (ct_data a) [] Hf) as E. cbn [app length Nat.add] in E. rewrite !app_nil_r in E.
  change (Z.of_nat 0) with 0 in E. rewrite E. cbn [bind]. eexists. split; [reflexivity|].
  assert (Hw' : well_formed SL D (with_data a (flat t))) by (apply with_data_wf; [exact Hw|congruence]).
  split; [exact Hw'|]. split; [reflexivity|]. intros ix Hb. destruct (flat_at _ _ _ Hs Hr Hb) as (v & E1 & E2). exists v. split; [exact E1|].
  rewrite (elt_position SL D _ ix Hw') by exact Hb. unfold position. cbn. rewrite Hrow by exact Hb.
  apply rdz_ok; [apply row_pos_bound; exact Hb|exact E2].
Qed.

Lemma fill_nested_ok SL D (a : cont V) t : well_formed SL D a -> regular (ct_shape a) t ->
  exists a', fill_nested SL a t = Ok a' /\ well_formed SL D a' /\ ct_shape a' = ct_shape a /\
    forall ix, in_bounds (ct_shape a) ix -> exists v, nest_at t ix = Some v /\ elt a' ix = Ok v.
Proof.
  intros Hw Hr. pose proof Hw as (Hs & Hst & Hlen & HSL & Hany & Hlay & HD & l & Hl & Hl2 & Hrk). unfold fill_nested.
  destruct (layout_eqb SL row_major) eqn:EL.
  - assert (SL = row_major) by (destruct SL; cbn in EL; congruence). subst SL.
    apply (ptr_fill row_major D); auto. intros ix Hb. rewrite Hrk by exact Hb.
    assert (l = row_major) as -> by (rewrite Hlay in Hl2 by discriminate; apply Hl2; left; reflexivity). reflexivity.
  - cbn [it_make bind]. rewrite nested_copy_flat. pose proof (flat_length _ _ Hr) as Hf. pose proof (wf_writable SL D a Hw) as Hwr.
    destruct (Z.eq_dec (prod (ct_shape a)) 0) as [H0|H0].
    + assert (flat t = []) as -> by (destruct (flat t); [reflexivity|cbn in Hf; lia]). cbn [puts bind].
      eexists. split; [reflexivity|]. split; [apply with_data_wf; auto|]. split; [reflexivity|].
      intros ix Hb. pose proof (row_pos_bound _ _ Hb). lia.
    + assert (Hp : Forall (fun d => 0 < d) (k_shape (c_strided a))) by (apply prod_nonneg_pos; [exact Hs|pose proof (prod_nn _ Hs); cbn; lia]).
      destruct (x_begin_valid row_major (ct_shape a) (XStrided (c_strided a) (ct_data a)) (or_introl eq_refl)) as (b & Eb & Hv).
      { split; [apply fits_self|exact Hst]. }
      { exact Hp. }
      injection Eb as Eb. subst b.
      destruct (iter_puts (c_strided a) (ct_data a) Hwr Hp (flat t) 0 _ (ct_data a) Hv eq_refl ltac:(cbn [Nat.add k_shape c_strided]; lia)) as (it' & d' & E & L & R).
      change (TPtr (xs_begin (c_strided a))) with (TPtr 0). rewrite E. cbn [bind]. eexists. split; [reflexivity|].
      assert (Hw' : well_formed SL D (with_data a d')) by (apply with_data_wf; assumption).
      split; [exact Hw'|]. split; [reflexivity|]. intros ix Hb. destruct (flat_at _ _ _ Hs Hr Hb) as (v & E1 & E2). exists v. split; [exact E1|].
      rewrite (elt_position SL D _ ix Hw') by exact Hb. change (position (c_strided (with_data a d')) ix) with (position (c_strided a) ix).
      cbn [ct_data with_data]. rewrite (R ix Hb). cbn [k_shape c_strided Nat.add]. pose proof (row_pos_bound _ _ Hb).
      destruct (Z.ltb_spec (row_pos (ct_shape a) ix) (Z.of_nat 0)); [lia|]. destruct (Z.leb_spec (Z.of_nat (length (flat t))) (row_pos (ct_shape a) ix)); [lia|].
      cbn [orb]. rewrite Nat.sub_0_r, E2. reflexivity.
Qed.


Lemma resized SL D DL rs (a : cont V) sh force : is_order DL -> resizes rs -> SL <> any -> ct_layout a = SL -> is_shape sh ->
  (zlist_eqb sh (ct_shape a) = false \/ force = true) -> match D with Some n => length sh = n | None => True end ->
  exists a', c_resize SL DL rs a sh force = Ok a' /\ well_formed SL D a' /\ ct_shape a' = sh.
Proof.
  intros HDL Hrs HSL Ha Hs Hor HD. unfold c_resize.
  assert (negb (zlist_eqb sh (ct_shape a)) || force = true) as -> by (destruct Hor as [ -> | -> ]; [reflexivity|apply orb_true_r]).
  set (lay := if layout_eqb SL dynamic && layout_eqb (ct_layout a) dynamic then DL else ct_layout a).
  assert (Hl1 : SL <> dynamic -> lay = SL).
  { intros Hn. unfold lay. apply layout_eqb_neq in Hn. rewrite Hn. exact Ha. }
  assert (Hl2 : lay <> any).
  { unfold lay. destruct (_ && _); [apply order_not_any; exact HDL|rewrite Ha; exact HSL]. }
  destruct (cs_strided SL lay sh) as (st & bs & E' & _). rewrite E'. cbn [bind].
  eexists. split; [reflexivity|]. split; [|reflexivity]. eapply resize_any_wf; eauto. apply Hrs. apply prod_nn. exact Hs.
Qed.

Lemma zlist_neq_length s t : length s <> length t -> zlist_eqb s t = false.
Proof. intros H. destruct (zlist_eqb s t) eqn:E; [|reflexivity]. apply zlist_eqb_eq in E. congruence. Qed.

Lemma c_init_ok SL D DL rs sh (t : nest V) : is_order DL -> resizes rs -> SL <> any -> regular sh t ->
  match D with Some n => length sh = n | None => True end ->
  exists a, c_init SL D DL rs (length sh) t = Ok a /\ well_formed SL D a /\ ct_shape a = cut sh /\
    forall ix, in_bounds (cut sh) ix -> exists v, nest_at t ix = Some v /\ elt a ix = Ok v.
Proof.
  intros HDL Hrs HSL Hreg HD. destruct (regular_cut sh t Hreg) as (Hr & Hs & En). unfold c_init. rewrite En.
  match goal with |- context [c_resize SL DL rs ?a ?s ?f] => destruct (resized SL D DL rs a s f) as (a1 & E1 & Hw1 & Es1) end; auto.
  { destruct D as [N|]; [right; reflexivity|]. destruct (Nat.eqb_spec (length sh) 0); [right; reflexivity|left].
    apply zlist_neq_length. rewrite cut_length. cbn. lia. }
  { rewrite cut_length. exact HD. }
  rewrite E1. cbn [bind]. rewrite <- Es1 in Hr.
  destruct ((length sh =? 0)%nat && _) eqn:EC.
  - apply andb_true_iff in EC. destruct EC as [EC _]. apply Nat.eqb_eq in EC. destruct sh; [|discriminate EC].
    destruct (ptr_fill SL D a1 t Hw1 Hr) as (a' & E & Hw' & Es & Hv).
    { intros ix Hb. rewrite Es1 in *. inversion Hb; subst. destruct Hw1 as (_ & (L & _) & _). cbn in L. rewrite Es1 in L. destruct (ct_strides a1); [reflexivity|discriminate L]. }
    exists a'. split; [exact E|]. split; [exact Hw'|]. split; [congruence|]. rewrite <- Es1. exact Hv.
  - destruct (fill_nested_ok SL D a1 t Hw1 Hr) as (a' & E & Hw' & Es & Hv). exists a'. split; [exact E|]. split; [exact Hw'|].
    split; [congruence|]. rewrite <- Es1. exact Hv.
Qed.

Lemma fixed_init_ok L X (d : list V) t : is_order L -> is_shape X -> fixed_storage X d -> regular X t ->
  exists a, fixed_init L X d t = Ok a /\ well_formed L (Some (length X)) a /\ ct_shape a = X /\
    forall ix, in_bounds X ix -> exists v, nest_at t ix = Some v /\ elt a ix = Ok v.
Proof. intros HL HX Hd Hr. exact (fill_nested_ok L (Some (length X)) (fixed L X d) t (fixed_wf L X d HL HX Hd) Hr). Qed.
End N.

(** ** Lists that are not rectangular *)
Definition nums (l : list Z) : nest Z := NList (map NVal l).
Definition rs_keep (d : list Z) (n : Z) : list Z := firstn (Z.to_nat n) d ++ repeat 7 (Z.to_nat n - length d).
Lemma rs_keep_ok : resizes rs_keep.
Proof. intros d n Hn. unfold rs_keep. rewrite app_length, repeat_length, firstn_length. lia. Qed.

Lemma ragged_lemma : exists (rs : list Z -> Z -> list Z) (long short : nest Z) (a : cont Z), resizes rs /\
  long = NList [nums [1; 2]; nums [3; 4; 5]] /\ short = NList [nums [1; 2; 3]; nums [4]] /\
  c_init row_major None row_major rs 2 long = UB /\ c_init column_major (Some 2%nat) row_major rs 2 long = UB /\
  c_init row_major None row_major rs 2 short = Ok a /\ ct_shape a = [2; 3] /\ elt a [1; 1] = Ok 7 /\ nest_at short [1; 1] = None.
Proof.
  exists rs_keep, (NList [nums [1; 2]; nums [3; 4; 5]]), (NList [nums [1; 2; 3]; nums [4]]). eexists.
  split; [apply rs_keep_ok|]. split; [reflexivity|]. split; [reflexivity|]. split; [vm_compute; reflexivity|]. split; [vm_compute; reflexivity|].
  split; [vm_compute; reflexivity|]. repeat split; reflexivity.
Qed.
Lemma fixed_list_lemma : exists (short long : nest Z) (a : cont Z),
  regular [2; 2] short /\ regular [2; 4] long /\
  fixed_init row_major [2; 3] [0; 0; 0; 0; 0; 0] short = Ok a /\ elt a [1; 0] = Ok 4 /\ nest_at short [1; 0] = Some 3 /\
  fixed_init row_major [2; 3] [0; 0; 0; 0; 0; 0] long = UB.
Proof.
  exists (NList [nums [1; 2]; nums [3; 4]]), (NList [nums [1; 2; 3; 4]; nums [5; 6; 7; 8]]). eexists.
  split; [repeat constructor|]. split; [repeat constructor|]. split; [vm_compute; reflexivity|]. repeat split; vm_compute; reflexivity.
Qed.
