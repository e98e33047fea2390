(** Accumulators: statements for the properties, counterexamples. *)
From Coq Require Import List ZArith Lia Bool.
From Verif Require Import Prelude PreludeFacts Strides_Model Strides_Spec Strides_Proofs Access_Model Container_Model Container_Spec Container_Proofs
  Stepper_Proofs Reduce3_Proofs Reduce7_Proofs Reduce13_Proofs Reduce15_Proofs Accum_Model Accum_Spec Accum_Proofs Accum2_Proofs.
Import ListNotations.
Open Scope Z_scope.

Lemma norm_axis dim axis : 0 <= dim < 2 ^ 63 -> - dim <= axis < dim ->
  to_size_t (if axis <? 0 then dim + axis else axis) = axis mod dim.
Proof.
  intros Hd Ha. destruct (Z.ltb_spec axis 0).
  - rewrite to_size_t_id by lia. rewrite <- (Z.mod_add axis 1) by lia. rewrite Z.mod_small; lia.
  - rewrite to_size_t_id by lia. rewrite Z.mod_small; lia.
Qed.

Lemma axis_full_lemma {R : Type} (f : R -> R -> R) (init : option (R -> R)) (c : cont R) (ev : list Z -> R) (axis : Z) :
  consistent c -> is_order (ct_layout c) -> documented c -> prod (ct_shape c) < 2 ^ 64 ->
  Z.of_nat (length (ct_shape c)) < 2 ^ 63 ->
  (forall jx, in_bounds (ct_shape c) jx -> elt c jx = Ok (ev jx)) ->
  - Z.of_nat (length (ct_shape c)) <= axis < Z.of_nat (length (ct_shape c)) ->
  let ax := Z.to_nat (axis mod Z.of_nat (length (ct_shape c))) in
  (init <> None -> no_units (firstn ax (ct_shape c)) /\ no_units (skipn (S ax) (ct_shape c))) ->
  exists r, accumulate_axis f (ct_layout c) init c axis = Ok r /\ consistent r /\ ct_shape r = ct_shape c /\ ct_layout r = ct_layout c /\
    forall ix, in_bounds (ct_shape c) ix -> elt r ix = Ok (accumulated f (init_fun init) ev ax ix).
Proof.
  intros Hc Hl Hd Hs Hsm He Ha ax Hu. unfold accumulate_axis. rewrite norm_axis by lia.
  pose proof (Z.mod_pos_bound axis (Z.of_nat (length (ct_shape c))) ltac:(lia)) as Hm.
  destruct (Z.leb_spec (Z.of_nat (length (ct_shape c))) (axis mod Z.of_nat (length (ct_shape c)))); [lia|]. fold ax.
  assert (Hax : (ax < length (ct_shape c))%nat) by (unfold ax; lia).
  assert (Esh : ct_shape c = firstn ax (ct_shape c) ++ nth ax (ct_shape c) 0 :: skipn (S ax) (ct_shape c)).
  { rewrite <- (firstn_skipn ax (ct_shape c)) at 1. f_equal. apply skipn_cons_nth. apply nth_error_nth'. exact Hax. }
  assert (Lf : length (firstn ax (ct_shape c)) = ax) by (rewrite firstn_length; lia).
  destruct (Z.eq_dec (nth ax (ct_shape c) 0) 0) as [E0|E0].
  - exists c. split.
    + unfold acc_axis. destruct (Nat.leb_spec (length (ct_shape c)) ax); [lia|]. rewrite (rd_nth 0) by exact Hax. cbn [bind]. rewrite E0. reflexivity.
    + split; [exact Hc|]. split; [reflexivity|]. split; [reflexivity|]. intros ix Hb. exfalso. apply (in_bounds_nth _ _ ax) in Hb; [lia|exact Hax].
  - assert (Hn : 0 < nth ax (ct_shape c) 0).
    { assert (0 <= nth ax (ct_shape c) 0); [|lia]. assert (Hs' : is_shape (ct_shape c)) by apply Hc. unfold is_shape in Hs'. rewrite Forall_forall in Hs'. apply Hs', nth_In, Hax. }
    pose proof (acc_axis_good f c (firstn ax (ct_shape c)) (nth ax (ct_shape c) 0) (skipn (S ax) (ct_shape c)) ev init Esh Hc Hl Hd Hs He Hu Hn) as G.
    rewrite Lf in G. exact G.
Qed.

Lemma bad_axis_lemma {R : Type} (f : R -> R -> R) (SL : layout) (init : option (R -> R)) (c : cont R) (axis : Z) :
  Z.of_nat (length (ct_shape c)) < 2 ^ 63 -> - 2 ^ 63 <= axis < 2 ^ 63 ->
  ~ - Z.of_nat (length (ct_shape c)) <= axis < Z.of_nat (length (ct_shape c)) ->
  accumulate_axis f SL init c axis = Throw runtime_error.
Proof.
  intros Hd Ha Hn. unfold accumulate_axis. 
  destruct (Z.leb_spec (Z.of_nat (length (ct_shape c))) (to_size_t (if axis <? 0 then Z.of_nat (length (ct_shape c)) + axis else axis))) as [H|H]; [reflexivity|exfalso].
  destruct (Z.ltb_spec axis 0).
  - unfold to_size_t in H. rewrite <- (Z.mod_add _ 1) in H by lia. rewrite Z.mod_small in H by lia. lia.
  - rewrite to_size_t_id in H by lia. lia.
Qed.

(** ** Documented strides are an invariant *)
Lemma computed_documented {V} SL sh lay (d : list V) st bs ds : (SL <> dynamic -> lay = SL) ->
  compute_strides SL sh lay (repeat 0 (length sh)) (Some (repeat 0 (length sh))) = Ok (st, Some bs, ds) -> documented (mk_cont sh st bs lay d).
Proof.
  intros Hlay. rewrite compute_strides_ok by (cbn; rewrite ?repeat_length; reflexivity). intros E. injection E as <- _ _.
  intros Ho _. cbn [ct_layout ct_shape ct_strides] in *.
  assert (E : layout_eqb SL row_major || layout_eqb lay row_major = layout_eqb lay row_major).
  { pose proof (order_of_reported SL lay Hlay Ho) as X. unfold order_of in X. destruct Ho as [ -> | -> ]; cbn in *; [apply orb_true_r|]. destruct (_ || _); [discriminate X|reflexivity]. }
  rewrite E. destruct Ho as [ -> | -> ]; cbn [layout_eqb].
  - split; [apply row_strides_length|]. intros k Hk. unfold row_strides. rewrite (nth_indep _ 0 (row_stride sh 0)) by (rewrite map_length, seq_length; exact Hk).
    rewrite map_nth, seq_nth by exact Hk. reflexivity.
  - split; [apply col_strides_length|]. intros k Hk. unfold col_strides. rewrite (nth_indep _ 0 (col_stride sh 0)) by (rewrite map_length, seq_length; exact Hk).
    rewrite map_nth, seq_nth by exact Hk. reflexivity.
Qed.

Section History.
Context {V : Type} (SL DL : layout) (rs : list V -> Z -> list V).
Definition dinv (c : cont V) : Prop := documented c /\ lay_ok SL c.

Lemma set_shape_doc (c c' : cont V) sh lay : (SL <> dynamic -> lay = SL) -> c_set_shape SL c sh lay = Ok c' -> dinv c'.
Proof.
  intros Hlay. unfold c_set_shape. destruct (compute_strides _ _ _ _ _) as [[[st [bs|]] ds]| |] eqn:E; cbn [bind]; intros X; try discriminate X.
  injection X as <-. split; [eapply computed_documented; [exact Hlay|exact E]|exact Hlay].
Qed.

Lemma resize_doc (c c' : cont V) sh b : lay_ok SL c -> (b = false -> documented c) -> c_resize SL DL rs c sh b = Ok c' -> dinv c'.
Proof.
  intros Hlay Hc. unfold c_resize. destruct (negb (Slice_Model.zlist_eqb sh (ct_shape c)) || b) eqn:Eb.
  2:{ intros X; injection X as <-. apply orb_false_iff in Eb. split; [apply Hc, Eb|exact Hlay]. }
  cbv zeta.
  set (lay := if layout_eqb SL dynamic && layout_eqb (ct_layout c) dynamic then DL else ct_layout c).
  assert (Hl2 : SL <> dynamic -> lay = SL).
  { intros H. unfold lay. apply layout_eqb_neq in H. rewrite H. cbn. apply Hlay. apply layout_eqb_neq. exact H. }
  destruct (compute_strides _ _ _ _ _) as [[[st [bs|]] ds]| |] eqn:E; cbn [bind]; intros X; try discriminate X.
  injection X as <-. split; [eapply computed_documented; [exact Hl2|exact E]|exact Hl2].
Qed.

Lemma do_doc (c c' : cont V) o : dinv c -> op_ok SL c o -> (forall d, o = C_assign d -> documented d) -> c_do SL DL rs c o = Ok c' -> dinv c'.
Proof.
  intros [Hc Hlay] Hok Ha. destruct o as [s b|s l|s st|s l|s l|d|ix v]; cbn [c_do op_ok] in *.
  - apply resize_doc; auto.
  - unfold c_resize_layout. destruct (negb (layout_eqb SL dynamic) && negb (layout_eqb l SL)) eqn:E; [discriminate|].
    apply resize_doc; [|discriminate]. intros H. cbn. apply layout_eqb_neq in H. rewrite H in E. cbn in E. apply negb_false_iff, layout_eqb_eq in E. exact E.
  - contradiction.
  - unfold c_reshape_unsigned. destruct (negb _); [discriminate|]. cbv zeta.
    destruct (negb (layout_eqb SL dynamic) && _) eqn:E; [discriminate|]. apply set_shape_doc.
    intros H. apply layout_eqb_neq in H. rewrite H in E |- *. cbn in E |- *. apply negb_false_iff, layout_eqb_eq in E. exact E.
  - unfold c_reshape_signed. cbv zeta. destruct (crem _ _); cbn [bind]; try discriminate. destruct (negb _); [discriminate|].
    destruct (neg_loop s) as [[acc n] k]. destruct Hok as (_ & _ & _ & Hl). destruct (acc <? 0).
    + destruct (cdiv _ _); cbn [bind]; try discriminate. destruct (wr _ _ _); cbn [bind]; try discriminate. apply set_shape_doc, Hl.
    + destruct (negb _); [discriminate|]. apply set_shape_doc, Hl.
  - intros X. injection X as <-. split; [apply Ha; reflexivity|]. exact (proj2 Hok).
  - destruct (wrz _ _ _); cbn [bind]; try discriminate. intros X. injection X as <-. split; [exact Hc|exact Hlay].
Qed.

Lemma run_doc : forall os (c c' : cont V), dinv c -> history_ok SL DL rs c os -> (forall d, In (C_assign d) os -> documented d) ->
  c_run SL DL rs c os = Ok c' -> dinv c'.
Proof.
  induction os as [|o os IH]; intros c c' Hc Hok Ha; cbn [c_run]; [intros X; injection X as <-; exact Hc|].
  cbn [history_ok] in Hok. destruct Hok as [Ho Hrest].
  assert (Ha' : forall d, In (C_assign d) os -> documented d) by (intros d X; exact (Ha d (or_intror X))).
  destruct (c_step SL DL rs c o) as [c1| |] eqn:Es; cbn [bind]; try discriminate.
  apply IH; [|apply Hrest; reflexivity|exact Ha'].
  unfold c_step in Es. destruct (c_do SL DL rs c o) as [c2| |] eqn:E; try discriminate Es; injection Es as <-; [|exact Hc].
  eapply do_doc; [exact Hc|exact Ho| |exact E]. intros d ->. apply Ha. left. reflexivity.
Qed.
End History.

Lemma documented_lemma {V : Type} (SL DL : layout) (rs : list V -> Z -> list V) (n : nat) (v : V) os (c : cont V) :
  history_ok SL DL rs (c_default SL n v) os -> (forall d, In (C_assign d) os -> documented d) ->
  c_run SL DL rs (c_default SL n v) os = Ok c -> documented c.
Proof.
  intros Hok Ha Hr. apply (run_doc SL DL rs os (c_default SL n v) c); try assumption. split.
  - intros _ Hz. exfalso. apply Hz. cbn. clear. induction n; constructor; auto.
  - intros _. reflexivity.
Qed.

(** ** Without axis *)
Lemma flat_loop_ok {R} (f : R -> R -> R) : forall (vals : list R) pre a post, length post = length vals ->
  exists d, fold_left (fun s v =>
    let* '(idx, data) := s in
    let* a := rdz data idx in
    let* data := wrz data (idx + 1) (f a v) in
    Ok (idx + 1, data)) vals (Ok (Z.of_nat (length pre), pre ++ a :: post)) = Ok (Z.of_nat (length pre + length vals), pre ++ a :: d) /\
    length d = length vals /\ forall k, (k < length vals)%nat -> nth_error d k = Some (fold_left f (firstn (S k) vals) a).
Proof.
  induction vals as [|v vals IH]; intros pre a post Hl.
  - destruct post; [|discriminate Hl]. exists []. cbn. rewrite Nat.add_0_r. split; [reflexivity|]. split; [reflexivity|]. intros; lia.
  - destruct post as [|x post]; [discriminate Hl|]. cbn [fold_left bind].
    rewrite (rdz_ok _ _ a); [|lia|rewrite Nat2Z.id, nth_error_app2, Nat.sub_diag by lia; reflexivity]. cbn [bind].
    rewrite wrz_ok by (rewrite app_length; cbn; lia). cbn [bind].
    replace (Z.to_nat (Z.of_nat (length pre) + 1)) with (length (pre ++ [a])) by (rewrite app_length; cbn; lia).
    replace (pre ++ a :: x :: post) with ((pre ++ [a]) ++ x :: post) by (rewrite <- app_assoc; reflexivity). rewrite upd_mid.
    replace (Z.of_nat (length pre) + 1) with (Z.of_nat (length (pre ++ [a]))) by (rewrite app_length; cbn; lia).
    destruct (IH (pre ++ [a]) (f a v) post ltac:(cbn in Hl; lia)) as (d & E & Ld & Hd). rewrite E.
    exists (f a v :: d). split.
    + rewrite app_length. cbn [length]. rewrite <- app_assoc. cbn [app]. do 3 f_equal. lia.
    + split; [cbn; lia|]. intros [|k] Hk; [reflexivity|]. cbn [nth_error]. rewrite Hd by (cbn in Hk; lia). reflexivity.
Qed.

Lemma flat_full_lemma {R : Type} (f : R -> R -> R) (SL DL : layout) (fresh : list R -> Z -> list R) (r0 : R) (dim : option nat)
    (init : option (R -> R)) (vals : list R) :
  (forall d n, 0 <= n -> Z.of_nat (length (fresh d n)) = n) -> is_order SL \/ (SL = dynamic /\ is_order DL) -> dim = None \/ dim = Some 1%nat ->
  exists r, acc_flat f SL DL fresh r0 dim init vals = Ok r /\ consistent r /\ ct_shape r = [Z.of_nat (length vals)] /\
    forall k, (k < length vals)%nat -> elt r [Z.of_nat k] = Ok (accumulated_seq f (init_fun init) vals r0 k).
Proof.
  intros Hf HSL Hdim. unfold acc_flat.
  assert (Es : match dim with Some n => Z.of_nat (length vals) :: repeat 0 (n - 1) | None => [Z.of_nat (length vals)] end = [Z.of_nat (length vals)])
    by (destruct Hdim as [ -> | -> ]; reflexivity). rewrite Es. clear Es. cbv zeta.
  set (n0 := match dim with Some n => n | None => 0%nat end).
  destruct (resize_layout_ok SL DL fresh Hf (c_default SL n0 r0) [Z.of_nat (length vals)] SL) as [(H1 & H2 & _)|(_ & r & E & Hr & _ & Hsh & Hlay)];
    [repeat constructor; lia|congruence|]. rewrite E. cbn [bind].
  assert (Hord : is_order (ct_layout r)).
  { rewrite Hlay. destruct HSL as [H|[ -> H]]; [|exact H]. destruct H as [ -> | -> ]; [left|right]; reflexivity. }
  pose proof Hr as (_ & Hr2 & Hr3 & Hlen & Hr5). rewrite Hsh in Hlen. rewrite prod_cons, prod_nil, Z.mul_1_r in Hlen.
  destruct vals as [|v vals].
  - exists r. split; [reflexivity|]. split; [exact Hr|]. split; [exact Hsh|]. intros; cbn in *; lia.
  - destruct (ct_data r) as [|x rest] eqn:Ed; [cbn in Hlen; lia|]. rewrite wrz_ok by (cbn; lia). change (Z.to_nat 0) with 0%nat. cbn [bind upd].
    set (a := match init with Some g => g v | None => v end).
    destruct (flat_loop_ok f vals [] a rest) as (d & El & Ld & Hd); [cbn in Hlen; lia|].
    unfold flat_loop. cbn [app length] in El. change (Z.of_nat 0) with 0 in El. rewrite El. cbn [bind].
    eexists. split; [reflexivity|].
    assert (Hcr : consistent (mk_cont (ct_shape r) (ct_strides r) (ct_back r) (ct_layout r) (a :: d))).
    { destruct Hr as (H1 & H2 & H3 & H4 & H5). split; [exact H1|]. split; [exact H2|]. split; [exact H3|]. split; [|exact H5].
      cbn [ct_data ct_shape]. rewrite <- H4, Ed. cbn [length] in *. lia. }
    split; [exact Hcr|]. split; [exact Hsh|]. intros k Hk. unfold elt. cbn [ct_data ct_strides].
    destruct Hr5 as (l0 & Hl0 & El0 & Hoff). specialize (El0 Hord). subst l0.
    rewrite Hoff by (rewrite Hsh; repeat constructor; lia). rewrite Hsh.
    assert (Erk : rank (ct_layout r) [Z.of_nat (length (v :: vals))] [Z.of_nat k] = Z.of_nat k).
    { destruct Hord as [ -> | -> ]; cbn [rank row_pos col_pos]; rewrite ?prod_nil; lia. }
    rewrite Erk. apply rdz_ok; [lia|]. rewrite Nat2Z.id. unfold accumulated_seq, init_fun. cbn [hd tl].
    replace (match init with Some g => g | None => fun x0 => x0 end v) with a by (unfold a; destruct init; reflexivity).
    destruct k as [|k]; [reflexivity|]. cbn [nth_error]. apply Hd. cbn in Hk. lia.
Qed.

(** ** Counterexamples *)
Lemma flat_tensor_refuted_lemma : exists (vals : list Z),
  length vals = 6%nat /\ acc_flat Z.add row_major row_major fill_fresh 0 (Some 2%nat) None vals = UB.
Proof. exists [1;2;3;4;5;6]. split; reflexivity. Qed.

Lemma ck_documented s l d : is_order l -> documented (ck s l d).
Proof.
  intros Hl. unfold ck. destruct (compute_strides l s l _ _) as [[[st [bs|]] ds]| |] eqn:E.
  2,3,4: exfalso; rewrite compute_strides_ok in E by (cbn; rewrite ?repeat_length; reflexivity); cbn in E; discriminate E.
  eapply computed_documented; [|exact E]. auto.
Qed.

(** A dynamic container that happens to be row major *)
Definition dyn6 : cont Z := mk_cont [2;3] [3;1] [3;2] row_major [1;2;3;4;5;6].

Lemma dynamic_refuted_lemma : exists (c r : cont Z),
  consistent c /\ documented c /\ ct_layout c = row_major /\ ct_shape c = [2;3] /\ ct_data c = [1;2;3;4;5;6] /\
  accumulate_axis Z.add dynamic None c 1 = Ok r /\ elt r [1;0] = Ok 10 /\ accumulated Z.add (fun x => x) six_ev 1 [1;0] = 4.
Proof.
  exists dyn6. eexists. split; [exact ten_consistent|]. split; [apply (ck_documented [2;3] row_major [1;2;3;4;5;6]); left; reflexivity|].
  split; [reflexivity|]. split; [reflexivity|]. split; [reflexivity|]. split; [vm_compute; reflexivity|]. split; vm_compute; reflexivity.
Qed.

(** nancumsum: -1 plays the part of the NaN *)
Definition nan_add (a b : Z) : Z := if b =? -1 then a else a + b.
Definition nan_zero (a : Z) : Z := if a =? -1 then 0 else a.
Lemma init_unit_refuted_lemma : exists (c r : cont Z) (ev : list Z -> Z),
  consistent c /\ documented c /\ ct_layout c = row_major /\ ct_shape c = [2;1;2] /\ ct_data c = [1;2;-1;5] /\
  (forall jx, in_bounds (ct_shape c) jx -> elt c jx = Ok (ev jx)) /\
  accumulate_axis nan_add row_major (Some nan_zero) c 2 = Ok r /\ elt r [1;0;1] = Ok 4 /\ accumulated nan_add nan_zero ev 2 [1;0;1] = 5.
Proof.
  exists (ck [2;1;2] row_major [1;2;-1;5]). eexists. exists (fun ix => nth (Z.to_nat (nth 0 ix 0 * 2 + nth 2 ix 0)) [1;2;-1;5] 0).
  split; [ckc|]. split; [apply ck_documented; left; reflexivity|].
  split; [reflexivity|]. split; [reflexivity|]. split; [reflexivity|]. split.
  { intros jx H. inversion H as [|? x ? jx' Hx Hr]; subst. inversion Hr as [|? y ? jx'' Hy Hr']; subst. inversion Hr' as [|? z ? jx3 Hz Hn]; subst. inversion Hn; subst.
    assert (y = 0) by lia. subst y. assert (x = 0 \/ x = 1) as [ -> | -> ] by lia; assert (z = 0 \/ z = 1) as [ -> | -> ] by lia; reflexivity. }
  split; [vm_compute; reflexivity|]. split; vm_compute; reflexivity.
Qed.
