(** Immediate reduction: lemmas behind the theorems. *)
From Coq Require Import List ZArith Lia Bool Sorted.
From Verif Require Import Prelude PreludeFacts Strides_Model Strides_Spec Strides_Proofs Stepper_Proofs Assign4_Proofs Manip_Proofs Container_Model Container_Spec Container_Proofs
  Reduce_Model Reduce_Spec Reduce_Proofs Reduce3_Proofs Reduce4_Proofs Reduce5_Proofs Reduce8_Proofs Reduce9_Proofs Reduce10_Proofs Reduce11_Proofs Reduce12_Proofs Reduce13_Proofs.
Import ListNotations.
Open Scope Z_scope.

Lemma with_data {V} (r : cont V) (d : list V) : consistent r -> length d = length (ct_data r) ->
  consistent (mk_cont (ct_shape r) (ct_strides r) (ct_back r) (ct_layout r) d).
Proof. intros (H1 & H2 & H3 & H4 & H5) E. unfold consistent. cbn [ct_shape ct_strides ct_back ct_layout ct_data]. rewrite E. auto. Qed.

Lemma with_data_elt {V} (r : cont V) (d : list V) ix v : consistent r -> is_order (ct_layout r) -> in_bounds (ct_shape r) ix ->
  nth_error d (Z.to_nat (rank (ct_layout r) (ct_shape r) ix)) = Some v ->
  elt (mk_cont (ct_shape r) (ct_strides r) (ct_back r) (ct_layout r) d) ix = Ok v.
Proof.
  intros Hc Hl Hb H. unfold elt. cbn [ct_data ct_strides]. rewrite (offset_rank r Hc Hl ix Hb).
  apply rdz_ok; [apply rank_bound; exact Hb|exact H].
Qed.

Section Imm.
Context {T R : Type} (f : rfun T R) (SL DL : layout) (conv : option (T -> R)) (fresh : list R -> Z -> list R) (r0 : R)
  (keep : bool) (initial : option R) (c : cont T) (axes : list Z) (ev : list Z -> T).
Let esh := ct_shape c.
Let l := ct_layout c.
Hypothesis Hfresh : forall d n, 0 <= n -> Z.of_nat (length (fresh d n)) = n.
Hypothesis Hc : consistent c.
Hypothesis Hl : is_order (ct_layout c).
Hypothesis HSL : SL = dynamic \/ SL = ct_layout c.
Hypothesis Hunit : unit_strides_zero c.
Hypothesis Hsmall : Z.of_nat (length (ct_shape c)) < 2 ^ 64.
Hypothesis He : forall jx, in_bounds (ct_shape c) jx -> elt c jx = Ok (ev jx).
Hypothesis Hv : valid_axes (length (ct_shape c)) axes.
Hypothesis Hpos : Forall (fun d => 0 < d) (ct_shape c) \/ axes = [] \/ length axes = length (ct_shape c).
Hypothesis Hcopy : copied (ct_layout c) axes (ct_shape c) -> initial = None /\ forall g x, conv = Some g -> g x = rf_reduce f (rf_init f) x.
Hypothesis Hlaw : law_if_needed f axes initial.
Hypothesis Hcomm : forall i, initial = Some i -> forall v, rf_merge f v i = rf_merge f i v.

Definition good_result (r : cont R) : Prop :=
  consistent r /\ ct_shape r = red_shape keep axes esh /\ ct_layout r = l /\
  forall ix, in_bounds (red_shape keep axes esh) ix -> elt r ix = Ok (reduced f initial l keep axes esh ev ix).

Lemma resized sh : is_shape sh -> exists r, c_resize_layout SL DL fresh (c_default SL 0 r0) sh l = Ok r /\ consistent r /\ ct_shape r = sh /\ ct_layout r = l.
Proof.
  intros Hs. destruct (resize_layout_ok SL DL fresh Hfresh (c_default SL 0 r0) sh l Hs) as [(H1 & H2 & _)|(_ & r & E & H1 & _ & H2 & H3)].
  - exfalso. destruct HSL as [X|X]; [apply H1; exact X|apply H2; symmetry; exact X].
  - exists r. split; [exact E|]. split; [exact H1|]. split; [exact H2|]. rewrite H3.
    replace (layout_eqb l dynamic) with false by (symmetry; apply layout_eqb_neq; unfold l; destruct Hl as [X|X]; rewrite X; discriminate).
    rewrite andb_false_r. reflexivity.
Qed.

Lemma esh_shape : is_shape esh. Proof. apply Hc. Qed.

(** Copying *)
Lemma copy_good (r : cont R) : copied l axes esh -> (forall j, (j < length esh)%nat -> In (Z.of_nat j) axes -> nth j esh 0 = 1) ->
  consistent r -> ct_shape r = red_shape keep axes esh -> ct_layout r = l ->
  exists r', (let d := copy_to_reduced f conv (ct_data c) in
    if (length d <=? length (ct_data r))%nat then Ok (mk_cont (ct_shape r) (ct_strides r) (ct_back r) (ct_layout r) (d ++ skipn (length d) (ct_data r))) else UB) = Ok r' /\ good_result r'.
Proof.
  intros Hcp Hu Hr Hrs Hrl. destruct (Hcopy Hcp) as [Hi Hg].
  assert (Ed : copy_to_reduced f conv (ct_data c) = map (fun x => rf_reduce f (rf_init f) x) (ct_data c)).
  { unfold copy_to_reduced. destruct conv as [g|]; [|reflexivity]. apply map_ext. intros x. apply Hg. reflexivity. }
  assert (Ep : prod (red_shape keep axes esh) = prod esh) by (apply (unit_prod keep axes esh 0); intros j Hj Hin; apply Hu; [exact Hj|exact Hin]).
  assert (Ln : length (ct_data r) = length (ct_data c)).
  { destruct Hr as (_ & _ & _ & H1 & _). destruct Hc as (_ & _ & _ & H2 & _). fold esh in H2. rewrite Hrs in H1. lia. }
  cbv zeta. rewrite Ed, map_length, Ln, Nat.leb_refl. rewrite <- Ln, skipn_all, app_nil_r.
  eexists. split; [reflexivity|]. split; [apply with_data; [exact Hr|rewrite map_length; symmetry; exact Ln]|].
  cbn [ct_shape ct_layout]. split; [exact Hrs|]. split; [exact Hrl|]. intros ix Hb.
  destruct (unit_onto keep axes esh 0 ix) as (jx & Hjb & Hji); [intros j Hj Hin; apply Hu; [exact Hj|exact Hin]|exact Hb|].
  change (red_index keep axes jx = ix) in Hji. apply with_data_elt; [exact Hr|rewrite Hrl; exact Hl|rewrite Hrs; exact Hb|].
  rewrite Hrl, Hrs, <- Hji, unit_rank by assumption. rewrite nth_error_map.
  change (rank l esh jx) with (rank (ct_layout c) (ct_shape c) jx). rewrite (data_at c ev Hc Hl He jx Hjb). cbn [option_map].
  unfold reduced. rewrite unit_block by assumption. rewrite Hi. reflexivity.
Qed.

Lemma block_eqb ix : block l keep axes esh ix = filter (fun jx => eqb_idx (red_index keep axes jx) ix) (indices_of l esh).
Proof. reflexivity. Qed.

(** The loops *)
Lemma initial_ok ys : ys <> [] ->
  match initial with Some i => rf_merge f (fold_left (rf_reduce f) ys (rf_init f)) i | None => fold_left (rf_reduce f) ys (rf_init f) end =
  fold_left (rf_reduce f) ys (match initial with Some i => i | None => rf_init f end).
Proof.
  intros Hy. destruct initial as [i|] eqn:Ei; [|reflexivity]. destruct Hlaw as [[_ H]|H]; [discriminate H|].
  rewrite (Hcomm i) by reflexivity. apply H. exact Hy.
Qed.

Lemma block_nonempty ix : Forall (fun d => 0 < d) esh -> in_bounds (red_shape keep axes esh) ix -> block l keep axes esh ix <> [].
Proof.
  intros Hp Hb. destruct (rix_onto keep axes esh 0 ix Hp Hb) as (jx & H1 & H2). intros E.
  assert (In jx (block l keep axes esh ix)) as X.
  { unfold block. apply filter_In. split; [apply indices_of_in; assumption|]. destruct (list_eq_dec _ _ _) as [|n]; [reflexivity|]. exfalso. apply n. exact H2. }
  rewrite E in X. destruct X.
Qed.

Lemma loop_good (r : cont R) (d : list R) : Forall (fun d => 0 < d) esh -> consistent r -> ct_shape r = red_shape keep axes esh -> ct_layout r = l -> length d = length (ct_data r) ->
  (forall ix, in_bounds (red_shape keep axes esh) ix ->
     nth_error d (Z.to_nat (rank l (red_shape keep axes esh) ix)) = Some (fold_left (rf_reduce f) (map ev (block l keep axes esh ix)) (rf_init f))) ->
  exists r', match initial with
        | Some i => Ok (mk_cont (ct_shape r) (ct_strides r) (ct_back r) (ct_layout r) (map (fun v => rf_merge f v i) d))
        | None => Ok (mk_cont (ct_shape r) (ct_strides r) (ct_back r) (ct_layout r) d)
        end = Ok r' /\ good_result r'.
Proof.
  intros Hp Hr Hrs Hrl Hld Hd.
  set (d' := match initial with Some i => map (fun v => rf_merge f v i) d | None => d end).
  exists (mk_cont (ct_shape r) (ct_strides r) (ct_back r) (ct_layout r) d'). split; [unfold d'; destruct initial; reflexivity|].
  split; [apply with_data; [exact Hr|unfold d'; destruct initial; rewrite ?map_length; exact Hld]|].
  cbn [ct_shape ct_layout]. split; [exact Hrs|]. split; [exact Hrl|]. intros ix Hb.
  apply with_data_elt; [exact Hr|rewrite Hrl; exact Hl|rewrite Hrs; exact Hb|]. rewrite Hrl, Hrs.
  specialize (Hd ix Hb). unfold reduced. rewrite <- initial_ok.
  - unfold d'. destruct initial as [i|]; [|exact Hd]. rewrite nth_error_map, Hd. reflexivity.
  - pose proof (block_nonempty ix Hp Hb). destruct (block l keep axes esh ix); [congruence|discriminate].
Qed.

Lemma canon : Forall (fun d => 0 < d) esh ->
  match l with row_major => canon_row esh (ct_strides c) | _ => canon_row (rev esh) (rev (ct_strides c)) end.
Proof.
  intros Hp. assert (Ls : length (ct_strides c) = length esh) by apply Hc.
  assert (Ho : forall ix, in_bounds esh ix -> dot ix (ct_strides c) = rank l esh ix).
  { intros ix Hb. pose proof (offset_rank c Hc Hl ix Hb) as X. rewrite element_offset_same in X by (rewrite Ls; apply in_bounds_length; exact Hb). exact X. }
  assert (Hr : canon_row (rev esh) (rev (ct_strides c)) \/ l <> column_major).
  { destruct Hl as [E|E]; [right; unfold l; rewrite E; discriminate|left]. apply canon_of.
    - apply Forall_rev. exact Hp.
    - rewrite !rev_length. exact Ls.
    - intros ix Hb. pose proof (in_bounds_rev _ _ Hb) as Hb'. rewrite rev_involutive in Hb'. pose proof (in_bounds_length _ _ Hb) as Lx. rewrite rev_length in Lx.
      rewrite <- (rev_involutive ix) at 1. rewrite dot_rev by (rewrite rev_length, Lx, Ls; reflexivity). rewrite Ho by exact Hb'. unfold l. rewrite E. cbn [rank].
      rewrite col_row by (rewrite rev_length; exact Lx). rewrite rev_involutive. reflexivity.
    - intros i Hi H1. rewrite rev_length in Hi. rewrite rev_nth in H1 by exact Hi. rewrite rev_nth by lia. rewrite Ls. apply Hunit; [unfold esh in *; lia|exact H1]. }
  destruct Hl as [E|E]; unfold l in *; rewrite E in *.
  - apply canon_of; try assumption.
  - destruct Hr as [Hr|Hr]; [exact Hr|congruence].
Qed.

Lemma immediate_lemma : exists r, reduce_immediate f SL DL conv fresh r0 keep initial c axes = Ok r /\ good_result r.
Proof.
  unfold reduce_immediate. fold esh. cbv zeta. destruct (Nat.eqb_spec (length axes) 0) as [E0|E0].
  { assert (Ea : axes = []) by (apply length_zero_iff_nil; exact E0).
    assert (Er : red_shape keep axes esh = esh).
    { unfold red_shape. rewrite Ea. destruct keep; [apply replaced_none|apply without_none]; intros j _ []. }
    destruct (resized esh esh_shape) as (r & E & H1 & H2 & H3). fold l. rewrite E. cbn [bind].
    apply copy_good; [left; exact Ea|rewrite Ea; intros j _ []|exact H1|rewrite Er; exact H2|exact H3]. }
  assert (Hne : axes <> []) by (intros X; rewrite X in E0; apply E0; reflexivity).
  rewrite check_axes_ok by (first [exact Hsmall|exact Hv]). cbn [bind].
  rewrite shape_computation_ok by exact Hv. cbn [bind].
  destruct (resized _ (red_shape_is keep axes esh esh_shape)) as (r & E & H1 & H2 & H3). fold l. rewrite E. cbn [bind].
  destruct (Nat.eqb_spec (length esh) (length axes)) as [Ed|Ed].
  - (* all axes *)
    assert (Hall := all_in _ _ Hv (eq_sym Ed)).
    assert (Ep : prod (red_shape keep axes esh) = 1).
    { unfold red_shape. destruct keep; [rewrite (replaced_all axes 1 esh 0) by (intros j Hj; apply Hall; exact Hj); apply prod_ones|].
      rewrite (without_all axes esh 0) by (intros j Hj; apply Hall; exact Hj). apply prod_nil. }
    assert (Ln : length (ct_data r) = 1%nat) by (destruct H1 as (_ & _ & _ & X & _); rewrite H2, Ep in X; lia).
    rewrite wr_ok by lia. cbn [bind]. eexists. split; [reflexivity|].
    split; [apply with_data; [exact H1|apply upd_length]|]. cbn [ct_shape ct_layout]. split; [exact H2|]. split; [exact H3|].
    intros ix Hb. apply with_data_elt; [exact H1|rewrite H3; exact Hl|rewrite H2; exact Hb|]. rewrite H2, H3.
    pose proof (rank_bound l _ _ Hb) as Hrk. rewrite Ep in Hrk. replace (Z.to_nat _) with 0%nat by lia.
    rewrite nth_error_upd_same by lia. f_equal. unfold reduced. f_equal.
    rewrite (data_list c ev Hc Hl He). f_equal. symmetry. fold esh l. unfold block. apply filter_all. intros jx Hj. apply indices_of_in in Hj; [|exact Hl].
    destruct (list_eq_dec Z.eq_dec (red_index keep axes jx) ix) as [|n]; [reflexivity|]. exfalso. apply n.
    apply (rank_inj l (red_shape keep axes esh)); [exact (rix_bounds keep axes esh 0 jx Hj)|exact Hb|].
    pose proof (rank_bound l _ _ (rix_bounds keep axes esh 0 jx Hj : in_bounds (red_shape keep axes esh) (red_index keep axes jx))) as X. rewrite Ep in X. lia.
  - assert (Hp : Forall (fun d => 0 < d) esh) by (destruct Hpos as [X|[X|X]]; [exact X|congruence|exfalso; apply Ed; symmetry; exact X]).
    pose proof (valid_axes_length _ _ Hv) as Hle. fold esh in Hle. pose proof (canon Hp) as Hcan.
    assert (Ls : length (ct_strides c) = length esh) by apply Hc.
    assert (Lr : length (ct_strides r) = length (red_shape keep axes esh)) by (rewrite <- H2; apply H1).
    assert (Lr' : length (ct_strides r) = length (red_shape keep axes (repeat 0 (length esh)))) by (rewrite Lr; apply red_shape_length; rewrite repeat_length; reflexivity).
    destruct (iter_strides_ok keep axes (length esh) (ct_strides r) Lr') as [n' Eit].
    pose proof (iter_st_length keep axes (length esh) (ct_strides r) Lr') as Lit.
    assert (Hit : forall jx, in_bounds esh jx -> dot jx (iter_st keep axes (length esh) (ct_strides r)) = rank l (red_shape keep axes esh) (red_index keep axes jx)).
    { intros jx Hb. pose proof (in_bounds_length _ _ Hb) as Lx. rewrite <- Lx. rewrite iter_st_dot by (rewrite Lr; symmetry; apply red_index_length; exact Lx).
      pose proof (rix_bounds keep axes esh 0 jx Hb : in_bounds (red_shape keep axes esh) (red_index keep axes jx)) as Hrb.
      rewrite <- element_offset_same by (rewrite Lr; apply in_bounds_length; exact Hrb). rewrite <- H2 in Hrb. rewrite <- H2, <- H3. apply offset_rank; [exact H1|rewrite H3; exact Hl|exact Hrb]. }
    assert (Hlaw' : (length axes <= 1)%nat \/ merge_law f) by (destruct Hlaw as [[X _]|X]; auto).
    assert (Hsz : Z.to_nat (prod esh) = Z.to_nat (compute_size esh)) by (rewrite compute_size_prod; reflexivity).
    assert (Hrd : Z.of_nat (length (ct_data r)) = prod (red_shape keep axes esh)) by (rewrite <- H2; apply H1).
    assert (Hcd : Z.of_nat (length (ct_data c)) = prod esh) by apply Hc.
    assert (Hl2 : l = row_major \/ l = column_major) by exact Hl.
    destruct Hl2 as [El|El]; rewrite El in Hcan, Hit; rewrite El; cbn [layout_eqb].
    + (* row major *)
      destruct (lead_ok f axes esh Hv Hne Hlaw') as (Elead & Hlead & Hin). set (lead := Z.to_nat (last axes 0)) in *.
      assert (Rl : rd axes (length axes - 1) = Ok (last axes 0)).
      { apply rd_ok. destruct (exists_last Hne) as (t & a & ->). rewrite app_length, last_last. cbn [length].
        rewrite nth_error_app2 by lia. replace (length t + 1 - 1 - length t)%nat with 0%nat by lia. reflexivity. }
      rewrite Rl. cbn [bind]. fold lead. rewrite (rd_nth 0) by lia. cbn [bind].
      destruct (find_stride_row esh (ct_strides c) Hcan Hp lead Hlead) as [[Ef _]|[Ef Hone]]; rewrite Ef.
      * pose proof (skipn_prod_pos esh (S lead) Hp). destruct (prod (skipn (S lead) esh) =? 0) eqn:Ez; [apply Z.eqb_eq in Ez; lia|].
        rewrite (rdz_ok esh _ (nth lead esh 0)); [|lia|apply nth_error_nth'; exact Hlead]. cbn [bind]. rewrite Eit. cbn [bind].
        destruct (kernel_lemma f keep axes esh Hp Hv Hne Hlaw' (ct_data c) ev (iter_st keep axes (length esh) (ct_strides r)) (ct_data r)) with (fuel := S (Z.to_nat (compute_size esh)))
          as (L & o & Em & HL & d & Eloop & Hld & Hd).
        -- intros jx Hb. pose proof (data_at c ev Hc Hl He jx Hb) as X. fold l in X. rewrite El in X. exact X.
        -- exact Hcd.
        -- exact Hrd.
        -- exact Lit.
        -- exact Hit.
        -- lia.
        -- fold lead in Em. rewrite Em. cbn [bind]. rewrite Nat2Z.id. fold lead in Eloop. rewrite Eloop. cbn [bind].
           apply (loop_good r d); try assumption. intros ix Hb. rewrite block_eqb, El. apply Hd. exact Hb.
      * cbn [Z.eqb]. apply copy_good; try assumption.
        -- right. rewrite El. split; [fold esh; lia|]. intros j a Hj Ha Hja. apply Hone. apply (last_max axes a) in Ha; [|apply Hv]. lia.
        -- intros j Hj Hi. apply Hone. apply (last_max axes _) in Hi; [|apply Hv]. lia.
    + (* column major *)
      set (esh' := rev esh). set (axes' := mirrored (length esh) axes).
      assert (Ll : length esh' = length esh) by apply rev_length.
      assert (Hv' : valid_axes (length esh') axes') by (rewrite Ll; apply mirrored_valid; exact Hv).
      assert (Hne' : axes' <> []) by (unfold axes', mirrored; intros X; apply (f_equal (@length Z)) in X; rewrite rev_length, map_length in X; cbn in X; lia).
      assert (exists a0 at_, axes = a0 :: at_) as (a0 & at_ & Eax) by (destruct axes as [|x y]; [congruence|exists x, y; reflexivity]).
      assert (Rl : rd axes 0 = Ok a0) by (rewrite Eax; reflexivity). rewrite Rl. cbn [bind].
      assert (Ha0 : 0 <= a0 < Z.of_nat (length esh)) by (destruct Hv as [_ HF]; rewrite Eax in HF; inversion HF; assumption).
      assert (Hmin : forall a, In a axes -> a0 <= a).
      { intros a Ha. rewrite Eax in Ha. destruct Ha as [ -> |Ha]; [lia|]. destruct Hv as [HS _]. rewrite Eax in HS. inversion HS as [|? ? _ HA]; subst. rewrite Forall_forall in HA. apply HA in Ha. lia. }
      assert (Elast : last axes' 0 = Z.of_nat (length esh) - 1 - a0) by (unfold axes', mirrored; rewrite Eax; cbn [map rev]; apply last_last).
      set (lead := Z.to_nat a0). set (lead' := Z.to_nat (last axes' 0)).
      assert (Hlead' : (lead + lead' = length esh - 1)%nat) by (unfold lead, lead'; rewrite Elast; lia).
      rewrite (rd_nth 0) by (unfold lead in *; lia). cbn [bind].
      assert (Efs : skipn lead (ct_strides c) = rev (firstn (S lead') (rev (ct_strides c)))).
      { rewrite firstn_rev, rev_involutive. f_equal. lia. }
      rewrite Efs. assert (Hp' : Forall (fun d => 0 < d) esh') by (apply Forall_rev; exact Hp).
      destruct (find_stride_row esh' (rev (ct_strides c)) Hcan Hp' lead') as [[Ef _]|[Ef Hone]]; [lia| |]; rewrite Ef.
      * pose proof (skipn_prod_pos esh' (S lead') Hp'). destruct (prod (skipn (S lead') esh') =? 0) eqn:Ez; [apply Z.eqb_eq in Ez; lia|].
        rewrite (rdz_ok esh _ (nth lead esh 0)); [|lia|apply nth_error_nth'; lia]. cbn [bind]. rewrite Eit. cbn [bind].
        set (istr := iter_st keep axes (length esh) (ct_strides r)) in *.
        pose proof (red_shape_mirror keep axes esh) as Rsm. fold esh' axes' in Rsm.
        destruct (kernel_lemma f keep axes' esh' Hp' Hv' Hne') with (fuel := S (Z.to_nat (compute_size esh))) (data := ct_data c) (ev := fun y => ev (rev y)) (istr := rev istr) (buf := ct_data r)
          as (L & o & Em & HL & d & Eloop & Hld & Hd).
        -- unfold axes', mirrored. rewrite rev_length, map_length. exact Hlaw'.
        -- intros jx Hb. pose proof (in_bounds_rev _ _ Hb) as Hb'. unfold esh' in Hb'. rewrite rev_involutive in Hb'.
           pose proof (data_at c ev Hc Hl He (rev jx) Hb') as X. fold l in X. rewrite El in X. cbn [rank] in X. fold esh in X.
           rewrite col_row in X by (apply in_bounds_length; exact Hb'). rewrite rev_involutive in X. exact X.
        -- unfold esh'. rewrite prod_rev. exact Hcd.
        -- rewrite Rsm, prod_rev. exact Hrd.
        -- rewrite rev_length. lia.
        -- intros jx Hb. pose proof (in_bounds_rev _ _ Hb) as Hb'. unfold esh' in Hb'. rewrite rev_involutive in Hb'. pose proof (in_bounds_length _ _ Hb) as Lx.
           rewrite <- (rev_involutive jx) at 1. rewrite dot_rev by (rewrite rev_length; lia). rewrite (Hit _ Hb'). cbn [rank].
           rewrite col_row by (apply in_bounds_length; exact (rix_bounds keep axes esh 0 _ Hb')). rewrite <- Rsm, <- red_index_mirror, rev_involutive, rev_length, Lx, Ll. reflexivity.
        -- unfold esh'. rewrite prod_rev. lia.
        -- fold lead' in Em. 
           assert (Em' : merge_loops esh (tl axes) (nth lead esh 0) (hd 0 axes) = Ok (o, Z.of_nat (length esh) - 1 - Z.of_nat L)).
           { pose proof (merge_mirror esh (tl axes) (hd 0 axes) (nth lead esh 0)) as X. cbv beta zeta in X.
             assert (E1 : tl (rev axes') = map (fun a => Z.of_nat (length esh) - 1 - a) (tl axes)) by (unfold axes', mirrored; rewrite rev_involutive, Eax; reflexivity).
             assert (E2 : nth lead' esh' 0 = nth lead esh 0) by (unfold esh'; rewrite rev_nth by lia; f_equal; lia).
             assert (E3 : last axes' 0 = Z.of_nat (length esh) - 1 - hd 0 axes) by (rewrite Elast, Eax; reflexivity).
             rewrite E1, E2, E3 in Em. fold esh' in X. rewrite Em in X.
             assert (HF' : Forall (fun a => 0 <= a < Z.of_nat (length esh)) (tl axes)) by (destruct Hv as [_ HF]; rewrite Eax in HF |- *; inversion HF; assumption).
             specialize (X HF'). destruct (merge_loops esh (tl axes) (nth lead esh 0) (hd 0 axes)) as [[o' a']| |]; try discriminate X. injection X as X1 X2. rewrite X1. f_equal. f_equal. lia. }
           rewrite Em'. cbn [bind].
           assert (Hr1 : forall (x : list Z), length x = length esh -> rev (skipn (S (Z.to_nat (Z.of_nat (length esh) - 1 - Z.of_nat L))) x) = firstn L (rev x)).
           { intros x Hx. rewrite firstn_rev. f_equal. f_equal. lia. }
           rewrite !Hr1 by (first [reflexivity|exact Lit]). fold esh' lead'. fold lead' in Eloop. rewrite Eloop. cbn [bind].
           apply (loop_good r d); try assumption.
           intros ix Hb. rewrite block_eqb, El. cbn [rank]. rewrite col_row by (apply in_bounds_length; exact Hb). rewrite <- Rsm.
           rewrite Hd by (rewrite Rsm; apply in_bounds_rev; exact Hb). f_equal. f_equal. cbn [indices_of]. fold esh'.
           rewrite filter_map, map_map. f_equal. apply filter_ext_in. intros y Hy. apply row_indices_in in Hy. pose proof (in_bounds_length _ _ Hy) as Ly.
           pose proof (red_index_mirror keep axes (rev y)) as X. rewrite rev_involutive, rev_length, Ly, Ll in X. fold axes' in X. rewrite X.
           unfold eqb_idx. destruct (list_eq_dec Z.eq_dec (rev (red_index keep axes (rev y))) (rev ix)) as [e|e], (list_eq_dec Z.eq_dec (red_index keep axes (rev y)) ix) as [e'|e']; try reflexivity.
           ++ exfalso. apply e'. apply (f_equal (@rev Z)) in e. rewrite !rev_involutive in e. exact e.
           ++ exfalso. apply e. rewrite e'. reflexivity.
      * cbn [Z.eqb].
        assert (Hone' : forall j, (j < length esh)%nat -> a0 <= Z.of_nat j -> nth j esh 0 = 1).
        { intros j Hj Hge. assert (j < length esh)%nat by lia. specialize (Hone (length esh - 1 - j)%nat ltac:(unfold lead', lead in *; lia)).
          unfold esh' in Hone. rewrite rev_nth in Hone by lia. rewrite <- Hone. f_equal. lia. }
        apply copy_good; try assumption.
        -- right. rewrite El. split; [fold esh; lia|]. intros j a Hj Ha Hja. apply Hone'; [exact Hj|]. apply Hmin in Ha. lia.
        -- intros j Hj Hi. apply Hone'; [exact Hj|]. apply Hmin in Hi. lia.
Qed.
End Imm.
