(** Reductions that ignore NaN: proofs. *)
From Coq Require Import List ZArith Lia Bool QArith Qcanon Sorted.
From Verif Require Import Prelude PreludeFacts Strides_Model Strides_Spec Strides_Proofs Access_Model Broadcast_Model Broadcast_Spec Container_Model Container_Spec
  SView_Model SView_Spec SView_Proofs Stepper_Model Stepper_Spec Stepper_Proofs Stepper4_Proofs Reshape_Model Reshape_Spec Reshape_Proofs
  Reduce_Model Reduce_Spec Reduce_Proofs Reduce3_Proofs Reduce4_Proofs Reduce5_Proofs Reduce7_Proofs Reduce8_Proofs Reduce9_Proofs Reduce13_Proofs Reduce14_Proofs Reduce15_Proofs Block2_Proofs
  Accum_Model Accum_Spec Accum3_Proofs Stats_Model Stats_Spec Stats_Proofs Stats2_Proofs Nan_Model Nan_Spec.
Import ListNotations.
Open Scope Z_scope.

(** ** The functors *)
Lemma nan_plus_assoc x y z : nan_plus (nan_plus x y) z = nan_plus x (nan_plus y z) \/ y = None.
Proof. destruct x as [x|], y as [y|], z as [z|]; cbn; auto. left. f_equal. ring. Qed.

Lemma nansum_fold l : forall a, fold_left nan_plus l (Some a) = Some (a + total (numbers l))%Qc.
Proof.
  induction l as [|[x|] l IH]; intros a; cbn [fold_left numbers total fold_right]; [f_equal; ring| |].
  - cbn [nan_plus isnan negb nadd lift2]. rewrite IH. unfold total. f_equal. ring.
  - cbn [nan_plus isnan negb]. apply IH.
Qed.
Lemma nanprod_fold l : forall a, fold_left nan_multiplies l (Some a) = Some (a * product (numbers l))%Qc.
Proof.
  induction l as [|[x|] l IH]; intros a; cbn [fold_left numbers product fold_right]; [f_equal; ring| |].
  - cbn [nan_multiplies isnan negb nmul lift2]. rewrite IH. unfold product. f_equal. ring.
  - cbn [nan_multiplies isnan negb]. apply IH.
Qed.
Lemma nan_none (op : num -> num -> num) l : (forall y, op None y = None) -> fold_left op l None = None.
Proof. intros H. induction l as [|y l IH]; [reflexivity|]. cbn [fold_left]. rewrite H. exact IH. Qed.
Lemma nansum_law : merge_law nansum_f.
Proof.
  intros a ys _. cbn [rf_merge rf_reduce rf_init nansum_f]. unfold to_num. change (Q2Qc (inject_Z 0)) with 0%Qc. rewrite nansum_fold. destruct a as [a|].
  - rewrite nansum_fold. cbn. f_equal. ring.
  - rewrite nan_none by (intros [y|]; reflexivity). reflexivity.
Qed.
Lemma nanprod_law : merge_law nanprod_f.
Proof.
  intros a ys _. cbn [rf_merge rf_reduce rf_init nanprod_f]. unfold to_num. change (Q2Qc (inject_Z 1)) with 1%Qc. rewrite nanprod_fold. destruct a as [a|].
  - rewrite nanprod_fold. cbn. f_equal. ring.
  - rewrite nan_none by (intros [y|]; reflexivity). reflexivity.
Qed.

Lemma assoc_law (op : num -> num -> num) : (forall x, op None x = x) -> (forall x, op x None = x) -> (forall x y z, op (op x y) z = op x (op y z)) -> merge_law (mk_rfun op None op).
Proof.
  intros H1 H2 H3 a ys _. cbn [rf_merge rf_reduce rf_init].
  assert (G : forall ys a b, op a (fold_left op ys b) = fold_left op ys (op a b)).
  { induction ys0 as [|y ys0 IH]; intros; cbn [fold_left]; [reflexivity|]. rewrite IH, H3. reflexivity. }
  rewrite G, H2. reflexivity.
Qed.
Ltac qc_case := repeat (destruct (Qclt_le_dec _ _)); try reflexivity.
Ltac qc_order := f_equal; apply Qcle_antisym; eauto using Qcle_trans, Qclt_le_weak.
Lemma nanmin_law : merge_law nanmin_f.
Proof.
  apply assoc_law; [intros [x|]; reflexivity|intros [x|]; reflexivity|].
  intros [x|] [y|] [z|]; try reflexivity. cbn. 
  destruct (Qclt_le_dec y x) as [A|A], (Qclt_le_dec z y) as [B|B]; cbn; repeat (destruct (Qclt_le_dec _ _)); try reflexivity; try qc_order.
Qed.
Lemma nanmax_law : merge_law nanmax_f.
Proof.
  apply assoc_law; [intros [x|]; reflexivity|intros [x|]; reflexivity|].
  intros [x|] [y|] [z|]; try reflexivity. cbn.
  destruct (Qclt_le_dec x y) as [A|A], (Qclt_le_dec y z) as [B|B]; cbn; repeat (destruct (Qclt_le_dec _ _)); try reflexivity; try qc_order.
Qed.

Lemma numbers_app l1 l2 : numbers (l1 ++ l2) = numbers l1 ++ numbers l2.
Proof. induction l1 as [|[x|] l1 IH]; cbn [numbers app]; [reflexivity|rewrite IH; reflexivity|exact IH]. Qed.
Lemma numbers_in l x : In x (numbers l) <-> In (Some x) l.
Proof.
  induction l as [|[y|] l IH]; cbn [numbers In]; [tauto| |].
  - rewrite IH. split; (intros [E|H]; [left; congruence|right; exact H]).
  - rewrite IH. split; [right; assumption|]. intros [E|H]; [discriminate|exact H].
Qed.

Lemma nanmin_least l : least l (fold_left nan_min l None).
Proof.
  induction l as [|y l IH] using rev_ind; [reflexivity|]. rewrite fold_left_app. cbn [fold_left].
  destruct (fold_left nan_min l None) as [m|]; cbn [least] in IH; destruct y as [y|]; cbn [nan_min isnan lower lift2 least]; rewrite numbers_app; cbn [numbers].
  - destruct IH as [H1 H2]. destruct (Qclt_le_dec y m) as [A|A]; (split; [apply in_app_iff; cbn; auto|]); intros n Hn; apply in_app_iff in Hn as [Hn|[<-|[]]]; auto.
    + apply Qcle_trans with m; [apply Qclt_le_weak; exact A|auto].
    + apply Qcle_refl.
  - rewrite app_nil_r. exact IH.
  - rewrite IH. split; [left; reflexivity|]. intros n [<-|[]]. apply Qcle_refl.
  - rewrite IH. reflexivity.
Qed.
Lemma nanmax_greatest l : greatest l (fold_left nan_max l None).
Proof.
  induction l as [|y l IH] using rev_ind; [reflexivity|]. rewrite fold_left_app. cbn [fold_left].
  destruct (fold_left nan_max l None) as [m|]; cbn [greatest] in IH; destruct y as [y|]; cbn [nan_max isnan upper lift2 greatest]; rewrite numbers_app; cbn [numbers].
  - destruct IH as [H1 H2]. destruct (Qclt_le_dec m y) as [A|A]; (split; [apply in_app_iff; cbn; auto|]); intros n Hn; apply in_app_iff in Hn as [Hn|[<-|[]]]; auto.
    + apply Qcle_trans with m; [auto|apply Qclt_le_weak; exact A].
    + apply Qcle_refl.
  - rewrite app_nil_r. exact IH.
  - rewrite IH. split; [left; reflexivity|]. intros n [<-|[]]. apply Qcle_refl.
  - rewrite IH. reflexivity.
Qed.

(** ** Counts *)
Lemma nonzero_spec x : nonzero x = match x with Some q => negb (Qeq_bool (this q) 0) | None => true end.
Proof.
  destruct x as [q|]; [|reflexivity]. cbn. destruct (Qc_eq_dec q 0) as [ -> |H]; [reflexivity|].
  destruct (Qeq_bool (this q) 0) eqn:E; [|reflexivity]. exfalso. apply H. apply Qc_is_canon. apply Qeq_bool_iff in E. exact E.
Qed.
Lemma count_fold l : forall a, fold_left (fun a r => if nonzero r then a + 1 else a) l a = a + Z.of_nat (length (nonzeros l)).
Proof.
  induction l as [|x l IH]; intros a; cbn [fold_left nonzeros filter]; [cbn; lia|]. rewrite IH, nonzero_spec. fold (nonzeros l).
  destruct (match x with Some q => negb (Qeq_bool (this q) 0) | None => true end); cbn [length]; lia.
Qed.
Lemma count_law : merge_law count_f.
Proof. intros a ys _. cbn [rf_merge rf_reduce rf_init count_f]. rewrite !count_fold. lia. Qed.
Lemma notnan_count l : length (nonzeros (map (fun x => f_notnan [x]) l)) = length (numbers l).
Proof. induction l as [|[x|] l IH]; [reflexivity| |]; cbn [map nonzeros filter f_notnan isnan to_num numbers length]; fold (nonzeros (map (fun x => f_notnan [x]) l)); rewrite <- IH; reflexivity. Qed.

(** ** Lazily *)
Lemma reduce_axes_lemma {T R} (f : rfun T R) dflt esh e ev axes pos keep : Z.of_nat (length esh) < 2 ^ 64 -> is_shape esh -> has_elements esh e ev ->
  names (length esh) axes pos -> valid_axes (length esh) pos -> merge_law f ->
  exists q, reduce_axes f dflt esh e axes keep = Ok q /\ g_shape q = red_shape keep pos esh /\
    (forall ix, in_bounds (red_shape keep pos esh) ix -> g_at q ix = Ok (fold_left (rf_reduce f) (map ev (block row_major keep pos esh ix)) (rf_init f))).
Proof.
  intros Hd Hs He Hn Hv Hl. unfold reduce_axes. rewrite (normalized _ _ _ Hd Hn).
  destruct (lazy_elements_lemma f dflt esh e _ pos keep None Hd Hs Hv He (or_intror Hl)) as (r & E & Er & H1 & _).
  rewrite E. cbn [bind]. eexists. split; [reflexivity|]. cbn [g_shape g_at]. split; [exact Er|]. intros ix Hi. exact (H1 [] ix Hi).
Qed.
Lemma lazily_lemma {T R} (f : rfun T R) dflt esh e ev axes pos keep (P : list (list Z) -> R -> Prop) : Z.of_nat (length esh) < 2 ^ 64 -> is_shape esh -> has_elements esh e ev ->
  names (length esh) axes pos -> valid_axes (length esh) pos -> merge_law f ->
  (forall b, P b (fold_left (rf_reduce f) (map ev b) (rf_init f))) -> lazily (reduce_axes f dflt esh e axes keep) keep pos esh P.
Proof.
  intros Hd Hs He Hn Hv Hl HP. destruct (reduce_axes_lemma f dflt esh e ev axes pos keep Hd Hs He Hn Hv Hl) as (q & E & Eq & H).
  exists q. split; [exact E|]. split; [exact Eq|]. intros ix Hi. eexists. split; [apply H; exact Hi|apply HP].
Qed.

Lemma sum_value (ev : list Z -> num) b : fold_left nan_plus (map ev b) (to_num 0) = Some (total (numbers (map ev b))) :> num.
Proof. unfold to_num. change (Q2Qc (inject_Z 0)) with 0%Qc. rewrite nansum_fold. f_equal. ring. Qed.
Lemma prod_value (ev : list Z -> num) b : fold_left nan_multiplies (map ev b) (to_num 1) = Some (product (numbers (map ev b))) :> num.
Proof. unfold to_num. change (Q2Qc (inject_Z 1)) with 1%Qc. rewrite nanprod_fold. f_equal. ring. Qed.

Lemma nan_lazy_lemma esh e ev axes pos keep dflt : Z.of_nat (length esh) < 2 ^ 64 -> is_shape esh -> has_elements esh e ev ->
  names (length esh) axes pos -> valid_axes (length esh) pos ->
  lazily (reduce_axes nansum_f dflt esh e axes keep) keep pos esh (fun b x => x = Some (total (numbers (map ev b)))) /\
  lazily (reduce_axes nanprod_f dflt esh e axes keep) keep pos esh (fun b x => x = Some (product (numbers (map ev b)))) /\
  lazily (reduce_axes nanmin_f dflt esh e axes keep) keep pos esh (fun b x => least (map ev b) x) /\
  lazily (reduce_axes nanmax_f dflt esh e axes keep) keep pos esh (fun b x => greatest (map ev b) x).
Proof.
  intros Hd Hs He Hn Hv. repeat split.
  - eapply lazily_lemma; eauto using nansum_law. intros b. apply sum_value.
  - eapply lazily_lemma; eauto using nanprod_law. intros b. apply prod_value.
  - eapply lazily_lemma; eauto using nanmin_law. intros b. apply nanmin_least.
  - eapply lazily_lemma; eauto using nanmax_law. intros b. apply nanmax_greatest.
Qed.

Lemma notnan_elements esh e ev : has_elements esh e ev -> has_elements esh (XFun f_notnan [e]) (fun jx => f_notnan [ev jx]).
Proof. intros [Ho Hv]. split; [cbn; unfold operands_ok in Ho; tauto|]. intros jx Hj. cbn [x_value map seqM bind]. rewrite (Hv jx Hj). reflexivity. Qed.

Lemma count_lemma esh e ev axes pos keep : Z.of_nat (length esh) < 2 ^ 64 -> is_shape esh -> has_elements esh e ev ->
  names (length esh) axes pos -> valid_axes (length esh) pos ->
  lazily (count_nonzero esh e axes keep) keep pos esh (fun b x => x = Z.of_nat (length (nonzeros (map ev b)))) /\
  lazily (count_nonnan esh e axes keep) keep pos esh (fun b x => x = Z.of_nat (length (numbers (map ev b)))).
Proof.
  intros Hd Hs He Hn Hv. split.
  - eapply lazily_lemma; eauto using count_law. intros b. cbn [rf_reduce rf_init count_f]. rewrite count_fold. lia.
  - eapply lazily_lemma; eauto using count_law, notnan_elements. intros b. cbn [rf_reduce rf_init count_f]. rewrite count_fold.
    rewrite <- (map_map ev (fun x => f_notnan [x])), notnan_count. lia.
Qed.

Lemma nanmean_lemma esh e ev axes pos keep : Z.of_nat (length esh) < 2 ^ 64 -> is_shape esh -> has_elements esh e ev ->
  names (length esh) axes pos -> valid_axes (length esh) pos ->
  exists q, nanmean esh e axes keep = Ok q /\ g_shape q = red_shape keep pos esh /\
    forall ix, in_bounds (red_shape keep pos esh) ix -> g_at q ix = Ok (mean_of (numbers (map ev (block row_major keep pos esh ix)))).
Proof.
  intros Hd Hs He Hn Hv. unfold nanmean.
  destruct (nan_lazy_lemma esh e ev axes pos keep None Hd Hs He Hn Hv) as ((s & -> & Es & Hs') & _).
  destruct (count_lemma esh e ev axes pos keep Hd Hs He Hn Hv) as (_ & (c & -> & _ & Hc)). cbn [bind].
  eexists. split; [reflexivity|]. cbn [g_shape g_at]. split; [exact Es|]. intros ix Hi.
  destruct (Hs' ix Hi) as (x & -> & ->). destruct (Hc ix Hi) as (n & -> & ->). reflexivity.
Qed.
Lemma nanmean_full esh e ev axes pos keep : Z.of_nat (length esh) < 2 ^ 64 -> is_shape esh -> has_elements esh e ev ->
  names (length esh) axes pos -> valid_axes (length esh) pos ->
  lazily (nanmean esh e axes keep) keep pos esh (fun b x => x = mean_of (numbers (map ev b))).
Proof. intros Hd Hs He Hn Hv. destruct (nanmean_lemma esh e ev axes pos keep Hd Hs He Hn Hv) as (q & E & Eq & H). exists q. split; [exact E|]. split; [exact Eq|]. intros ix Hi. eauto. Qed.

(** ** Variances *)
Lemma shifted_numbers (ev : list Z -> num) (m : num) l : (numbers (map ev l) <> [] -> m = Some (total (numbers (map ev l)) / count (numbers (map ev l)))%Qc) ->
  mean_of (numbers (map (fun jx => f_square [f_minus [ev jx; m]]) l)) = variance_of 0 (numbers (map ev l)).
Proof.
  intros Hm. unfold variance_of, deviations. set (t := (total (numbers (map ev l)) / count (numbers (map ev l)))%Qc) in *.
  assert (E : numbers (map (fun jx => f_square [f_minus [ev jx; m]]) l) = map (fun x => (x - t) * (x - t))%Qc (numbers (map ev l))).
  { assert (G : forall k, (numbers (map ev k) <> [] -> m = Some t) -> numbers (map (fun jx => f_square [f_minus [ev jx; m]]) k) = map (fun x => (x - t) * (x - t))%Qc (numbers (map ev k))); [|apply G; exact Hm].
    induction k as [|j k IH]; intros Hk; [reflexivity|]. cbn [map]. cbn [map] in Hk. destruct (ev j) as [x|] eqn:Ej.
    - cbn [numbers] in Hk. rewrite (Hk ltac:(discriminate)). change (f_square [f_minus [Some x; Some t]]) with (Some ((x - t) * (x - t))%Qc : num). cbn [numbers map].
      rewrite <- (Hk ltac:(discriminate)). rewrite IH; [reflexivity|]. intros _. apply Hk. discriminate.
    - cbn [numbers] in Hk |- *. change (f_square [f_minus [None; m]]) with (None : num). cbn [numbers]. apply IH. exact Hk. }
  rewrite E. unfold mean_of, count. rewrite map_length, Z.sub_0_r. reflexivity.
Qed.

Lemma nanvar_all_lemma esh e ev keep : Z.of_nat (length esh) < 2 ^ 64 -> is_shape esh -> has_elements esh e ev ->
  lazily (nanvar_all esh e keep) keep (all_axes (length esh)) esh (fun b x => x = variance_of 0 (numbers (map ev b))).
Proof.
  intros Hd Hs He. unfold nanvar_all. pose proof (all_axes_valid (length esh)) as Hv. pose proof (names_self _ _ (proj2 Hv)) as Hn.
  destruct (nanmean_lemma esh e ev _ _ false Hd Hs He Hn Hv) as (m & -> & _ & Hm). cbn [bind].
  assert (Hz : in_bounds (red_shape false (all_axes (length esh)) esh) []) by (rewrite all_shape; constructor).
  rewrite (Hm _ Hz). cbn [bind]. rewrite (all_block _ _ _ Hz). set (c := mean_of _).
  assert (He' : has_elements esh (XFun f_square [XFun f_minus [e; XScalar c]]) (fun jx => f_square [f_minus [ev jx; c]])).
  { destruct He as [Ho Hx]. split; [cbn; unfold operands_ok in Ho; tauto|]. intros jx Hj. cbn [x_value map seqM bind]. rewrite (Hx jx Hj). reflexivity. }
  destruct (nanmean_lemma esh _ _ _ _ keep Hd Hs He' Hn Hv) as (q & E & Eq & H). exists q. split; [exact E|]. split; [exact Eq|].
  intros ix Hi. eexists. split; [apply H; exact Hi|]. rewrite (all_block _ _ _ Hi). apply shifted_numbers. apply mean_of_some.
Qed.

Lemma nanvar_lemma esh e ev axes keep : addressable esh -> has_elements esh e ev -> valid_axes (length esh) axes ->
  lazily (nanvar esh e axes keep) keep axes esh (fun b x => x = variance_of 0 (numbers (map ev b))).
Proof.
  intros Ha He Hv. pose proof Ha as (Hd & Hs & Hp & Hx). pose proof (names_self _ _ (proj2 Hv)) as Hn. unfold nanvar.
  destruct (nanmean_lemma esh e ev axes axes false Hd Hs He Hn Hv) as (m & -> & Em & Hm). cbn [bind].
  rewrite kd_ok by (exact (proj2 Hv)). cbn [bind]. rewrite Em. cbn [red_shape] in *.
  set (M := fun jx => mean_of (numbers (map ev (block row_major false axes esh jx))) : num).
  destruct (operand_lemma row_major (Some 64) (without axes 0 esh) (replaced axes 1 0 esh) (g_at m) M) as (v & c & b & -> & E2 & Ec & Hc & Hr).
  { left. reflexivity. }
  { apply without_shape. exact Hs. }
  { apply keep_shape. exact Hs. }
  { revert Hx. clear. generalize 0. induction esh as [|d sh IH]; intros k H; [constructor|]. inversion H; subst. cbn [replaced]. destruct (in_dec _ _ _); constructor; try lia; apply IH; assumption. }
  { apply keep_prod. }
  { exact Hm. }
  cbn [bind]. rewrite E2. cbn [bind].
  assert (He' : has_elements esh (XFun f_square [XFun f_minus [e; XStrided c b]]) (fun jx => f_square [f_minus [ev jx; M (without axes 0 jx)]])).
  { destruct He as [Ho Hy]. split.
    - unfold operands_ok in *. cbn [all_leaves fold_right]. rewrite Ec. split; [|exact I]. split; [exact Ho|]. split; [|exact I]. split; [apply keep_fits|exact Hc].
    - intros jx Hj. cbn [x_value map seqM bind]. rewrite (Hy jx Hj). cbn [bind].
      rewrite Ec, keep_bc by exact Hj. rewrite (Hr (replaced axes 0 0 jx) (without axes 0 jx)).
      + reflexivity.
      + exact (rix_bounds true axes esh 0 jx Hj).
      + exact (rix_bounds false axes esh 0 jx Hj).
      + cbn [rank]. apply keep_pos. apply (in_bounds_length _ _ Hj). }
  destruct (nanmean_lemma esh _ _ axes axes keep Hd Hs He' Hn Hv) as (q & E & Eq & H). exists q. split; [exact E|]. split; [exact Eq|].
  intros ix Hi. eexists. split; [apply H; exact Hi|]. set (B := block row_major keep axes esh ix) in *.
  rewrite <- (shifted_numbers ev (mean_of (numbers (map ev B)))) by apply mean_of_some.
  do 2 f_equal. apply map_ext_in. intros jx Hj. unfold M. rewrite (same_block keep axes esh ix jx Hj). reflexivity.
Qed.

Lemma nanvar_negative_lemma esh e ev axes pos keep : addressable esh -> has_elements esh e ev -> names (length esh) axes pos -> valid_axes (length esh) pos ->
  Exists (fun a => a < 0) axes -> nanvar esh e axes keep = UB.
Proof.
  intros (Hd & Hs & _) He Hn Hv Hx. unfold nanvar. destruct (nanmean_lemma esh e ev axes pos false Hd Hs He Hn Hv) as (m & -> & _ & _). cbn [bind].
  assert (G : for_each (fun el k => wrz k el 1) axes esh = UB); [|rewrite G; reflexivity].
  clear - Hx. revert esh. induction Hx as [a axes H|a axes _ IH]; intros esh; cbn [for_each].
  - unfold wrz. destruct (Z.ltb_spec a 0); [reflexivity|lia].
  - unfold wrz at 1. destruct (a <? 0); [reflexivity|]. unfold wr. destruct (_ <? _)%nat; [apply IH|reflexivity].
Qed.

(** ** Immediately *)
Lemma immediately_lemma {T R} (f : rfun T R) SL DL conv fresh r0 keep c axes ev (P : list (list Z) -> R -> Prop) :
  (forall d n, 0 <= n -> Z.of_nat (length (fresh d n)) = n) -> reducible SL c ev -> valid_axes (length (ct_shape c)) axes ->
  (copied (ct_layout c) axes (ct_shape c) -> forall g x, conv = Some g -> g x = rf_reduce f (rf_init f) x) -> merge_law f ->
  (forall b, P b (fold_left (rf_reduce f) (map ev b) (rf_init f))) ->
  immediately (reduce_immediate f SL DL conv fresh r0 keep None c axes) keep axes c P.
Proof.
  intros Hf (H1 & H2 & H3 & H4 & H5 & H6 & H7) Hv Hc Hl HP.
  destruct (immediate_full_lemma f SL DL conv fresh r0 keep None c axes ev) as (r & E & Hr & Es & _ & Hx); auto.
  { right. exact Hl. }
  { discriminate. }
  exists r. split; [exact E|]. split; [exact Hr|]. split; [exact Es|]. intros ix Hi. eexists. split; [apply Hx; exact Hi|]. apply HP.
Qed.

Lemma nan_immediate_lemma SL DL fresh r0 keep c axes ev : (forall d n, 0 <= n -> Z.of_nat (length (fresh d n)) = n) -> reducible SL c ev -> valid_axes (length (ct_shape c)) axes ->
  immediately (reduce_immediate nanmin_f SL DL (Some (fun x => x)) fresh r0 keep None c axes) keep axes c (fun b x => least (map ev b) x) /\
  immediately (reduce_immediate nanmax_f SL DL (Some (fun x => x)) fresh r0 keep None c axes) keep axes c (fun b x => greatest (map ev b) x) /\
  (~ copied (ct_layout c) axes (ct_shape c) ->
   immediately (reduce_immediate nansum_f SL DL (Some (fun x => x)) fresh r0 keep None c axes) keep axes c (fun b x => x = Some (total (numbers (map ev b)))) /\
   immediately (reduce_immediate nanprod_f SL DL (Some (fun x => x)) fresh r0 keep None c axes) keep axes c (fun b x => x = Some (product (numbers (map ev b))))).
Proof.
  intros Hf Hc Hv. repeat split.
  - eapply immediately_lemma; eauto using nanmin_law; [|intros b; apply nanmin_least]. intros _ g x [= <-]. destruct x; reflexivity.
  - eapply immediately_lemma; eauto using nanmax_law; [|intros b; apply nanmax_greatest]. intros _ g x [= <-]. destruct x; reflexivity.
  - eapply immediately_lemma; eauto using nansum_law; [tauto|intros b; apply sum_value].
  - eapply immediately_lemma; eauto using nanprod_law; [tauto|intros b; apply prod_value].
Qed.
Lemma count_immediate_lemma SL DL conv fresh r0 keep c axes ev : (forall d n, 0 <= n -> Z.of_nat (length (fresh d n)) = n) -> reducible SL c ev -> valid_axes (length (ct_shape c)) axes ->
  ~ copied (ct_layout c) axes (ct_shape c) ->
  immediately (reduce_immediate count_f SL DL conv fresh r0 keep None c axes) keep axes c (fun b x => x = Z.of_nat (length (nonzeros (map ev b)))).
Proof.
  intros Hf Hc Hv Hn. eapply immediately_lemma; eauto using count_law; [tauto|]. intros b. cbn [rf_reduce rf_init count_f]. rewrite count_fold. lia.
Qed.

(** ** minmax *)
Lemma minmax_fold lo hi (l : list (value lo hi)) : forall a b, fold_left (rf_reduce (minmax_f lo hi)) l (a, b) =
  (fold_left (fun m v => Z.min m (proj1_sig v)) l a, fold_left (fun m v => Z.max m (proj1_sig v)) l b).
Proof. induction l as [|v l IH]; intros a b; cbn [fold_left]; [reflexivity|]. cbn [rf_reduce minmax_f fst snd]. apply IH. Qed.
Lemma min_fold {A} (g : A -> Z) l : forall a b, fold_left (fun m v => Z.min m (g v)) l (Z.min a b) = Z.min a (fold_left (fun m v => Z.min m (g v)) l b).
Proof. induction l as [|v l IH]; intros a b; cbn [fold_left]; [reflexivity|]. rewrite <- Z.min_assoc. apply IH. Qed.
Lemma max_fold {A} (g : A -> Z) l : forall a b, fold_left (fun m v => Z.max m (g v)) l (Z.max a b) = Z.max a (fold_left (fun m v => Z.max m (g v)) l b).
Proof. induction l as [|v l IH]; intros a b; cbn [fold_left]; [reflexivity|]. rewrite <- Z.max_assoc. apply IH. Qed.
Lemma minmax_law lo hi : merge_law (minmax_f lo hi).
Proof.
  intros [a b] ys Hne. cbn [rf_init minmax_f]. fold (minmax_f lo hi). rewrite !minmax_fold. cbn [rf_merge minmax_f fst snd].
  destruct ys as [|y ys]; [congruence|]. cbn [fold_left]. pose proof (proj2_sig y) as Hy. cbn beta in Hy.
  rewrite (Z.min_r hi), (Z.max_r lo) by lia. rewrite !min_fold, !max_fold. reflexivity.
Qed.
Lemma min_spec {A} (g : A -> Z) l : forall a, (forall v, In v l -> g v <= a) -> l <> [] ->
  let m := fold_left (fun m v => Z.min m (g v)) l a in (exists v, In v l /\ m = g v) /\ forall v, In v l -> m <= g v.
Proof.
  induction l as [|v l IH]; intros a Ha Hne; [congruence|]. cbn [fold_left]. rewrite Z.min_r by (apply Ha; left; reflexivity).
  destruct l as [|w l].
  - cbn. split; [exists v; auto|]. intros u [<-|[]]. lia.
  - set (m := fold_left _ (w :: l) (g v)). assert (E : m = Z.min (g v) (fold_left (fun m v => Z.min m (g v)) (w :: l) (Z.max (g v) (fold_right (fun v => Z.max (g v)) (g v) (w :: l))))).
    { unfold m. rewrite <- min_fold. f_equal. lia. }
    destruct (IH (Z.max (g v) (fold_right (fun v => Z.max (g v)) (g v) (w :: l)))) as ((u & Hu & Eu) & H2).
    { intros u Hu. enough (g u <= fold_right (fun v => Z.max (g v)) (g v) (w :: l)) by lia. revert Hu. generalize (w :: l). induction l0 as [|x l0 IH0]; intros []; cbn [fold_right]; subst; [lia|]. specialize (IH0 H). lia. }
    { discriminate. }
    rewrite E. split.
    + destruct (Z.min_spec (g v) (fold_left (fun m v => Z.min m (g v)) (w :: l) (Z.max (g v) (fold_right (fun v => Z.max (g v)) (g v) (w :: l))))) as [[_ -> ]|[_ -> ]].
      * exists v. split; [left; reflexivity|reflexivity].
      * exists u. split; [right; exact Hu|exact Eu].
    + intros x [<-|Hx]; [lia|]. specialize (H2 x Hx). lia.
Qed.
Lemma max_spec {A} (g : A -> Z) l a : (forall v, In v l -> a <= g v) -> l <> [] ->
  let m := fold_left (fun m v => Z.max m (g v)) l a in (exists v, In v l /\ m = g v) /\ forall v, In v l -> g v <= m.
Proof.
  intros Ha Hne. destruct (min_spec (fun v => - g v) l (- a)) as ((v & Hv & E) & H2); [intros v Hv; specialize (Ha v Hv); lia|exact Hne|].
  assert (G : forall l a, fold_left (fun m v => Z.min m (- g v)) l (- a) = - fold_left (fun m v => Z.max m (g v)) l a).
  { induction l0 as [|x l0 IH]; intros b; cbn [fold_left]; [reflexivity|]. rewrite <- IH. f_equal. lia. }
  rewrite G in E, H2. split; [exists v; split; [exact Hv|lia]|]. intros x Hx. specialize (H2 x Hx). lia.
Qed.

Lemma minmax_lemma lo hi esh e ev keep : Z.of_nat (length esh) < 2 ^ 64 -> is_shape esh -> has_elements esh e ev ->
  lazily (minmax lo hi esh e keep) keep (all_axes (length esh)) esh (fun b x =>
    b = row_indices esh /\
    (b <> [] -> In (fst x) (map (fun jx => proj1_sig (ev jx)) b) /\ In (snd x) (map (fun jx => proj1_sig (ev jx)) b) /\ forall jx, In jx b -> fst x <= proj1_sig (ev jx) <= snd x)).
Proof.
  intros Hd Hs He. pose proof (all_axes_valid (length esh)) as Hv. pose proof (names_self _ _ (proj2 Hv)) as Hn.
  destruct (reduce_axes_lemma (minmax_f lo hi) (0, 0) esh e ev _ _ keep Hd Hs He Hn Hv (minmax_law lo hi)) as (q & E & Eq & H).
  exists q. split; [exact E|]. split; [exact Eq|]. intros ix Hi. eexists. split; [apply H; exact Hi|]. split; [apply all_block; exact Hi|]. intros Hne.
  set (b := block _ _ _ _ _) in *. cbn [rf_init minmax_f]. fold (minmax_f lo hi). rewrite minmax_fold. cbn [fst snd].
  assert (Hne' : map ev b <> []) by (destruct b; [congruence|discriminate]).
  destruct (min_spec (@proj1_sig Z _) (map ev b) hi (fun v _ => proj2 (proj2_sig v)) Hne') as ((v & Hv1 & Ev) & H2).
  destruct (max_spec (@proj1_sig Z _) (map ev b) lo (fun v _ => proj1 (proj2_sig v)) Hne') as ((w & Hw1 & Ew) & H3).
  apply in_map_iff in Hv1 as (jv & <- & Hjv). apply in_map_iff in Hw1 as (jw & <- & Hjw).
  split; [|split].
  - rewrite Ev. apply in_map_iff. exists jv. auto.
  - rewrite Ew. apply in_map_iff. exists jw. auto.
  - intros jx Hj. split; [apply H2|apply H3]; apply in_map; exact Hj.
Qed.

(** ** Cumulated *)
Lemma fold_left_mapped {A B C} (g : A -> B) (op : C -> B -> C) l : forall a, fold_left (fun acc x => op acc (g x)) l a = fold_left op (map g l) a.
Proof. induction l as [|x l IH]; intros a; cbn [fold_left map]; [reflexivity|]. apply IH. Qed.

(** The elements of the line through an index, up to it *)
Lemma cumsum_value ev ax ix : accumulated nan_plus (nan_init 0) ev ax ix =
  Some (total (numbers (map (fun j => ev (upd ix ax (Z.of_nat j))) (seq 0 (S (Z.to_nat (nth ax ix 0))))))) :> num.
Proof.
  unfold accumulated. rewrite (fold_left_mapped (fun j => ev (upd ix ax (Z.of_nat j))) nan_plus). cbn [seq map]. change (Z.of_nat 0) with 0.
  destruct (ev (upd ix ax 0)) as [x|]; cbn [nan_init isnan numbers].
  - rewrite nansum_fold. reflexivity.
  - unfold to_num. change (Q2Qc (inject_Z 0)) with 0%Qc. rewrite nansum_fold. f_equal. ring.
Qed.
Lemma cumprod_value ev ax ix : accumulated nan_multiplies (nan_init 1) ev ax ix =
  Some (product (numbers (map (fun j => ev (upd ix ax (Z.of_nat j))) (seq 0 (S (Z.to_nat (nth ax ix 0))))))) :> num.
Proof.
  unfold accumulated. rewrite (fold_left_mapped (fun j => ev (upd ix ax (Z.of_nat j))) nan_multiplies). cbn [seq map]. change (Z.of_nat 0) with 0.
  destruct (ev (upd ix ax 0)) as [x|]; cbn [nan_init isnan numbers].
  - rewrite nanprod_fold. reflexivity.
  - unfold to_num. change (Q2Qc (inject_Z 1)) with 1%Qc. rewrite nanprod_fold. f_equal. ring.
Qed.

Lemma nancum_lemma c ev axis : consistent c -> is_order (ct_layout c) -> documented c -> prod (ct_shape c) < 2 ^ 64 ->
  Z.of_nat (length (ct_shape c)) < 2 ^ 63 -> (forall jx, in_bounds (ct_shape c) jx -> elt c jx = Ok (ev jx)) ->
  - Z.of_nat (length (ct_shape c)) <= axis < Z.of_nat (length (ct_shape c)) ->
  let ax := Z.to_nat (axis mod Z.of_nat (length (ct_shape c))) in
  no_units (firstn ax (ct_shape c)) -> no_units (skipn (S ax) (ct_shape c)) ->
  exists s p, nancumsum (ct_layout c) c axis = Ok s /\ nancumprod (ct_layout c) c axis = Ok p /\ consistent s /\ consistent p /\ ct_shape s = ct_shape c /\ ct_shape p = ct_shape c /\
    forall ix, in_bounds (ct_shape c) ix ->
      let l := numbers (map (fun j => ev (upd ix ax (Z.of_nat j))) (seq 0 (S (Z.to_nat (nth ax ix 0))))) in
      elt s ix = Ok (Some (total l)) /\ elt p ix = Ok (Some (product l)).
Proof.
  intros H1 H2 H3 H4 H5 H6 H7 ax U1 U2.
  destruct (axis_full_lemma nan_plus (Some (nan_init 0)) c ev axis H1 H2 H3 H4 H5 H6 H7 (fun _ => conj U1 U2)) as (s & Es & Cs & Ss & _ & Hs).
  destruct (axis_full_lemma nan_multiplies (Some (nan_init 1)) c ev axis H1 H2 H3 H4 H5 H6 H7 (fun _ => conj U1 U2)) as (p & Ep & Cp & Sp & _ & Hp).
  exists s, p. split; [exact Es|]. split; [exact Ep|]. split; [exact Cs|]. split; [exact Cp|]. split; [exact Ss|]. split; [exact Sp|].
  intros ix Hi l. rewrite (Hs ix Hi), (Hp ix Hi). cbn [init_fun]. rewrite cumsum_value, cumprod_value. split; reflexivity.
Qed.
