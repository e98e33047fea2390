(** Means and variances: proofs. *)
From Coq Require Import List ZArith Lia Bool QArith Qcanon Sorted.
From Verif Require Import Prelude PreludeFacts Strides_Model Strides_Spec Strides_Proofs Access_Model Broadcast_Model Broadcast_Spec Container_Spec
  SView_Model SView_Spec SView_Proofs Stepper_Model Stepper_Spec Stepper_Proofs Stepper4_Proofs Reshape_Model Reshape_Spec Reshape_Proofs
  Reduce_Model Reduce_Spec Reduce_Proofs Reduce3_Proofs Reduce4_Proofs Reduce5_Proofs Reduce7_Proofs Reduce8_Proofs Reduce9_Proofs Reduce13_Proofs Reduce14_Proofs Block2_Proofs Stats_Model Stats_Spec.
Import ListNotations.
Open Scope Z_scope.

(** ** Sums *)
Lemma nadd_some l : forall a, fold_left nadd (map (@Some Qc) l) (Some a) = Some (a + total l)%Qc.
Proof. induction l as [|x l IH]; intros a; cbn [map fold_left total fold_right]; [f_equal; ring|]. cbn [nadd lift2]. rewrite IH. unfold total. f_equal. ring. Qed.

Lemma nadd_assoc x y z : nadd (nadd x y) z = nadd x (nadd y z).
Proof. destruct x as [x|], y as [y|], z as [z|]; cbn; try reflexivity. f_equal. ring. Qed.
Lemma nadd_0_l x : nadd (Some 0%Qc) x = x.
Proof. destruct x; cbn; [f_equal; ring|reflexivity]. Qed.
Lemma plus_num_law : merge_law plus_num.
Proof.
  intros a ys _. cbn [rf_merge rf_reduce rf_init plus_num].
  assert (G : forall ys a b, nadd a (fold_left nadd ys b) = fold_left nadd ys (nadd a b)).
  { induction ys0 as [|y ys0 IH]; intros; cbn [fold_left]; [reflexivity|]. rewrite IH, nadd_assoc. reflexivity. }
  rewrite G. f_equal. destruct a; cbn; [f_equal; ring|reflexivity].
Qed.

Lemma normalized dim axes pos : Z.of_nat dim < 2 ^ 64 -> names dim axes pos -> map (normalize_axis dim) axes = pos.
Proof.
  intros Hd H. induction H as [|a p axes pos [Hp Ha] H IH]; [reflexivity|]. cbn [map]. rewrite IH. f_equal.
  unfold normalize_axis. destruct (Z.ltb_spec a 0); destruct Ha as [Ha|Ha]; try lia.
  subst a. unfold to_size_t. rewrite Z.mod_small by lia. lia.
Qed.
Lemma names_self dim axes : Forall (fun a => 0 <= a < Z.of_nat dim) axes -> names dim axes axes.
Proof. intros H. induction H; constructor; auto. Qed.

Lemma sum_axes_lemma esh e ev axes pos keep : Z.of_nat (length esh) < 2 ^ 64 -> is_shape esh -> finite esh e ev ->
  names (length esh) axes pos -> valid_axes (length esh) pos ->
  exists q, sum_axes esh e axes keep = Ok q /\ q_shape q = red_shape keep pos esh /\
    (forall ix, in_bounds (red_shape keep pos esh) ix -> q_at q ix = Ok (Some (total (map ev (block row_major keep pos esh ix))))) /\
    (forall n ix, in_bounds (red_shape keep pos esh) (repeat 0 n ++ ix) -> q_at q ix = Ok (Some (total (map ev (block row_major keep pos esh (repeat 0 n ++ ix)))))).
Proof.
  intros Hd Hs He Hn Hv. unfold sum_axes. rewrite (normalized _ _ _ Hd Hn).
  destruct (lazy_elements_lemma plus_num None esh e _ pos keep None Hd Hs Hv He (or_intror plus_num_law)) as (r & E & Er & H1 & H2).
  rewrite E. cbn [bind]. eexists. split; [reflexivity|]. cbn [q_shape q_at]. split; [exact Er|].
  assert (G : forall ix, reduced plus_num None row_major keep pos esh (fun ix => Some (ev ix)) ix = Some (total (map ev (block row_major keep pos esh ix)))).
  { intros ix. unfold reduced. cbn [rf_reduce rf_init plus_num]. rewrite <- (map_map ev (@Some Qc)), nadd_some. f_equal. ring. }
  split.
  - intros ix Hi. specialize (H1 [] ix Hi). cbn [app] in H1. rewrite H1, G. reflexivity.
  - intros n ix Hi. rewrite (H2 n ix Hi), G. reflexivity.
Qed.

(** ** The number of elements *)
Lemma prod_paxes keep axes : forall sh k, prod (rsh keep axes k sh) * paxes axes k sh = prod sh.
Proof.
  induction sh as [|d sh IH]; intros k; [rewrite rsh_nil; reflexivity|]. rewrite rsh_cons. cbn [paxes]. rewrite prod_cons.
  destruct (in_dec _ _ _), keep; rewrite ?prod_cons, <- (IH (k + 1)); ring.
Qed.
Lemma block_size keep axes sh ix : is_shape sh -> in_bounds (red_shape keep axes sh) ix ->
  prod (red_shape keep axes sh) * Z.of_nat (length (block row_major keep axes sh ix)) = prod sh.
Proof. intros Hs Hi. rewrite block_length by assumption. apply (prod_paxes keep axes sh 0). Qed.
Lemma in_bounds_prod sh ix : in_bounds sh ix -> 0 < prod sh.
Proof. intros H. pose proof (row_pos_bound _ _ H). lia. Qed.

Lemma ndiv_quotient a b : ndiv (Some a) (Some b) = quotient a b.
Proof. reflexivity. Qed.

(** The divisor: (r n - ddof) / r *)
Lemma mean_ddof_lemma esh e ev axes pos keep ddof : addressable esh -> finite esh e ev -> names (length esh) axes pos -> valid_axes (length esh) pos ->
  0 <= ddof ->
  exists q, mean_ddof esh e axes ddof keep = Ok q /\ q_shape q = red_shape keep pos esh /\
    (forall ix, in_bounds (red_shape keep pos esh) ix -> ddof <= prod esh ->
       q_at q ix = Ok (quotient (total (map ev (block row_major keep pos esh ix))) (Q2Qc (inject_Z ((prod esh - ddof) / prod (red_shape keep pos esh)))))).
Proof.
  intros (Hd & Hs & Hp & _) He Hn Hv H0. unfold mean_ddof. destruct (sum_axes_lemma esh e ev axes pos keep Hd Hs He Hn Hv) as (s & -> & Es & H1 & _).
  cbn [bind]. eexists. split; [reflexivity|]. cbn [q_shape q_at]. split; [exact Es|]. intros ix Hi Hle. rewrite (H1 ix Hi). cbn [bind].
  unfold mean_divisor, to_num. rewrite Es, !compute_size_prod. pose proof (in_bounds_prod _ _ Hi) as Hpos.
  destruct (Z.eqb_spec (prod (red_shape keep pos esh)) 0); [lia|]. cbn [negb].
  unfold to_size_t. rewrite (Z.mod_small ddof) by lia. rewrite Z.mod_small by lia. rewrite ndiv_quotient. reflexivity.
Qed.

Lemma mean_lemma esh e ev axes pos keep : addressable esh -> finite esh e ev -> names (length esh) axes pos -> valid_axes (length esh) pos ->
  reduces (mean_axes esh e axes keep) keep pos esh (fun b => mean_of (map ev b)).
Proof.
  intros Ha He Hn Hv. destruct (mean_ddof_lemma esh e ev axes pos keep 0 Ha He Hn Hv) as (q & E & Eq & H); [lia|].
  exists q. split; [exact E|]. split; [exact Eq|]. intros ix Hi. destruct Ha as (_ & Hs & Hp & _). rewrite H by (auto using prod_nonneg).
  pose proof (block_size keep pos esh ix Hs Hi) as B. pose proof (in_bounds_prod _ _ Hi) as Hpos.
  unfold mean_of, count. rewrite map_length. do 5 f_equal. rewrite Z.sub_0_r, <- B, Z.mul_comm. apply Z.div_mul. lia.
Qed.

(** ** All axes *)
Lemma all_axes_valid dim : valid_axes dim (all_axes dim).
Proof.
  unfold valid_axes, all_axes. split.
  - generalize 0%nat. induction dim as [|d IH]; intros s; cbn [seq map]; [constructor|]. constructor; [apply IH|].
    apply Forall_forall. intros x Hx. apply in_map_iff in Hx as (y & <- & Hy). apply in_seq in Hy. lia.
  - apply Forall_forall. intros x Hx. apply in_map_iff in Hx as (y & <- & Hy). apply in_seq in Hy. lia.
Qed.
Lemma all_axes_in dim j : (j < dim)%nat -> In (0 + Z.of_nat j) (all_axes dim).
Proof. intros H. apply in_map_iff. exists j. split; [lia|]. apply in_seq. lia. Qed.
Lemma all_shape keep esh : red_shape keep (all_axes (length esh)) esh = if keep then repeat 1 (length esh) else [].
Proof.
  destruct keep; cbn [red_shape]; [apply replaced_all; intros; apply all_axes_in; assumption|].
  assert (G : forall l k, (forall j, (j < length l)%nat -> In (k + Z.of_nat j) (all_axes (length esh))) -> without (all_axes (length esh)) k l = []).
  { induction l as [|x l IH]; intros k H; [reflexivity|]. cbn [without]. destruct (in_dec _ _ _) as [|n].
    - apply IH. intros j Hj. replace (k + 1 + Z.of_nat j) with (k + Z.of_nat (S j)) by lia. apply H. cbn. lia.
    - exfalso. apply n. replace k with (k + Z.of_nat 0) by lia. apply H. cbn. lia. }
  apply G. intros. apply all_axes_in. assumption.
Qed.
Lemma ones_prod n : prod (repeat 1 n) = 1.
Proof. induction n as [|n IH]; [reflexivity|]. cbn [repeat]. rewrite prod_cons, IH. reflexivity. Qed.
Lemma all_prod keep esh : prod (red_shape keep (all_axes (length esh)) esh) = 1.
Proof. rewrite all_shape. destruct keep; [apply ones_prod|reflexivity]. Qed.
Lemma all_block keep esh ix : in_bounds (red_shape keep (all_axes (length esh)) esh) ix -> block row_major keep (all_axes (length esh)) esh ix = row_indices esh.
Proof.
  intros Hi. unfold block, indices_of. apply filter_all. intros jx Hj. apply row_indices_in in Hj.
  pose proof (rix_bounds keep (all_axes (length esh)) esh 0 jx Hj) as Hr. change (rsh keep (all_axes (length esh)) 0 esh) with (red_shape keep (all_axes (length esh)) esh) in Hr.
  change (rix keep (all_axes (length esh)) 0 jx) with (red_index keep (all_axes (length esh)) jx) in Hr.
  destruct (list_eq_dec _ _ _) as [|n]; [reflexivity|]. exfalso. apply n. rewrite all_shape in *. 
  assert (U : forall a b, in_bounds (if keep then repeat 1 (length esh) else []) a -> in_bounds (if keep then repeat 1 (length esh) else []) b -> a = b).
  { clear. destruct keep.
    - induction (length esh) as [|m IH]; intros a b H1 H2; inversion H1; inversion H2; subst; [reflexivity|]. f_equal; [lia|]. apply IH; assumption.
    - intros a b H1 H2. inversion H1; inversion H2; reflexivity. }
  apply U; assumption.
Qed.

Lemma mean_noaxis_lemma esh e ev keep ddof : addressable esh -> finite esh e ev -> 0 <= ddof <= prod esh ->
  exists q, mean_noaxis esh e ddof keep = Ok q /\ q_shape q = red_shape keep (all_axes (length esh)) esh /\
    (forall n ix, in_bounds (red_shape keep (all_axes (length esh)) esh) (repeat 0 n ++ ix) ->
       q_at q ix = Ok (quotient (total (map ev (row_indices esh))) (Q2Qc (inject_Z (prod esh - ddof))))).
Proof.
  intros (Hd & Hs & Hp & _) He H0. unfold mean_noaxis. pose proof (all_axes_valid (length esh)) as Hv.
  destruct (sum_axes_lemma esh e ev (all_axes (length esh)) (all_axes (length esh)) keep Hd Hs He (names_self _ _ (proj2 Hv)) Hv) as (s & -> & Es & _ & H1).
  cbn [bind]. eexists. split; [reflexivity|]. cbn [q_shape q_at]. split; [exact Es|]. intros n ix Hi. rewrite (H1 n ix Hi). cbn [bind].
  rewrite compute_size_prod. unfold to_size_t, to_num. rewrite (Z.mod_small ddof), Z.mod_small by lia. rewrite ndiv_quotient, all_block by exact Hi. reflexivity.
Qed.

Lemma mean_all_lemma esh e ev keep : addressable esh -> finite esh e ev ->
  reduces (mean_all esh e keep) keep (all_axes (length esh)) esh (fun b => mean_of (map ev b)).
Proof.
  intros Ha He. pose proof Ha as (_ & Hs & _). destruct (mean_noaxis_lemma esh e ev keep 0 Ha He) as (q & E & Eq & H); [pose proof (prod_nonneg esh Hs); lia|].
  exists q. split; [exact E|]. split; [exact Eq|]. intros ix Hi. rewrite (H O ix Hi), (all_block _ _ _ Hi). unfold mean_of, count. rewrite map_length.
  rewrite row_indices_length by exact Hs. do 5 f_equal. lia.
Qed.

Lemma int_zero n : Q2Qc (inject_Z n) = 0%Qc <-> n = 0.
Proof. rewrite Q2Qc_eq_iff. unfold Qeq, inject_Z. cbn. lia. Qed.
Lemma mean_of_some l : l <> [] -> mean_of l = Some (total l / count l)%Qc.
Proof.
  intros H. unfold mean_of, quotient. destruct (Qc_eq_dec _ _) as [E|]; [|reflexivity]. exfalso. apply int_zero in E. destruct l; [congruence|cbn in E; lia].
Qed.

Lemma variance_all_lemma esh e ev keep ddof : addressable esh -> finite esh e ev -> 0 <= ddof <= prod esh ->
  reduces (variance_all esh e ddof keep) keep (all_axes (length esh)) esh (fun b => variance_of ddof (map ev b)).
Proof.
  intros Ha He H0. pose proof Ha as (_ & Hs & _). unfold variance_all, mean_all.
  destruct (mean_noaxis_lemma esh e ev keep 0 Ha He) as (m & -> & Em & Hm); [pose proof (prod_nonneg esh Hs); lia|]. cbn [bind].
  assert (Hz : in_bounds (red_shape keep (all_axes (length esh)) esh) (repeat 0 (if keep then length esh else O) ++ [])).
  { rewrite all_shape, app_nil_r. destruct keep; [|constructor]. clear. induction (length esh); constructor; [lia|assumption]. }
  rewrite (Hm _ _ Hz). cbn [bind]. rewrite Z.sub_0_r.
  set (l := map ev (row_indices esh)).
  assert (Ec : quotient (total l) (Q2Qc (inject_Z (prod esh))) = mean_of l).
  { unfold mean_of, count. f_equal. unfold l. rewrite map_length, row_indices_length by exact Hs. reflexivity. }
  rewrite Ec.
  assert (He' : finite esh (XFun f_square [XFun f_minus [e; XScalar (mean_of l)]]) (fun jx => (ev jx - total l / count l) * (ev jx - total l / count l))%Qc).
  { destruct He as [Ho Hv]. split; [cbn; unfold operands_ok in Ho; tauto|].
    intros jx Hj. rewrite mean_of_some.
    - cbn [x_value map seqM bind]. rewrite (Hv jx Hj). reflexivity.
    - unfold l. apply row_indices_in in Hj. destruct (row_indices esh); [contradiction|discriminate]. }
  destruct (mean_noaxis_lemma esh _ _ keep ddof Ha He' H0) as (q & E & Eq & H). exists q. split; [exact E|]. split; [exact Eq|].
  intros ix Hi. rewrite (H O ix Hi), (all_block _ _ _ Hi). fold l. unfold variance_of, deviations. f_equal. f_equal.
  - f_equal. symmetry. exact (map_map ev (fun x => (x - total l / count l) * (x - total l / count l))%Qc (row_indices esh)).
  - unfold l. rewrite map_length, row_indices_length by exact Hs. reflexivity.
Qed.

(** ** A reshaped view as an operand *)
Lemma seqM_ok {A} (l : list A) : seqM (map (@Ok A) l) = Ok l.
Proof. induction l as [|x l IH]; [reflexivity|]. cbn [map seqM bind]. rewrite IH. reflexivity. Qed.

Lemma find_missing_none l : is_shape l -> find_missing l = None.
Proof. intros H. induction H as [|n l Hn H IH]; [reflexivity|]. cbn [find_missing]. destruct (Z.eqb_spec n (-1)); [lia|]. rewrite IH. reflexivity. Qed.

Lemma operand_lemma L vt wsh bs val w : is_order L -> is_shape wsh -> is_shape bs -> Forall (fun n => n < 2 ^ 64) bs -> prod bs = prod wsh ->
  (forall jx, in_bounds wsh jx -> val jx = Ok (w jx)) ->
  exists v c b, reshape_view L vt (mk_xexp false wsh [] 0 L) bs = Ok v /\ view_operand v val = Ok (XStrided c b) /\ k_shape c = bs /\ strided_ok c /\
    forall ix jx, in_bounds bs ix -> in_bounds wsh jx -> rank L bs ix = rank L wsh jx -> rdz b (k_begin c + dot ix (k_strides c)) = Ok (w jx : num).
Proof.
  intros HL Hw Hb Hb' Hp Hval. set (e := mk_xexp false wsh [] 0 L).
  assert (Er : reshape_view L vt e bs = reshape_view L None e bs).
  { unfold reshape_view, recalculate_shape, recalculate_shape_signed. destruct vt; [|reflexivity]. rewrite find_missing_none by exact Hb. reflexivity. }
  rewrite Er, reshape_ok by assumption. rewrite make_view_ok by apply strides_in_length.
  set (st := adapted bs (strides_in L bs)). exists (mk_sview (lazy e) L bs st (spec_backstrides st bs) 0 (x_layout e)). unfold view_operand, storage_values. cbn [w_base w_flat x_shape lazy e w_shape w_strides SView_Model.w_back w_offset].
  rewrite compute_size_prod.
  assert (Eb : map (fun p => let* c := storage_at L (lazy e) (Z.of_nat p) in match c with Elem ix => val ix | Slot _ => UB end) (seq 0 (Z.to_nat (prod wsh)))
    = map (@Ok num) (map w (indices_of L wsh))).
  { apply nth_error_ext. intros p. rewrite !nth_error_map.
    pose proof (indices_of_length L wsh HL Hw) as Hlen.
    destruct (lt_dec p (Z.to_nat (prod wsh))) as [Hlt|Hge].
    - rewrite (nth_error_nth' _ O) by (rewrite seq_length; exact Hlt). rewrite seq_nth by exact Hlt. cbn [option_map Nat.add].
      destruct (rank_onto L wsh (Z.of_nat p) HL Hw) as (jx & Hj & Ej); [lia|].
      assert (En : nth_error (indices_of L wsh) p = Some jx).
      { pose proof (indices_of_nth L wsh jx HL Hj) as En. replace (order_pos L wsh jx) with (rank L wsh jx) in En by (destruct L; reflexivity). rewrite Ej, Nat2Z.id in En. exact En. }
      rewrite En. cbn [option_map]. rewrite (storage_elem L (lazy e) jx).
      + cbn [bind x_elem lazy x_direct]. rewrite Hval by exact Hj. reflexivity.
      + split; [exact Hw|discriminate].
      + exact HL.
      + exact Hj.
      + unfold get_offset, src_strides. cbn [lazy x_direct x_shape e]. rewrite <- Ej. rewrite Z.add_0_l. symmetry. destruct HL as [ -> | -> ]; [apply dot_row|apply dot_col]; exact Hj.
    - rewrite !(proj2 (nth_error_None _ _)); [reflexivity| |rewrite seq_length; lia]. lia. }
  rewrite Eb, seqM_ok. cbn [bind]. eexists. eexists. split; [reflexivity|]. split; [reflexivity|]. cbn [k_shape k_begin k_strides k_backstrides]. split; [reflexivity|].
  split.
  - unfold strided_ok. cbn [k_shape k_begin k_strides k_backstrides]. unfold st. rewrite adapted_length. split; [reflexivity|].
    split; [unfold spec_backstrides; rewrite map_length, seq_length; reflexivity|]. intros j Hj. rewrite adapted_nth by exact Hj. split.
    + intros ->. reflexivity.
    + rewrite nth_spec_backstrides by exact Hj. rewrite adapted_nth by exact Hj. reflexivity.
  - intros ix jx Hi Hj E. unfold st. rewrite dot_adapted by (auto using strides_in_length). rewrite dot_rank by assumption. rewrite E, Z.add_0_l.
    pose proof (rank_bound L wsh jx HL Hj) as Hr. apply rdz_ok; [lia|]. rewrite nth_error_map.
    pose proof (indices_of_nth L wsh jx HL Hj) as En. replace (order_pos L wsh jx) with (rank L wsh jx) in En by (destruct L; reflexivity). rewrite En. reflexivity.
Qed.
