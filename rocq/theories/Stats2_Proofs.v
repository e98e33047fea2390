(** Variances along axes. *)
From Coq Require Import List ZArith Lia Bool QArith Qcanon Sorted.
From Verif Require Import Prelude PreludeFacts Strides_Model Strides_Spec Strides_Proofs Access_Model Broadcast_Model Broadcast_Spec Container_Spec
  SView_Model SView_Spec SView_Proofs Stepper_Model Stepper_Spec Stepper_Proofs Stepper4_Proofs Reshape_Model Reshape_Spec Reshape_Proofs
  Reduce_Model Reduce_Spec Reduce_Proofs Reduce3_Proofs Reduce4_Proofs Reduce5_Proofs Reduce7_Proofs Reduce8_Proofs Reduce9_Proofs Reduce13_Proofs Reduce14_Proofs
  Block2_Proofs Stats_Model Stats_Spec Stats_Proofs.
Import ListNotations.
Open Scope Z_scope.

(** ** The shape and the index with the reduced axes kept *)
Lemma keep_prod axes : forall sh k, prod (replaced axes 1 k sh) = prod (without axes k sh).
Proof. induction sh as [|d sh IH]; intros k; [reflexivity|]. cbn [replaced without]. destruct (in_dec _ _ _); rewrite ?prod_cons, IH; ring. Qed.
Lemma keep_shape axes : forall sh k, is_shape sh -> is_shape (replaced axes 1 k sh).
Proof. induction sh as [|d sh IH]; intros k H; [constructor|]. inversion H; subst. cbn [replaced]. destruct (in_dec _ _ _); constructor; try lia; apply IH; assumption. Qed.
Lemma without_shape axes : forall sh k, is_shape sh -> is_shape (without axes k sh).
Proof. induction sh as [|d sh IH]; intros k H; [constructor|]. inversion H; subst. cbn [without]. destruct (in_dec _ _ _); [|constructor; [assumption|]]; apply IH; assumption. Qed.
Lemma keep_pos axes : forall sh ix k, length ix = length sh -> row_pos (replaced axes 1 k sh) (replaced axes 0 k ix) = row_pos (without axes k sh) (without axes k ix).
Proof.
  induction sh as [|d sh IH]; intros [|i ix] k H; try discriminate; [reflexivity|]. cbn [length] in H. cbn [replaced without].
  destruct (in_dec _ _ _); cbn [row_pos]; rewrite IH by lia; rewrite ?keep_prod; ring.
Qed.
Lemma keep_bc axes sh ix : in_bounds sh ix -> bc_index (replaced axes 1 0 sh) ix = replaced axes 0 0 ix.
Proof.
  intros H. unfold bc_index. rewrite replaced_length, (in_bounds_length _ _ H), Nat.sub_diag. cbn [skipn]. generalize 0 at 1 3.
  induction H as [|d i sh ix Hi H IH]; intros k; [reflexivity|]. cbn [replaced zero_unit]. rewrite IH. f_equal.
  destruct (in_dec _ _ _); [reflexivity|]. destruct (Z.eqb_spec d 1); lia.
Qed.
Lemma keep_fits axes sh : fits (replaced axes 1 0 sh) sh.
Proof.
  apply wider_fits. generalize 0 at 1. induction sh as [|d sh IH]; intros k; [constructor|]. cbn [replaced]. constructor; [|apply IH].
  unfold wider. destruct (in_dec _ _ _); auto.
Qed.
Lemma same_kept axes : forall x y k, length x = length y -> (without axes k x = without axes k y <-> replaced axes 0 k x = replaced axes 0 k y).
Proof.
  induction x as [|a x IH]; intros [|b y] k H; try discriminate; [tauto|]. cbn [length] in H. cbn [replaced without]. specialize (IH y (k + 1) ltac:(lia)).
  destruct (in_dec _ _ _).
  - rewrite IH. split; intros E; [rewrite E; reflexivity|injection E; auto].
  - split; intros E; injection E as -> E; f_equal; apply IH; exact E.
Qed.
Lemma same_block keep axes sh ix jx : In jx (block row_major keep axes sh ix) -> block row_major false axes sh (without axes 0 jx) = block row_major keep axes sh ix.
Proof.
  intros H. apply filter_In in H as [Hj E]. destruct (list_eq_dec _ _ _) as [E'|]; [|discriminate]. clear E. subst ix.
  unfold block. apply filter_ext_in. intros kx Hk. cbn [indices_of] in *. apply row_indices_in in Hj, Hk. cbn [red_index].
  assert (L : length kx = length jx) by (rewrite (in_bounds_length _ _ Hj), (in_bounds_length _ _ Hk); reflexivity).
  pose proof (same_kept axes kx jx 0 L) as S. destruct keep; cbn [red_index]; repeat destruct (list_eq_dec _ _ _); tauto.
Qed.

(** ** keep_dim_shape *)
Lemma replaced_snoc a axes v : forall l k, replaced (axes ++ [a]) v k l = replaced [a] v k (replaced axes v k l).
Proof.
  induction l as [|x l IH]; intros k; [reflexivity|]. cbn [replaced]. rewrite IH. f_equal.
  destruct (in_dec Z.eq_dec k (axes ++ [a])) as [H|H], (in_dec Z.eq_dec k [a]) as [H1|H1], (in_dec Z.eq_dec k axes) as [H2|H2]; try reflexivity; exfalso;
    rewrite in_app_iff in H; tauto.
Qed.
Lemma wrz_replaced a v l k : k <= a < k + Z.of_nat (length l) -> wrz l (a - k) v = Ok (replaced [a] v k l).
Proof.
  revert k. induction l as [|x l IH]; intros k H; cbn [length] in H; [lia|]. unfold wrz in *. destruct (Z.ltb_spec (a - k) 0); [lia|].
  cbn [replaced]. destruct (in_dec _ _ _) as [H'|H'].
  - destruct H' as [ -> |[]]. rewrite Z.sub_diag, replaced_none by (intros j _ [E|[]]; lia). reflexivity.
  - assert (Hne : a <> k) by (intros ->; apply H'; left; reflexivity).
    replace (Z.to_nat (a - k)) with (S (Z.to_nat (a - (k + 1)))) by lia. specialize (IH (k + 1) ltac:(lia)).
    destruct (Z.ltb_spec (a - (k + 1)) 0); [lia|]. rewrite wr_ok in IH by lia. injection IH as IH.
    rewrite wr_ok by (cbn [length]; lia). cbn [upd]. rewrite IH. reflexivity.
Qed.
Lemma kd_ok axes sh : Forall (fun a => 0 <= a < Z.of_nat (length sh)) axes ->
  for_each (fun el k => wrz k el 1) axes sh = Ok (replaced axes 1 0 sh).
Proof.
  intros H. assert (G : forall done, for_each (fun el k => wrz k el 1) axes (replaced done 1 0 sh) = Ok (replaced (done ++ axes) 1 0 sh)).
  { induction H as [|a axes Ha H IH]; intros done; cbn [for_each]; [rewrite app_nil_r; reflexivity|].
    rewrite <- (Z.sub_0_r a) at 1. rewrite wrz_replaced by (rewrite replaced_length; lia). cbn [bind].
    rewrite <- replaced_snoc, IH, <- app_assoc. reflexivity. }
  specialize (G []). rewrite (replaced_none [] 1 sh 0) in G by (intros j _ []). exact G.
Qed.

Lemma variance_general esh e ev axes keep ddof : addressable esh -> finite esh e ev -> valid_axes (length esh) axes -> 0 <= ddof ->
  exists q, variance_axes esh e axes ddof keep = Ok q /\ q_shape q = red_shape keep axes esh /\
    (forall ix, in_bounds (red_shape keep axes esh) ix -> ddof <= prod esh ->
       q_at q ix = Ok (quotient (deviations (map ev (block row_major keep axes esh ix))) (Q2Qc (inject_Z ((prod esh - ddof) / prod (red_shape keep axes esh)))))).
Proof.
  intros Ha He Hv H0. pose proof Ha as (Hd & Hs & Hp & Hx). pose proof (names_self _ _ (proj2 Hv)) as Hn. unfold variance_axes.
  destruct (mean_lemma esh e ev axes axes false Ha He Hn Hv) as (m & -> & Em & Hm). cbn [bind].
  rewrite kd_ok by (exact (proj2 Hv)). cbn [bind]. rewrite Em. cbn [red_shape] in *.
  set (M := fun jx => mean_of (map ev (block row_major false axes esh jx))).
  destruct (operand_lemma row_major (Some 64) (without axes 0 esh) (replaced axes 1 0 esh) (q_at m) M) as (v & c & b & -> & E2 & Ec & Hc & Hr).
  { left. reflexivity. }
  { apply without_shape. exact Hs. }
  { apply keep_shape. exact Hs. }
  { revert Hx. clear. generalize 0. induction esh as [|d sh IH]; intros k H; [constructor|]. inversion H; subst. cbn [replaced]. destruct (in_dec _ _ _); constructor; try lia; apply IH; assumption. }
  { apply keep_prod. }
  { exact Hm. }
  cbn [bind]. rewrite E2. cbn [bind].
  set (D := fun jx => (ev jx - total (map ev (block row_major false axes esh (without axes 0 jx))) / count (map ev (block row_major false axes esh (without axes 0 jx))))%Qc).
  assert (He' : finite esh (XFun f_square [XFun f_minus [e; XStrided c b]]) (fun jx => D jx * D jx)%Qc).
  { destruct He as [Ho Hy]. split.
    - unfold operands_ok in *. cbn [all_leaves fold_right]. rewrite Ec. split; [|exact I]. split; [exact Ho|]. split; [|exact I]. split; [apply keep_fits|exact Hc].
    - intros jx Hj. cbn [x_value map seqM bind]. rewrite (Hy jx Hj). cbn [bind].
      rewrite Ec, keep_bc by exact Hj. rewrite (Hr (replaced axes 0 0 jx) (without axes 0 jx)).
      + cbn [bind]. unfold M. rewrite mean_of_some; [reflexivity|].
        assert (Hb : In jx (block row_major false axes esh (without axes 0 jx))).
        { apply filter_In. cbn [indices_of red_index]. split; [apply row_indices_in; exact Hj|]. destruct (list_eq_dec _ _ _); [reflexivity|congruence]. }
        destruct (block row_major false axes esh (without axes 0 jx)); [contradiction|discriminate].
      + exact (rix_bounds true axes esh 0 jx Hj).
      + exact (rix_bounds false axes esh 0 jx Hj).
      + cbn [rank]. apply keep_pos. apply (in_bounds_length _ _ Hj). }
  destruct (mean_ddof_lemma esh _ _ axes axes keep ddof Ha He' Hn Hv H0) as (q & E & Eq & H). exists q. split; [exact E|]. split; [exact Eq|].
  intros ix Hi Hle. rewrite (H ix Hi Hle). do 2 f_equal. unfold deviations. f_equal. rewrite map_map. apply map_ext_in. intros jx Hj.
  unfold D. rewrite (same_block keep axes esh ix jx Hj). reflexivity.
Qed.

Lemma variance_lemma esh e ev axes keep ddof : addressable esh -> finite esh e ev -> valid_axes (length esh) axes ->
  0 <= ddof -> ddof <= 1 \/ prod (red_shape keep axes esh) = 1 -> ddof * prod (red_shape keep axes esh) <= prod esh ->
  reduces (variance_axes esh e axes ddof keep) keep axes esh (fun b => variance_of ddof (map ev b)).
Proof.
  intros Ha He Hv H0 H1 H2. destruct (variance_general esh e ev axes keep ddof Ha He Hv H0) as (q & E & Eq & H).
  exists q. split; [exact E|]. split; [exact Eq|]. intros ix Hi. destruct Ha as (_ & Hs & _).
  pose proof (in_bounds_prod _ _ Hi) as Hpos. rewrite (H ix Hi) by nia. unfold variance_of. do 4 f_equal.
  rewrite map_length. pose proof (block_size keep axes esh ix Hs Hi) as B. set (n := Z.of_nat _) in *. set (r := prod (red_shape _ _ _)) in *. rewrite <- B.
  destruct H1 as [H1| -> ]; [|rewrite Z.div_1_r; lia]. symmetry. apply (Z.div_unique _ _ _ (r * ddof - ddof)); nia.
Qed.

Lemma ddof_lemma esh e ev axes keep ddof : addressable esh -> finite esh e ev -> valid_axes (length esh) axes ->
  2 <= ddof -> 2 <= prod (red_shape keep axes esh) -> ddof * prod (red_shape keep axes esh) <= prod esh ->
  exists q, variance_axes esh e axes ddof keep = Ok q /\
    forall ix, in_bounds (red_shape keep axes esh) ix -> let l := map ev (block row_major keep axes esh ix) in
      exists d, Z.of_nat (length l) - ddof < d /\ q_at q ix = Ok (quotient (deviations l) (Q2Qc (inject_Z d))).
Proof.
  intros Ha He Hv H0 H1 H2. destruct (variance_general esh e ev axes keep ddof Ha He Hv ltac:(lia)) as (q & E & Eq & H).
  exists q. split; [exact E|]. intros ix Hi l. exists ((prod esh - ddof) / prod (red_shape keep axes esh)). split; [|apply H; [exact Hi|nia]].
  unfold l. rewrite map_length. destruct Ha as (_ & Hs & _). pose proof (block_size keep axes esh ix Hs Hi) as B. set (n := Z.of_nat _) in *. set (r := prod (red_shape _ _ _)) in *. rewrite <- B.
  enough (n - ddof + 1 <= (r * n - ddof) / r) by lia. apply Z.div_le_lower_bound; nia.
Qed.

Lemma negative_lemma esh e ev axes pos ddof keep : addressable esh -> finite esh e ev -> names (length esh) axes pos -> valid_axes (length esh) pos ->
  Exists (fun a => a < 0) axes -> variance_axes esh e axes ddof keep = UB.
Proof.
  intros Ha He Hn Hv Hx. unfold variance_axes. destruct (mean_lemma esh e ev axes pos false Ha He Hn Hv) as (m & -> & _ & _). cbn [bind].
  assert (G : for_each (fun el k => wrz k el 1) axes esh = UB); [|rewrite G; reflexivity].
  clear - Hx. revert esh. induction Hx as [a axes H|a axes _ IH]; intros esh; cbn [for_each].
  - unfold wrz. destruct (Z.ltb_spec a 0); [reflexivity|lia].
  - unfold wrz at 1. destruct (a <? 0); [reflexivity|]. unfold wr. destruct (_ <? _)%nat; [apply IH|reflexivity].
Qed.

Lemma braces_lemma esh e ddof keep : esh <> [] -> Z.of_nat (length esh) < 2 ^ 64 - 1 -> variance_braces esh e [-1] ddof keep = Throw runtime_error.
Proof.
  intros Hne Hd. unfold variance_braces, variance_axes, mean_axes, mean_ddof, sum_axes. cbn [map].
  change (to_size_t (-1)) with (2 ^ 64 - 1). change (normalize_axis (length esh) (2 ^ 64 - 1)) with (2 ^ 64 - 1).
  rewrite bad_axes_lemma; [reflexivity|lia|exact Hne|constructor; [lia|constructor]| |left; destruct esh; [congruence|cbn; lia]].
  intros [_ H]. inversion H. lia.
Qed.
