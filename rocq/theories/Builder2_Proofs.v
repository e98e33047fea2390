(** Proofs about split followed by concatenate, the functions of the index, arange and
    linspace. *)
From Coq Require Import List ZArith Bool Lia.
From Verif Require Import Prelude PreludeFacts Strides_Model Strides_Spec Strides_Proofs Access_Model SView_Model SView_Spec
  Manip_Model Manip_Spec Manip_Proofs Manip2_Proofs Manip4_Proofs Manip5_Proofs Builder_Model Builder_Spec Builder_Proofs.
Import ListNotations.
Open Scope Z_scope.

Lemma extent_sum_const {V} axis step (t : list (operand V)) : (forall o, In o t -> nth axis (o_shape o) 0 = step) ->
  extent_sum axis t = Z.of_nat (length t) * step.
Proof.
  induction t as [|o t IH]; intros H; [cbn; lia|]. rewrite extent_sum_cons, IH by (intros; apply H; right; auto).
  rewrite (H o (or_introl eq_refl)). cbn [length]. lia.
Qed.

Lemma prod_upd sh axis step n : (axis < length sh)%nat -> nth axis sh 0 = n * step -> prod sh = n * prod (upd sh axis step).
Proof.
  intros Ha E. rewrite (nth_split_at sh axis Ha) at 1. rewrite (upd_split sh axis step Ha), !prod_app, !prod_cons, E. ring.
Qed.

Lemma split_concatenate_lemma : forall (V : Type) (d : V) (val : cell -> V) (T : layout) (e : xexp) (n axis : nat)
    (junk : nat -> list Z) (vs : list sview),
  T = row_major \/ T = column_major -> wf_exp e -> (0 < n)%nat -> small (exp_operand val e) ->
  split T e n axis junk = Ok vs ->
  exists g, concatenate d (map (view_operand val d) vs) axis = Ok g /\ g_shape g = x_shape e /\
    forall ix, in_bounds (x_shape e) ix -> gives g ix (val (x_elem e ix)).
Proof.
  intros V d val T e n axis junk vs HT He Hn (Hsm1 & Hsm2) Hsplit. cbn in Hsm1, Hsm2.
  destruct (split_lemma T e n axis junk HT He Hn) as (Hok & Hko).
  assert (Hcond : (axis < length (x_shape e))%nat /\ exists step, nth axis (x_shape e) 0 = Z.of_nat n * step).
  { destruct (Nat.lt_ge_cases axis (length (x_shape e))) as [Ha|Ha].
    - destruct (Z.eq_dec (nth axis (x_shape e) 0 mod Z.of_nat n) 0) as [Em|Em].
      + split; auto. exists (nth axis (x_shape e) 0 / Z.of_nat n).
        pose proof (Z.div_mod (nth axis (x_shape e) 0) (Z.of_nat n) ltac:(lia)). lia.
      + rewrite Hko in Hsplit; [discriminate|]. intros (_ & step & E). apply Em. rewrite E, Z.mul_comm. apply Z.mod_mul. lia.
    - rewrite Hko in Hsplit; [discriminate|]. lia. }
  destruct (Hok Hcond) as (vs' & step & Evs & Hlen & Hstep & Hvs). rewrite Evs in Hsplit. injection Hsplit as ->.
  destruct Hcond as (Ha & _).
  set (t := map (view_operand val d) vs).
  assert (Hstep0 : 0 <= step). { pose proof (nth_shape_nonneg _ axis Hsm1). nia. }
  assert (Ht : forall o, In o t -> o_shape o = upd (x_shape e) axis step).
  { intros o Ho. unfold t in Ho. apply in_map_iff in Ho as (v & <- & Hv). apply In_nth_error in Hv as (i & Hi).
    apply (Hvs i v Hi). }
  assert (Hc : conform axis t).
  { intros o1 o2 H1 H2. rewrite (Ht o1 H1), (Ht o2 H2), upd_length. repeat split; auto. }
  assert (Hsmall : forall o, In o t -> small o).
  { intros o Ho. unfold small. rewrite (Ht o Ho). split.
    - unfold is_shape. apply Forall_forall. intros x Hx. apply In_nth with (d := 0) in Hx as (i & Hi & <-).
      rewrite upd_length in Hi. destruct (Nat.eq_dec i axis) as [->|Hne]; [rewrite nth_upd_same by auto; auto|].
      rewrite nth_upd_other by auto. apply nth_shape_nonneg; auto.
    - pose proof (prod_upd _ _ _ _ Ha Hstep) as Hp.
      assert (0 <= prod (upd (x_shape e) axis step)); [|nia].
      apply prod_nonneg. unfold is_shape. apply Forall_forall. intros x Hx. apply In_nth with (d := 0) in Hx as (i & Hi & <-).
      rewrite upd_length in Hi. destruct (Nat.eq_dec i axis) as [->|Hne]; [rewrite nth_upd_same by auto; auto|].
      rewrite nth_upd_other by auto. apply nth_shape_nonneg; auto. }
  assert (Hlt : length t = n) by (unfold t; rewrite map_length; auto).
  destruct (concatenate_lemma V d t axis) as (g & Eg & Hsh & Hg & Hcov); auto.
  { intros E. rewrite E in Hlt. cbn in Hlt. lia. }
  exists g. split; [exact Eg|].
  assert (Hext : forall k, (k <= n)%nat -> extent_sum axis (firstn k t) = Z.of_nat k * step).
  { intros k Hk. rewrite (extent_sum_const axis step).
    - rewrite firstn_length. f_equal. lia.
    - intros o Ho. rewrite (Ht o); [rewrite nth_upd_same by auto; auto|].
      rewrite <- (firstn_skipn k t). apply in_or_app; auto. }
  assert (Eshape : g_shape g = x_shape e).
  { destruct t as [|o t'] eqn:Et; [cbn in Hlt; lia|]. rewrite (Hsh o (or_introl eq_refl)), (Ht o (or_introl eq_refl)).
    rewrite upd_upd_same. rewrite <- (firstn_all (o :: t')), Hlt, Hext by lia.
    apply upd_nth_self. rewrite <- Hstep. apply nth_error_nth'. auto. }
  split; [exact Eshape|].
  intros ix Hb. rewrite <- Eshape in Hb. destruct (Hcov ix Hb) as (k & o & jx & Hk & Hbj & ->).
  destruct (Hg k o jx Hk Hbj) as (_ & Hgive).
  unfold t in Hk. rewrite nth_error_map in Hk. destruct (nth_error vs k) as [v|] eqn:Hv; [|discriminate].
  injection Hk as <-.
  assert (Hkn : (k < n)%nat) by (rewrite <- Hlen; apply nth_error_Some; congruence).
  destruct (Hvs k v Hv) as (_ & _ & Hr). destruct (Hr jx Hbj) as (_ & _ & He' & _).
  cbn [view_operand o_at] in Hgive. rewrite He' in Hgive.
  unfold placed. unfold placed in Hgive. rewrite Hext in * by lia. exact Hgive.
Qed.

(** ** functions of the index *)

Lemma shows_read read ix i x : shows read 0 ix -> nth_error ix i = Some x -> read (Z.of_nat i) = Ok x.
Proof. intros H E. rewrite <- (Z.add_0_r (Z.of_nat i)). apply H. auto. Qed.

Lemma fn_gives {V} (f : (Z -> res Z) -> nat -> res V) sh ix v :
  in_bounds sh ix -> ix <> [] ->
  (forall read, shows read 0 ix -> f read (length ix) = Ok v) -> gives (fn_impl f sh) ix v.
Proof.
  intros Hb Hne H. apply gives_intro; auto.
  - cbn [fn_impl g_fun]. destruct ix; [congruence|]. apply H. apply shows_rdz0.
  - cbn [fn_impl g_elem g_shape]. apply H. apply shows_bounded. auto.
Qed.

(** a + k computed in size_t and compared with an index *)
Lemma size_t_shift a b k : 0 <= a < 2 ^ 63 -> 0 <= b < 2 ^ 63 -> is_int k ->
  (to_size_t (a + to_size_t k) =? b) = (a + k =? b).
Proof.
  intros Ha Hb Hk. unfold to_size_t. rewrite Zplus_mod_idemp_r. unfold is_int in Hk.
  destruct (Z.eqb_spec (a + k) b) as [E|E].
  - rewrite Z.mod_small by lia. apply Z.eqb_eq; auto.
  - apply Z.eqb_neq. intros E2. destruct (Z.lt_ge_cases (a + k) 0) as [Hn|Hn].
    + rewrite <- (Z.mod_add _ 1) in E2 by lia. rewrite Z.mod_small in E2 by lia. lia.
    + rewrite Z.mod_small in E2 by lia. lia.
Qed.

Lemma eye_lemma : forall (lead : list Z) (n m k : Z) (lx : list Z) (i j : Z),
  holdable [n; m] -> is_int k -> in_bounds (lead ++ [n; m]) (lx ++ [i; j]) ->
  gives (eye (lead ++ [n; m]) k) (lx ++ [i; j]) (j - i =? k).
Proof.
  intros lead n m k lx i j Hh Hk Hb. unfold eye.
  assert (Hl : length lx = length lead).
  { apply in_bounds_length in Hb. rewrite !app_length in Hb. cbn in Hb. lia. }
  apply fn_gives; auto; [destruct lx; discriminate|].
  intros read Hr. unfold eye_fn. rewrite app_length. cbn [length].
  replace (Z.of_nat (length lx + 2) - 1) with (Z.of_nat (length lx + 1)) by lia.
  replace (Z.of_nat (length lx + 2) - 2) with (Z.of_nat (length lx)) by lia.
  rewrite (shows_read _ _ (length lx + 1) j Hr) by (rewrite nth_error_app2 by lia; replace (length lx + 1 - length lx)%nat with 1%nat by lia; auto).
  rewrite (shows_read _ _ (length lx) i Hr) by (rewrite nth_error_app2, Nat.sub_diag by lia; auto).
  cbn [bind].
  assert (Hij : 0 <= i < n /\ 0 <= j < m).
  { pose proof (in_bounds_nth _ _ (length lead) Hb ltac:(rewrite app_length; cbn; lia)) as H1.
    pose proof (in_bounds_nth _ _ (length lead + 1) Hb ltac:(rewrite app_length; cbn; lia)) as H2.
    rewrite !app_nth2 in H1 by lia. rewrite !app_nth2 in H2 by lia.
    rewrite Hl, Nat.sub_diag in H1. replace (length lead + 1 - length lead)%nat with 1%nat in H2 by lia.
    rewrite Hl in H2. replace (length lead + 1 - length lead)%nat with 1%nat in H2 by lia. cbn in H1, H2. auto. }
  inversion Hh as [|? ? Hn Hh']; subst. inversion Hh' as [|? ? Hm _]; subst.
  rewrite size_t_shift by (auto; lia). f_equal.
  destruct (Z.eqb_spec (i + k) j), (Z.eqb_spec (j - i) k); auto; lia.
Qed.

Lemma diag_lemma : forall (V : Type) (zero : V) (arr : operand V) (n k : Z),
  o_shape arr = [n] -> 0 <= n -> n + Z.abs k < 2 ^ 63 -> is_int k ->
  exists g, diag zero arr k = Ok g /\ g_shape g = [n + Z.abs k; n + Z.abs k] /\
    forall i j, in_bounds (g_shape g) [i; j] ->
      gives g [i; j] (if j - i =? k then o_at arr [Z.min i j] else zero).
Proof.
  intros V zero arr n k Hsh Hn Hh Hk. unfold diag. rewrite Hsh. change (rd [n] 0) with (Ok n). cbn [bind].
  eexists. split; [reflexivity|]. split; [reflexivity|]. cbn [g_shape fn_impl]. intros i j Hb.
  apply fn_gives; auto; [discriminate|]. intros read Hr. unfold diag_fn.
  pose proof (shows_read _ _ 0 i Hr eq_refl) as R0. pose proof (shows_read _ _ 1 j Hr eq_refl) as R1.
  change (Z.of_nat 0) with 0 in R0. change (Z.of_nat 1) with 1 in R1. rewrite R0. cbn [bind]. rewrite R1. cbn [bind].
  inversion Hb as [|? ? ? ? Hi Hb1]; subst. inversion Hb1 as [|? ? ? ? Hj _]; subst.
  rewrite size_t_shift by (auto; lia).
  assert (E : (j - i =? k) = (i + k =? j)) by (destruct (Z.eqb_spec (i + k) j), (Z.eqb_spec (j - i) k); auto; lia).
  rewrite E. destruct (Z.eqb_spec (i + k) j) as [Ej|Ej]; destruct (Z.ltb_spec 0 k) as [Hp|Hp]; auto.
  - rewrite o_get_ok by (rewrite Hsh; repeat constructor; lia). rewrite Z.min_l by lia. reflexivity.
  - rewrite Z.min_r by lia. unfold to_size_t at 1. unfold to_size_t at 1. rewrite Zplus_mod_idemp_r, Z.mod_small by lia.
    rewrite o_get_ok by (rewrite Hsh; repeat constructor; lia). rewrite Ej. reflexivity.
Qed.

Lemma read_range_ok read ix : forall m, shows read (Z.of_nat m) ix -> read_range read (Z.of_nat m) (length ix) = Ok ix.
Proof.
  induction ix as [|x ix IH]; intros m H; cbn [read_range length]; auto.
  pose proof (H 0%nat x eq_refl) as H0. rewrite Z.add_0_l in H0. rewrite H0. cbn [bind].
  replace (Z.of_nat m + 1) with (Z.of_nat (S m)) by lia. rewrite IH; auto.
  intros i y Hy. replace (Z.of_nat i + Z.of_nat (S m)) with (Z.of_nat (S i) + Z.of_nat m) by lia. apply H. auto.
Qed.

Lemma trilu_gives {V} (zero : V) (arr : operand V) k comp n m sh i j ix :
  o_shape arr = n :: m :: sh -> in_bounds (o_shape arr) (i :: j :: ix) ->
  gives (fn_impl (trilu_fn zero arr k comp) (o_shape arr)) (i :: j :: ix)
    (if comp (i + k) j then o_at arr (i :: j :: ix) else zero).
Proof.
  intros Hsh Hb. apply fn_gives; auto; [discriminate|]. intros read Hr. unfold trilu_fn.
  pose proof (shows_read _ _ 0 i Hr eq_refl) as R0. pose proof (shows_read _ _ 1 j Hr eq_refl) as R1.
  change (Z.of_nat 0) with 0 in R0. change (Z.of_nat 1) with 1 in R1. rewrite R0. cbn [bind]. rewrite R1. cbn [bind].
  destruct (comp (i + k) j); auto.
  pose proof (read_range_ok read (i :: j :: ix) 0 Hr) as E. change (Z.of_nat 0) with 0 in E. rewrite E. cbn [bind].
  apply o_get_ok. auto.
Qed.

Lemma tril_lemma : forall (V : Type) (zero : V) (arr : operand V) (k n m : Z) (sh : list Z) (i j : Z) (ix : list Z),
  o_shape arr = n :: m :: sh -> in_bounds (o_shape arr) (i :: j :: ix) ->
  g_shape (tril zero arr k) = o_shape arr /\
  gives (tril zero arr k) (i :: j :: ix) (if j - i <=? k then o_at arr (i :: j :: ix) else zero).
Proof.
  intros. split; [reflexivity|]. unfold tril.
  replace (j - i <=? k) with (j <=? i + k) by (destruct (Z.leb_spec j (i + k)), (Z.leb_spec (j - i) k); auto; lia).
  eapply (trilu_gives zero arr k (fun a b => b <=? a)); eauto.
Qed.
Lemma triu_lemma : forall (V : Type) (zero : V) (arr : operand V) (k n m : Z) (sh : list Z) (i j : Z) (ix : list Z),
  o_shape arr = n :: m :: sh -> in_bounds (o_shape arr) (i :: j :: ix) ->
  g_shape (triu zero arr k) = o_shape arr /\
  gives (triu zero arr k) (i :: j :: ix) (if k <=? j - i then o_at arr (i :: j :: ix) else zero).
Proof.
  intros. split; [reflexivity|]. unfold triu.
  replace (k <=? j - i) with (i + k <=? j) by (destruct (Z.leb_spec (i + k) j), (Z.leb_spec k (j - i)); auto; lia).
  eapply (trilu_gives zero arr k (fun a b => a <=? b)); eauto.
Qed.

(** ** meshgrid *)

Lemma meshgrid_shape {V} (es : list (operand V)) : forall acc,
  (forall o, In o es -> length (o_shape o) = 1%nat) ->
  for_each (fun o acc => let* n := rd (o_shape o) 0 in Ok (acc ++ [n])) es acc = Ok (acc ++ map (fun o => nth 0 (o_shape o) 0) es).
Proof.
  induction es as [|o es IH]; intros acc H; cbn [for_each map]; [rewrite app_nil_r; auto|].
  rewrite (rd_nth 0) by (rewrite (H o (or_introl eq_refl)); lia). cbn [bind].
  rewrite IH by (intros; apply H; right; auto). rewrite <- app_assoc. reflexivity.
Qed.
Lemma meshgrid_from_nth {V} sh (es : list (operand V)) : forall a k o, nth_error es k = Some o ->
  nth_error (meshgrid_from sh a es) k = Some (meshgrid_one sh o (a + k)).
Proof.
  induction es as [|e es IH]; intros a [|k] o H; cbn in H |- *; try discriminate.
  - injection H as ->. rewrite Nat.add_0_r. reflexivity.
  - rewrite (IH (S a) k o H). f_equal. f_equal. lia.
Qed.
Lemma meshgrid_from_length {V} sh (es : list (operand V)) : forall a, length (meshgrid_from sh a es) = length es.
Proof. induction es; intros; cbn; auto. Qed.

Lemma meshgrid_lemma : forall (V : Type) (es : list (operand V)),
  (forall o, In o es -> length (o_shape o) = 1%nat) ->
  exists gs, meshgrid es = Ok gs /\ length gs = length es /\
    forall k o g, nth_error es k = Some o -> nth_error gs k = Some g ->
      g_shape g = map (fun o => nth 0 (o_shape o) 0) es /\
      forall ix, in_bounds (g_shape g) ix -> gives g ix (o_at o [nth k ix 0]).
Proof.
  intros V es H. unfold meshgrid. rewrite meshgrid_shape by auto. cbn [bind app].
  eexists. split; [reflexivity|]. split; [apply meshgrid_from_length|].
  intros k o g Ho Hg. rewrite (meshgrid_from_nth _ _ _ _ _ Ho) in Hg. injection Hg as <-. split; [reflexivity|].
  cbn [g_shape meshgrid_one]. intros ix Hb.
  assert (Hk : (k < length es)%nat) by (apply nth_error_Some; congruence).
  pose proof (in_bounds_length _ _ Hb) as Hl. rewrite map_length in Hl.
  assert (G : forall read, shows read 0 ix -> repeat_fn o (0 + k) read = Ok (o_at o [nth k ix 0])).
  { intros read Hr. unfold repeat_fn. rewrite (shows_read _ _ _ (nth k ix 0) Hr) by (apply nth_error_nth'; lia).
    cbn [bind]. apply o_get_ok.
    pose proof (in_bounds_nth _ _ k Hb ltac:(rewrite map_length; auto)) as Hbk.
    assert (Ek : nth k (map (fun o => nth 0 (o_shape o) 0) es) 0 = nth 0 (o_shape o) 0).
    { apply nth_error_nth. rewrite nth_error_map, Ho. reflexivity. }
    rewrite Ek in Hbk.
    pose proof (H o (nth_error_In _ _ Ho)) as Ho1. destruct (o_shape o) as [|n [|? ?]]; try discriminate.
    cbn in Hbk. repeat constructor; lia. }
  apply gives_intro; auto; cbn [g_fun g_elem meshgrid_one g_shape]; apply G; [apply shows_rdz0|apply shows_bounded; auto].
Qed.

(** ** diagonal *)

Definition two (a1 a2 : nat) : list Z := [Z.of_nat a1; Z.of_nat a2].
Lemma two_in a1 a2 i : existsb (Z.eqb (Z.of_nat i)) (two a1 a2) = ((i =? a1) || (i =? a2))%nat.
Proof.
  cbn [existsb two]. rewrite orb_false_r. f_equal.
  - destruct (Z.eqb_spec (Z.of_nat i) (Z.of_nat a1)), (Nat.eqb_spec i a1); auto; lia.
  - destruct (Z.eqb_spec (Z.of_nat i) (Z.of_nat a2)), (Nat.eqb_spec i a2); auto; lia.
Qed.

Lemma drop_two_length a1 a2 : a1 <> a2 -> forall (l : list Z) k,
  (length (drop_axes (two a1 a2) k l) +
   ((if (k <=? a1) && (a1 <? k + length l) then 1 else 0) + (if (k <=? a2) && (a2 <? k + length l) then 1 else 0)) = length l)%nat.
Proof.
  intros Hne. induction l as [|x l IH]; intros k; cbn [drop_axes length].
  - destruct (Nat.leb_spec k a1), (Nat.ltb_spec a1 (k + 0)), (Nat.leb_spec k a2), (Nat.ltb_spec a2 (k + 0)); cbn [andb]; lia.
  - specialize (IH (S k)). rewrite two_in. 
    destruct (Nat.eqb_spec k a1), (Nat.eqb_spec k a2); cbn [orb length];
    destruct (Nat.leb_spec k a1), (Nat.ltb_spec a1 (k + S (length l))), (Nat.leb_spec k a2), (Nat.ltb_spec a2 (k + S (length l)));
    destruct (Nat.leb_spec (S k) a1), (Nat.ltb_spec a1 (S k + length l)), (Nat.leb_spec (S k) a2), (Nat.ltb_spec a2 (S k + length l));
    cbn [andb] in *; lia.
Qed.
Lemma drop_two_all a1 a2 (l : list Z) : a1 <> a2 -> (a1 < length l)%nat -> (a2 < length l)%nat ->
  (length (drop_axes (two a1 a2) 0 l) + 2 = length l)%nat.
Proof.
  intros Hne H1 H2. pose proof (drop_two_length a1 a2 Hne l 0) as H. cbn [Nat.add Nat.leb] in H.
  rewrite (proj2 (Nat.ltb_lt _ _) H1), (proj2 (Nat.ltb_lt _ _) H2) in H. cbn [andb] in H. lia.
Qed.

Lemma diagonal_shape_loop sh a1 a2 : forall m i done,
  (i + m = length sh)%nat ->
  for_up (diagonal_shape_body sh a1 a2) i m
    (done ++ repeat 0 (S (length (drop_axes (two a1 a2) i (skipn i sh)))), length done) =
  Ok (done ++ drop_axes (two a1 a2) i (skipn i sh) ++ [0], length (done ++ drop_axes (two a1 a2) i (skipn i sh))).
Proof.
  induction m; intros i done Hm; cbn [for_up].
  - rewrite skipn_all2 by lia. cbn [drop_axes length repeat app]. rewrite app_nil_r. reflexivity.
  - destruct (nth_error_lt_ex sh i ltac:(lia)) as (n & En).
    rewrite (skipn_cons_nth _ _ _ En). cbn [drop_axes]. unfold diagonal_shape_body at 1.
    rewrite two_in. rewrite <- negb_orb.
    destruct ((i =? a1)%nat || (i =? a2)%nat); cbn [negb].
    + cbn [bind]. rewrite IHm by lia. reflexivity.
    + rewrite (rd_ok _ _ n) by auto. cbn [bind length repeat].
      rewrite wr_ok by (rewrite app_length; cbn; lia). cbn [bind].
      rewrite upd_app_r by lia. rewrite Nat.sub_diag. cbn [upd].
      specialize (IHm (S i) (done ++ [n]) ltac:(lia)). rewrite app_length in IHm. cbn [length] in IHm.
      rewrite <- app_assoc in IHm. cbn [app repeat] in IHm. rewrite Nat.add_1_r in IHm.
      rewrite IHm. rewrite <- !app_assoc. reflexivity.
Qed.

Lemma diagonal_loop (sh : list Z) a1 a2 read p (jx : list Z) : forall m i idx b,
  (i + m = length sh)%nat -> length jx = length sh -> length idx = length sh ->
  (forall q x, nth_error (drop_axes (two a1 a2) i (skipn i jx) ++ [p]) q = Some x -> read (b + Z.of_nat q) = Ok x) ->
  (forall q, (q < i)%nat -> q <> a1 -> q <> a2 -> nth q idx 0 = nth q jx 0) ->
  exists idx' b', for_up (diagonal_body a1 a2 read) i m (idx, b) = Ok (idx', b') /\ length idx' = length sh /\
    read b' = Ok p /\ (forall q, (q < length sh)%nat -> q <> a1 -> q <> a2 -> nth q idx' 0 = nth q jx 0).
Proof.
  induction m; intros i idx b Hm Hj Hi Hr Hq; cbn [for_up].
  - exists idx, b. split; [reflexivity|]. split; [auto|]. split.
    + rewrite skipn_all2 in Hr by lia. cbn [drop_axes app] in Hr. specialize (Hr 0%nat p eq_refl).
      rewrite Z.add_0_r in Hr. auto.
    + intros q Hql. apply Hq. lia.
  - destruct (nth_error_lt_ex jx i ltac:(lia)) as (n & En).
    rewrite (skipn_cons_nth _ _ _ En) in Hr. cbn [drop_axes] in Hr. unfold diagonal_body at 1.
    rewrite two_in in Hr. rewrite <- negb_orb.
    destruct (Nat.eqb_spec i a1) as [E1|E1]; cbn [orb negb] in *; [|destruct (Nat.eqb_spec i a2) as [E2|E2]; cbn [negb] in *].
    + cbn [bind]. apply IHm; auto; [lia|]. intros q Hql H1 H2. apply Hq; auto. lia.
    + cbn [bind]. apply IHm; auto; [lia|]. intros q Hql H1 H2. apply Hq; auto. lia.
    + pose proof (Hr 0%nat n eq_refl) as R. rewrite Z.add_0_r in R. rewrite R. cbn [bind].
      rewrite wr_ok by lia. cbn [bind]. apply IHm; auto; [lia|rewrite upd_length; auto| |].
      * intros q x Hx. replace (b + 1 + Z.of_nat q) with (b + Z.of_nat (S q)) by lia. apply Hr. cbn [app nth_error]. auto.
      * intros q Hql H1 H2. destruct (Nat.eq_dec q i) as [->|Hne].
        -- rewrite nth_upd_same by lia. symmetry. apply nth_error_nth. auto.
        -- rewrite nth_upd_other by auto. apply Hq; auto. lia.
Qed.

Lemma drop_axes_bounds axes sh ix : in_bounds sh ix -> forall k, in_bounds (drop_axes axes k sh) (drop_axes axes k ix).
Proof.
  intros H; induction H; intros k; cbn [drop_axes]; [constructor|].
  destruct (existsb _ _); auto. constructor; auto. apply IHForall2.
Qed.

(** rebuilding an index from its entries outside the two axes *)
Lemma rebuild a1 a2 : forall (l : list Z) k (sh : list Z), length l = length (drop_axes (two a1 a2) k sh) ->
  exists jx, length jx = length sh /\ drop_axes (two a1 a2) k jx = l.
Proof.
  intros l k sh; revert l k; induction sh as [|n sh IH]; intros l k Hl; cbn [drop_axes] in Hl.
  - destruct l; [|discriminate]. exists []. auto.
  - rewrite two_in in Hl. destruct ((k =? a1)%nat || (k =? a2)%nat) eqn:E.
    + destruct (IH l (S k) Hl) as (jx & A & B). exists (0 :: jx). cbn [length drop_axes]. rewrite two_in, E. auto.
    + destruct l as [|x l]; [discriminate|]. cbn in Hl. destruct (IH l (S k) ltac:(lia)) as (jx & A & B).
      exists (x :: jx). cbn [length drop_axes]. rewrite two_in, E, B. auto.
Qed.
Lemma drop_axes_upd a1 a2 : forall (l : list Z) k a v, a = a1 \/ a = a2 -> (k <= a)%nat ->
  drop_axes (two a1 a2) k (upd l (a - k) v) = drop_axes (two a1 a2) k l.
Proof.
  induction l as [|x l IH]; intros k a v Ha Hk; cbn [upd]; [destruct (a - k)%nat; auto|].
  destruct (a - k)%nat as [|m] eqn:E.
  - cbn [drop_axes]. rewrite two_in. assert (a = k) by lia. subst k.
    assert (T : ((a =? a1) || (a =? a2))%nat = true).
    { destruct Ha; subst; rewrite Nat.eqb_refl; auto. apply orb_true_r. }
    rewrite T. reflexivity.
  - cbn [drop_axes]. replace m with (a - S k)%nat by lia. rewrite IH by (auto; lia). reflexivity.
Qed.
Lemma drop_axes_nth_bounds a1 a2 : forall (sh jx : list Z) k, length jx = length sh ->
  in_bounds (drop_axes (two a1 a2) k sh) (drop_axes (two a1 a2) k jx) ->
  forall q, (q < length sh)%nat -> (q + k)%nat <> a1 -> (q + k)%nat <> a2 -> 0 <= nth q jx 0 < nth q sh 0.
Proof.
  induction sh as [|n sh IH]; intros [|x jx] k Hl Hb q Hq H1 H2; cbn in Hl; try discriminate; [cbn in Hq; lia|].
  cbn [drop_axes] in Hb. rewrite two_in in Hb.
  destruct q as [|q]; cbn [nth].
  - cbn in H1, H2. rewrite (proj2 (Nat.eqb_neq k a1)), (proj2 (Nat.eqb_neq k a2)) in Hb by auto. cbn in Hb. inversion Hb; auto.
  - apply (IH jx (S k)); try lia; try (cbn in Hq; lia).
    destruct ((k =? a1)%nat || (k =? a2)%nat); auto. inversion Hb; auto.
Qed.

Lemma diagonal_lemma : forall (V : Type) (arr : operand V) (offset : Z) (a1 a2 : nat) (n1 n2 size : Z),
  a1 <> a2 -> nth_error (o_shape arr) a1 = Some n1 -> nth_error (o_shape arr) a2 = Some n2 ->
  holdable (o_shape arr) -> n1 < 2 ^ 31 -> n2 < 2 ^ 31 -> is_int offset ->
  size = Z.min (n1 - Z.max 0 (- offset)) (n2 - Z.max 0 offset) -> 0 <= size ->
  let cut := drop_axes [Z.of_nat a1; Z.of_nat a2] 0 in
  exists g, diagonal arr offset a1 a2 = Ok g /\ g_shape g = cut (o_shape arr) ++ [size] /\
    (forall jx, in_bounds (o_shape arr) jx -> nth a2 jx 0 - nth a1 jx 0 = offset ->
      in_bounds (g_shape g) (cut jx ++ [Z.min (nth a1 jx 0) (nth a2 jx 0)]) /\
      gives g (cut jx ++ [Z.min (nth a1 jx 0) (nth a2 jx 0)]) (o_at arr jx)) /\
    (forall ix, in_bounds (g_shape g) ix ->
      exists jx, in_bounds (o_shape arr) jx /\ nth a2 jx 0 - nth a1 jx 0 = offset /\
        ix = cut jx ++ [Z.min (nth a1 jx 0) (nth a2 jx 0)]).
Proof.
  intros V arr offset a1 a2 n1 n2 size Hne E1 E2 Hh H1 H2 Hoff Hsize Hsz cut.
  change (drop_axes [Z.of_nat a1; Z.of_nat a2] 0) with (drop_axes (two a1 a2) 0) in cut.
  assert (L1 : (a1 < length (o_shape arr))%nat) by (apply nth_error_Some; congruence).
  assert (L2 : (a2 < length (o_shape arr))%nat) by (apply nth_error_Some; congruence).
  unfold holdable in Hh. rewrite Forall_forall in Hh.
  pose proof (Hh n1 (nth_error_In _ _ E1)) as P1. pose proof (Hh n2 (nth_error_In _ _ E2)) as P2.
  unfold is_int in Hoff.
  unfold diagonal. rewrite (rd_ok _ _ n1) by auto. cbn [bind]. rewrite (rd_ok _ _ n2) by auto. cbn [bind].
  rewrite !to_int_id by lia.
  pose proof (drop_two_all a1 a2 (o_shape arr) Hne L1 L2) as HL.
  replace (repeat 0 (length (o_shape arr) - 1)) with (repeat 0 (S (length (drop_axes (two a1 a2) 0 (skipn 0 (o_shape arr)))))).
  2:{ f_equal. cbn [skipn]. lia. }
  pose proof (diagonal_shape_loop (o_shape arr) a1 a2 (length (o_shape arr)) 0 [] eq_refl) as Hloop.
  cbn [app length] in Hloop. rewrite Hloop. cbn [bind skipn].
  fold (cut (o_shape arr)).
  rewrite app_length. cbn [length]. rewrite Nat.add_sub.
  rewrite wr_ok by (rewrite app_length; cbn; lia). cbn [bind].
  rewrite upd_app_r by lia. rewrite Nat.sub_diag. cbn [upd].
  assert (Esize : to_size_t (if (if 0 <=? offset then n2 - offset else n2) <? (if 0 <=? offset then n1 else n1 + offset)
     then (if 0 <=? offset then n2 - offset else n2) else (if 0 <=? offset then n1 else n1 + offset)) = size).
  { rewrite to_size_t_id.
    - destruct (Z.leb_spec 0 offset); [destruct (Z.ltb_spec (n2 - offset) n1)|destruct (Z.ltb_spec n2 (n1 + offset))]; lia.
    - destruct (Z.leb_spec 0 offset); [destruct (Z.ltb_spec (n2 - offset) n1)|destruct (Z.ltb_spec n2 (n1 + offset))]; lia. }
  rewrite Esize.
  assert (N1 : nth a1 (o_shape arr) 0 = n1) by (apply nth_error_nth; auto).
  assert (N2 : nth a2 (o_shape arr) 0 = n2) by (apply nth_error_nth; auto).
  eexists. split; [reflexivity|]. cbn [g_shape fn_impl]. split; [reflexivity|]. split.
  - intros jx Hb Hd.
    pose proof (in_bounds_nth _ _ a1 Hb L1) as B1. pose proof (in_bounds_nth _ _ a2 Hb L2) as B2.
    pose proof (in_bounds_length _ _ Hb) as Hl.
    set (p := Z.min (nth a1 jx 0) (nth a2 jx 0)).
    assert (Hb' : in_bounds (cut (o_shape arr) ++ [size]) (cut jx ++ [p])).
    { apply in_bounds_app; [apply drop_axes_bounds; auto|]. repeat constructor; subst p; lia. }
    split; [exact Hb'|].
    apply fn_gives; auto; [destruct (cut jx); discriminate|].
    intros read Hr. unfold diagonal_fn.
    destruct (diagonal_loop (o_shape arr) a1 a2 read p jx (length (o_shape arr)) 0 (repeat 0 (length (o_shape arr))) 0)
      as (idx & b & Ef & Hli & Hp & Hq); auto.
    { apply repeat_length. }
    { intros q x Hx. rewrite Z.add_comm. apply Hr. cbn [skipn] in Hx. exact Hx. }
    { intros q Hq. lia. }
    rewrite Ef. cbn [bind]. rewrite Hp. cbn [bind].
    assert (G : (if 0 <=? offset
         then let* idx0 := wr idx a1 p in wr idx0 a2 (to_size_t (p + to_size_t offset))
         else let* idx0 := wr idx a1 (to_size_t (p - to_size_t offset)) in wr idx0 a2 p) = Ok jx).
    { assert (Hupd : upd (upd idx a1 (nth a1 jx 0)) a2 (nth a2 jx 0) = jx).
      { apply list_eq_nth; rewrite ?upd_length; [lia|]. intros q Hql.
        destruct (Nat.eq_dec q a2) as [->|Hq2]; [rewrite nth_upd_same by (rewrite upd_length; lia); auto|].
        rewrite nth_upd_other by auto.
        destruct (Nat.eq_dec q a1) as [->|Hq1]; [rewrite nth_upd_same by lia; auto|].
        rewrite nth_upd_other by auto. apply Hq; auto; lia. }
      destruct (Z.leb_spec 0 offset) as [Ho|Ho].
      - rewrite wr_ok by lia. cbn [bind]. rewrite wr_ok by (rewrite upd_length; lia).
        unfold to_size_t. rewrite Zplus_mod_idemp_r. rewrite Z.mod_small by (subst p; lia).
        replace p with (nth a1 jx 0) by (subst p; lia). replace (nth a1 jx 0 + offset) with (nth a2 jx 0) by lia.
        rewrite Hupd. reflexivity.
      - rewrite wr_ok by lia. cbn [bind]. rewrite wr_ok by (rewrite upd_length; lia).
        unfold to_size_t. rewrite Zminus_mod_idemp_r. rewrite Z.mod_small by (subst p; lia).
        replace p with (nth a2 jx 0) by (subst p; lia). replace (nth a2 jx 0 - offset) with (nth a1 jx 0) by lia.
        rewrite Hupd. reflexivity. }
    rewrite G. cbn [bind]. apply o_get_ok. auto.
  - intros ix Hb. apply in_bounds_split in Hb as (i1 & i2 & -> & B1 & B2).
    inversion B2 as [|? p ? ? Hp Hnil]; subst i2. inversion Hnil; subst.
    destruct (rebuild a1 a2 i1 0 (o_shape arr) ltac:(apply in_bounds_length in B1; exact B1)) as (jx0 & Hl0 & Hd0).
    set (x1 := p + Z.max 0 (- offset)). set (x2 := p + Z.max 0 offset).
    exists (upd (upd jx0 a1 x1) a2 x2).
    assert (V2 : nth a2 (upd (upd jx0 a1 x1) a2 x2) 0 = x2) by (rewrite nth_upd_same; auto; rewrite upd_length; lia).
    assert (V1 : nth a1 (upd (upd jx0 a1 x1) a2 x2) 0 = x1) by (rewrite nth_upd_other, nth_upd_same by lia; auto).
    assert (Hcut : cut (upd (upd jx0 a1 x1) a2 x2) = i1).
    { unfold cut. pose proof (drop_axes_upd a1 a2 (upd jx0 a1 x1) 0 a2 x2 (or_intror eq_refl) ltac:(lia)) as D2.
      pose proof (drop_axes_upd a1 a2 jx0 0 a1 x1 (or_introl eq_refl) ltac:(lia)) as D1.
      rewrite Nat.sub_0_r in D1, D2. rewrite D2, D1. auto. }
    split; [|split].
    + apply in_bounds_intro; [rewrite !upd_length; auto|]. intros q Hq.
      destruct (Nat.eq_dec q a2) as [->|Hq2]; [rewrite V2; subst x2; lia|].
      destruct (Nat.eq_dec q a1) as [->|Hq1]; [rewrite V1; subst x1; lia|].
      rewrite !nth_upd_other by auto. apply (drop_axes_nth_bounds a1 a2 _ _ 0); auto; try lia.
      rewrite Hd0. exact B1.
    + rewrite V1, V2. subst x1 x2. lia.
    + rewrite V1, V2, Hcut. f_equal. f_equal. subst x1 x2. lia.
Qed.

(** ** arange and linspace *)

Lemma arange_gen_gives {R} (start : R) at_ stop n endpoint i :
  0 <= i < n -> n < 2 ^ 64 ->
  gives (arange_gen start at_ stop n endpoint) [i]
    (if endpoint && (1 <? n) && (i =? n - 1) then stop else at_ i).
Proof.
  intros Hi Hn. apply gives_intro; cbn [arange_gen g_shape g_fun g_elem].
  - repeat constructor; lia.
  - unfold arange_access. rewrite to_size_t_id by lia. reflexivity.
  - rewrite (shows_read _ [i] 0 i) by (auto; apply shows_bounded; repeat constructor; lia).
    cbn [bind]. unfold arange_access. rewrite to_size_t_id by lia. reflexivity.
Qed.

Lemma count_quot d step : 0 < step -> 0 < d -> forall i, 0 <= i -> (i < (d + step - 1) / step <-> i * step < d).
Proof.
  intros Hs Hd i Hi. pose proof (Z.div_mod (d + step - 1) step ltac:(lia)) as E.
  pose proof (Z.mod_pos_bound (d + step - 1) step Hs) as B. split; intros H; nia.
Qed.

Lemma arange_unsigned_lemma : forall (start stop step : Z), 0 < step ->
  exists n, arange_unsigned start stop step = Ok (arange_gen start (fun t => start + step * t) stop n false) /\
    arange_count start stop step n.
Proof.
  intros start stop step Hs. unfold arange_unsigned, arange_shape_unsigned, arange_count, before.
  rewrite (proj2 (Z.ltb_lt _ _) Hs).
  destruct (Z.leb_spec stop start) as [Hc|Hc]; cbn [bind].
  - exists 0. split; [reflexivity|]. split; [lia|]. intros i Hi. split; intros; nia.
  - unfold cdiv. rewrite (proj2 (Z.eqb_neq _ _)) by lia. cbn [bind]. eexists. split; [reflexivity|].
    rewrite Z.quot_div_nonneg by lia. split; [apply Z.div_pos; lia|].
    intros i Hi. rewrite (count_quot (stop - start) step) by lia. lia.
Qed.

Lemma arange_signed_lemma : forall (start stop step : Z), step <> 0 ->
  (stop - start) * Z.sgn step <= 0 \/ Z.abs step <= Z.abs (stop - start) ->
  exists n, arange_signed start stop step = Ok (arange_gen start (fun t => start + step * t) stop n false) /\
    arange_count start stop step n.
Proof.
  intros start stop step Hs Hcond. unfold arange_signed, arange_shape_signed, arange_count, before, cdiv.
  rewrite (proj2 (Z.eqb_neq _ _) Hs). cbn [bind].
  destruct (Z.ltb_spec 0 step) as [Hp|Hp].
  - destruct (Z.leb_spec (Z.quot (stop - start) step) 0) as [Hq|Hq]; cbn [bind].
    + exists 0. split; [reflexivity|]. split; [lia|]. rewrite Z.sgn_pos in Hcond by lia.
      assert (stop <= start); [|intros i Hi; split; intros; nia].
      destruct (Z.le_gt_cases stop start); auto. exfalso.
      rewrite Z.quot_div_nonneg in Hq by lia.
      assert (1 <= (stop - start) / step); [|lia]. apply Z.div_le_lower_bound; lia.
    + assert (start < stop).
      { destruct (Z.lt_ge_cases start stop); auto. exfalso.
        rewrite <- (Z.opp_involutive (stop - start)), Z.quot_opp_l in Hq by lia.
        assert (0 <= Z.quot (- (stop - start)) step) by (apply Z.quot_pos; lia). lia. }
      rewrite (proj2 (Z.ltb_lt _ _)) by lia. cbn [bind]. eexists. split; [reflexivity|].
      rewrite Z.quot_div_nonneg by lia. split; [apply Z.div_pos; lia|].
      intros i Hi. rewrite (count_quot (stop - start) step) by lia. lia.
  - assert (Hn : step < 0) by lia.
    destruct (Z.leb_spec (Z.quot (stop - start) step) 0) as [Hq|Hq]; cbn [bind].
    + exists 0. split; [reflexivity|]. split; [lia|]. rewrite Z.sgn_neg in Hcond by lia.
      assert (start <= stop); [|intros i Hi; split; intros; nia].
      destruct (Z.le_gt_cases start stop); auto. exfalso.
      rewrite <- (Z.opp_involutive (stop - start)), <- (Z.opp_involutive step), Z.quot_opp_opp in Hq by lia.
      rewrite Z.quot_div_nonneg in Hq by lia.
      assert (1 <= (- (stop - start)) / (- step)); [|lia]. apply Z.div_le_lower_bound; lia.
    + assert (stop < start).
      { destruct (Z.lt_ge_cases stop start); auto. exfalso.
        rewrite <- (Z.opp_involutive step), Z.quot_opp_r in Hq by lia.
        assert (0 <= Z.quot (stop - start) (- step)) by (apply Z.quot_pos; lia). lia. }
      rewrite (proj2 (Z.ltb_ge _ _)) by lia.
      rewrite (proj2 (Z.eqb_neq (- step) 0)) by lia. cbn [bind]. eexists. split; [reflexivity|].
      rewrite Z.quot_div_nonneg by lia. split; [apply Z.div_pos; lia|].
      replace (start - stop - step - 1) with ((start - stop) + (- step) - 1) by lia.
      intros i Hi. rewrite (count_quot (start - stop) (- step)) by lia. lia.
Qed.

Lemma arange_fill_add_nth {R} (cast : Z -> R) step : forall num v i, (i < num)%nat ->
  nth_error (arange_fill_add cast (fun v => v + step) v num) i = Some (cast (v + step * Z.of_nat i)).
Proof.
  induction num; intros v i Hi; [lia|]. cbn [arange_fill_add]. destruct i; cbn [nth_error].
  - do 2 f_equal. lia.
  - rewrite IHnum by lia. do 2 f_equal. lia.
Qed.
Lemma arange_fill_add_length {U R} (cast : U -> R) add : forall num v, length (arange_fill_add cast add v num) = num.
Proof. induction num; intros; cbn; auto. Qed.

Lemma arange_assign_lemma : forall (start step stop n : Z), 0 <= n < 2 ^ 64 ->
  let g := arange_gen start (fun t => start + step * t) stop n false in
  Z.of_nat (length (arange_assign start step n)) = n /\
  forall i, 0 <= i < n -> exists v, gives g [i] v /\ nth_error (arange_assign start step n) (Z.to_nat i) = Some v /\
    v = start + i * step.
Proof.
  intros start step stop n Hn g. unfold arange_assign. rewrite arange_fill_add_length. split; [lia|].
  intros i Hi. exists (start + step * i). split; [|split].
  - pose proof (arange_gen_gives start (fun t => start + step * t) stop n false i Hi ltac:(lia)) as H.
    cbn [andb] in H. exact H.
  - rewrite arange_fill_add_nth by lia. rewrite Z2Nat.id by lia. reflexivity.
  - lia.
Qed.

Lemma fill_loop {R} (at_ : Z -> R) : forall m i buf,
  for_up (fun i buf => Ok (buf ++ [at_ (Z.of_nat i)])) i m buf = Ok (buf ++ map (fun i => at_ (Z.of_nat i)) (seq i m)).
Proof.
  induction m; intros i buf; cbn [for_up seq map]; [rewrite app_nil_r; auto|]. cbn [bind].
  rewrite IHm, <- app_assoc. reflexivity.
Qed.

Lemma linspace_lemma : forall (R : Type) (start : R) (at_ : Z -> R) (stop : R) (n : nat) (endpoint : bool),
  Z.of_nat n < 2 ^ 64 ->
  let g := arange_gen start at_ stop (Z.of_nat n) endpoint in
  exists buf, arange_fill_mul at_ stop endpoint n = Ok buf /\ length buf = n /\
    forall i, (i < n)%nat -> exists v, gives g [Z.of_nat i] v /\ nth_error buf i = Some v /\
      v = (if endpoint && (1 <? n)%nat && (i =? n - 1)%nat then stop else at_ (Z.of_nat i)).
Proof.
  intros R start at_ stop n endpoint Hn g. unfold arange_fill_mul. rewrite fill_loop. cbn [bind app].
  set (b0 := map (fun i => at_ (Z.of_nat i)) (seq 0 n)).
  assert (L0 : length b0 = n) by (unfold b0; rewrite map_length, seq_length; auto).
  assert (N0 : forall i, (i < n)%nat -> nth_error b0 i = Some (at_ (Z.of_nat i))).
  { intros i Hi. unfold b0. rewrite nth_error_map, nth_error_seq by auto. reflexivity. }
  assert (G : forall i, (i < n)%nat -> gives g [Z.of_nat i]
    (if endpoint && (1 <? n)%nat && (i =? n - 1)%nat then stop else at_ (Z.of_nat i))).
  { intros i Hi. pose proof (arange_gen_gives start at_ stop (Z.of_nat n) endpoint (Z.of_nat i) ltac:(lia) Hn) as H.
    replace (1 <? Z.of_nat n) with (1 <? n)%nat in H by (destruct (Nat.ltb_spec 1 n), (Z.ltb_spec 1 (Z.of_nat n)); auto; lia).
    replace (Z.of_nat i =? Z.of_nat n - 1) with (i =? n - 1)%nat in H
      by (destruct (Nat.eqb_spec i (n - 1)), (Z.eqb_spec (Z.of_nat i) (Z.of_nat n - 1)); auto; lia).
    exact H. }
  destruct (endpoint && (1 <? n)%nat) eqn:Ee; cbn [andb] in *.
  - apply andb_true_iff in Ee as (_ & Ee). apply Nat.ltb_lt in Ee.
    rewrite wr_ok by lia. eexists. split; [reflexivity|]. rewrite upd_length. split; [auto|].
    intros i Hi. eexists. split; [apply G; auto|]. split; [|reflexivity].
    destruct (Nat.eqb_spec i (n - 1)) as [->|Hne]; [apply nth_error_upd_same; lia|rewrite nth_error_upd_other by auto; auto].
  - eexists. split; [reflexivity|]. split; [auto|]. intros i Hi. eexists. split; [apply G; auto|]. split; auto.
Qed.

Lemma one_axis_lemma : forall (V : Type) (zero : V) (arr : operand V) (k n i : Z), o_shape arr = [n] -> 0 <= i < n ->
  gen_call (tril zero arr k) [i] = UB /\ gen_call (triu zero arr k) [i] = UB /\ gen_call (eye [n] k) [i] = UB.
Proof.
  intros V zero arr k n i E L. unfold tril, triu, eye. rewrite E. repeat split; reflexivity.
Qed.
