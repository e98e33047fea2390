(** Lazy reduction: index bookkeeping and aggregation. *)
From Coq Require Import List ZArith Lia Bool Sorted.
From Verif Require Import Prelude PreludeFacts Strides_Model Strides_Spec Strides_Proofs Stepper_Model Stepper_Spec Stepper_Proofs
  Reduce_Model Reduce_Spec.
Import ListNotations.
Open Scope Z_scope.

(** * Kept and reduced positions *)

(** [base] on the axes, the entries of [kept], in order, elsewhere. *)
Fixpoint fillw (axes : list Z) (k : Z) (base kept : list Z) : list Z :=
  match base with
  | [] => []
  | b :: base' =>
      if in_dec Z.eq_dec k axes then b :: fillw axes (k + 1) base' kept
      else match kept with x :: kept' => x :: fillw axes (k + 1) base' kept' | [] => [] end
  end.

(** Number of positions among n from k on that are not axes. *)
Fixpoint nkept (axes : list Z) (k : Z) (n : nat) : nat :=
  match n with
  | O => 0
  | S n' => if in_dec Z.eq_dec k axes then nkept axes (k + 1) n' else S (nkept axes (k + 1) n')
  end.

Lemma without_length axes : forall l k, length (without axes k l) = nkept axes k (length l).
Proof. induction l; intros k; cbn; [reflexivity|]. destruct (in_dec Z.eq_dec k axes); cbn; rewrite IHl; reflexivity. Qed.

Lemma replaced_length axes v : forall l k, length (replaced axes v k l) = length l.
Proof. induction l; intros; cbn; congruence. Qed.

Lemma fillw_length axes : forall base k kept, length kept = nkept axes k (length base) -> length (fillw axes k base kept) = length base.
Proof.
  induction base; intros k kept H; cbn in *; [reflexivity|].
  destruct (in_dec Z.eq_dec k axes); cbn; [rewrite IHbase; auto|].
  destruct kept; cbn in *; [lia|]. rewrite IHbase; auto.
Qed.

Lemma fillw_without axes : forall l k base, length base = length l ->
  (forall j, In (k + Z.of_nat j) axes -> (j < length l)%nat -> nth j base 0 = nth j l 0) ->
  fillw axes k base (without axes k l) = l.
Proof.
  induction l; intros k base HL HN; destruct base; try discriminate; [reflexivity|]. cbn.
  assert (IH : fillw axes (k + 1) base (without axes (k + 1) l) = l).
  { apply IHl; [cbn in HL; lia|]. intros j Hj Hlt. apply (HN (S j)); [replace (k + Z.of_nat (S j)) with (k + 1 + Z.of_nat j) by lia; auto|cbn; lia]. }
  destruct (in_dec Z.eq_dec k axes).
  - rewrite IH. f_equal. apply (HN 0%nat); [replace (k + Z.of_nat 0) with k by lia; auto|cbn; lia].
  - rewrite IH. reflexivity.
Qed.

Lemma without_fillw axes : forall base k kept, length kept = nkept axes k (length base) -> without axes k (fillw axes k base kept) = kept.
Proof.
  induction base; intros k kept H; cbn in *.
  - destruct kept; [reflexivity|discriminate].
  - destruct (in_dec Z.eq_dec k axes) eqn:E; cbn.
    + rewrite E. auto.
    + destruct kept; [discriminate|]. cbn. rewrite E. rewrite IHbase; auto.
Qed.

Lemma fillw_in_bounds axes : forall bs k b sh ix,
  in_bounds sh ix -> length sh = nkept axes k (length bs) ->
  Forall2 (fun d i => 0 <= i < d) bs b ->
  in_bounds (fillw axes k bs sh) (fillw axes k b ix).
Proof.
  intros bs k b sh ix H HL HB. revert k sh ix H HL. induction HB; intros k sh ix Hb HL; cbn in *; [constructor|].
  destruct (in_dec Z.eq_dec k axes).
  - constructor; [assumption|]. apply IHHB; auto.
  - destruct Hb; [constructor|]. constructor; [assumption|]. apply IHHB; auto.
Qed.

(** The position of the [n]-th kept entry. *)
Fixpoint kept_pos (axes : list Z) (k : Z) (len n : nat) : nat :=
  match len with
  | O => 0
  | S len' =>
      if in_dec Z.eq_dec k axes then S (kept_pos axes (k + 1) len' n)
      else match n with O => 0%nat | S n' => S (kept_pos axes (k + 1) len' n') end
  end.

(** Changing an entry of the kept ones changes one entry of the filled list. *)
Lemma fillw_split axes : forall base k pre post, length (pre ++ 0 :: post) = nkept axes k (length base) ->
  exists P Q, length P = kept_pos axes k (length base) (length pre) /\
    (length P < length base)%nat /\ ~ In (k + Z.of_nat (length P)) axes /\
    forall x, fillw axes k base (pre ++ x :: post) = P ++ x :: Q.
Proof.
  induction base; intros k pre post H; cbn in H.
  - destruct pre; discriminate.
  - cbn [fillw kept_pos length]. destruct (in_dec Z.eq_dec k axes) as [Hin|Hout].
    + destruct (IHbase (k + 1) pre post H) as (P & Q & E1 & E2 & E3 & E4).
      exists (a :: P), Q. cbn. split; [lia|]. split; [lia|]. split.
      { replace (k + Z.of_nat (S (length P))) with (k + 1 + Z.of_nat (length P)) by lia. exact E3. }
      intros x. rewrite E4. reflexivity.
    + destruct pre as [|y pre].
      * exists [], (fillw axes (k + 1) base post). cbn.
        split; [reflexivity|]. split; [lia|]. split; [replace (k + Z.of_nat 0) with k by lia; exact Hout|]. reflexivity.
      * cbn in H. destruct (IHbase (k + 1) pre post) as (P & Q & E1 & E2 & E3 & E4); [lia|].
        exists (y :: P), Q. cbn. split; [lia|]. split; [lia|]. split.
        { replace (k + Z.of_nat (S (length P))) with (k + 1 + Z.of_nat (length P)) by lia. exact E3. }
        intros x. rewrite E4. reflexivity.
Qed.

(** * The block of an index, as a nest of loops *)
Fixpoint nest (axes : list Z) (k : Z) (sh jx : list Z) : list (list Z) :=
  match sh, jx with
  | d :: sh', j :: jx' =>
      if in_dec Z.eq_dec k axes
      then flat_map (fun i => map (cons (Z.of_nat i)) (nest axes (k + 1) sh' jx')) (seq 0 (Z.to_nat d))
      else map (cons j) (nest axes (k + 1) sh' jx')
  | _, _ => [[]]
  end.

Definition eqb_idx (a b : list Z) : bool := if list_eq_dec Z.eq_dec a b then true else false.
Lemma eqb_idx_true a b : eqb_idx a b = true <-> a = b.
Proof. unfold eqb_idx. destruct (list_eq_dec Z.eq_dec a b); split; congruence. Qed.

Lemma filter_flat_map {A B} (p : B -> bool) (f : A -> list B) l : filter p (flat_map f l) = flat_map (fun a => filter p (f a)) l.
Proof. induction l; cbn; [reflexivity|]. rewrite filter_app, IHl. reflexivity. Qed.
Lemma filter_map {A B} (p : B -> bool) (f : A -> B) l : filter p (map f l) = map f (filter (fun a => p (f a)) l).
Proof. induction l; cbn; [reflexivity|]. destruct (p (f a)); cbn; rewrite IHl; reflexivity. Qed.
Lemma filter_none {A} (p : A -> bool) l : (forall a, p a = false) -> filter p l = [].
Proof. intros H. induction l; cbn; [reflexivity|]. rewrite H. assumption. Qed.

Lemma flat_map_single {A} (g : nat -> list A) j n : (forall i, i <> j -> g i = []) ->
  flat_map g (seq 0 n) = if (j <? n)%nat then g j else [].
Proof.
  intros H. enough (forall a, flat_map g (seq a n) = if (a <=? j)%nat && (j <? a + n)%nat then g j else []) as E by (rewrite E; reflexivity).
  induction n; intros a.
  - cbn [seq flat_map]. destruct (Nat.leb_spec a j); cbn [andb]; [|reflexivity]. destruct (Nat.ltb_spec j (a + 0)); [lia|reflexivity].
  - cbn [seq flat_map]. rewrite IHn. destruct (Nat.eq_dec a j) as [->|Hne].
    + destruct (Nat.leb_spec (S j) j); [lia|]. cbn [andb]. rewrite app_nil_r.
      destruct (Nat.leb_spec j j); [|lia]. cbn [andb]. destruct (Nat.ltb_spec j (j + S n)); [reflexivity|lia].
    + rewrite (H a Hne). cbn [app].
      destruct (Nat.leb_spec (S a) j), (Nat.leb_spec a j); try lia; try reflexivity. cbn [andb].
      destruct (Nat.ltb_spec j (S a + n)), (Nat.ltb_spec j (a + S n)); try lia; reflexivity.
Qed.

Lemma block_without axes : forall sh k ix base, in_bounds (without axes k sh) ix -> length base = length sh ->
  filter (fun jx => eqb_idx (without axes k jx) ix) (row_indices sh) = nest axes k sh (fillw axes k base ix).
Proof.
  induction sh as [|d sh IH]; intros k ix base H HL; destruct base as [|b base]; try discriminate.
  - cbn. cbn in H. inversion H; subst. cbn. reflexivity.
  - cbn [row_indices fillw]. rewrite filter_flat_map. cbn [without] in H.
    destruct (in_dec Z.eq_dec k axes) as [Hin|Hout] eqn:E.
    + cbn [nest]. rewrite E. apply flat_map_ext. intros i. rewrite filter_map. f_equal.
      rewrite <- IH by (cbn in HL; auto). apply filter_ext. intros jx. cbn [without]. rewrite E. reflexivity.
    + inversion H as [|? x ? ix' Hx Hix]; subst. cbn [nest]. rewrite E.
      rewrite (flat_map_single _ (Z.to_nat x)).
      * destruct (Nat.ltb_spec (Z.to_nat x) (Z.to_nat d)); [|lia]. rewrite filter_map. rewrite Z2Nat.id by lia. f_equal.
        rewrite <- (IH (k + 1) ix') by (cbn in HL; auto). apply filter_ext. intros jx. cbn [without]. rewrite E.
        apply eq_true_iff_eq. rewrite !eqb_idx_true. split; [intros H1; injection H1; auto|congruence].
      * intros i Hi. rewrite filter_map. apply map_eq_nil with (f := fun x => x). rewrite map_id.
        rewrite filter_none; [reflexivity|]. intros jx. cbn [without]. rewrite E.
        destruct (eqb_idx (Z.of_nat i :: without axes (k + 1) jx) (x :: ix')) eqn:E2; [|reflexivity].
        apply eqb_idx_true in E2. injection E2 as E2 _. lia.
Qed.

Lemma replaced_id axes : forall l k, (forall j, (j < length l)%nat -> In (k + Z.of_nat j) axes -> nth j l 0 = 0) -> replaced axes 0 k l = l.
Proof.
  induction l; intros k H; cbn; [reflexivity|]. f_equal.
  - destruct (in_dec Z.eq_dec k axes); [|reflexivity]. symmetry. apply (H 0%nat); [cbn; lia|]. replace (k + Z.of_nat 0) with k by lia. auto.
  - apply IHl. intros j Hj Hin. apply (H (S j)); [cbn; lia|]. replace (k + Z.of_nat (S j)) with (k + 1 + Z.of_nat j) by lia. auto.
Qed.

Lemma block_replaced axes : forall sh k ix, in_bounds (replaced axes 1 k sh) ix ->
  filter (fun jx => eqb_idx (replaced axes 0 k jx) ix) (row_indices sh) = nest axes k sh ix.
Proof.
  induction sh as [|d sh IH]; intros k ix H; cbn [replaced] in H; inversion H as [|? x ? ix' Hx Hix]; subst.
  - reflexivity.
  - cbn [row_indices nest]. rewrite filter_flat_map. destruct (in_dec Z.eq_dec k axes) as [Hin|Hout] eqn:E.
    + apply flat_map_ext. intros i. rewrite filter_map. f_equal.
      rewrite <- (IH (k + 1) ix') by auto. apply filter_ext. intros jx. cbn [replaced]. rewrite E.
      assert (x = 0) by lia. subst. apply eq_true_iff_eq. rewrite !eqb_idx_true. split; [intros H1; injection H1; auto|congruence].
    + rewrite (flat_map_single _ (Z.to_nat x)).
      * destruct (Nat.ltb_spec (Z.to_nat x) (Z.to_nat d)); [|lia]. rewrite filter_map. rewrite Z2Nat.id by lia. f_equal.
        rewrite <- (IH (k + 1) ix') by auto. apply filter_ext. intros jx. cbn [replaced]. rewrite E.
        apply eq_true_iff_eq. rewrite !eqb_idx_true. split; [intros H1; injection H1; auto|congruence].
      * intros i Hi. rewrite filter_map. apply map_eq_nil with (f := fun x => x). rewrite map_id.
        rewrite filter_none; [reflexivity|]. intros jx. cbn [replaced]. rewrite E.
        destruct (eqb_idx (Z.of_nat i :: replaced axes 0 (k + 1) jx) (x :: ix')) eqn:E2; [|reflexivity].
        apply eqb_idx_true in E2. injection E2 as E2 _. lia.
Qed.

(** * The same nest, by substitution *)
Fixpoint spread (sh : list Z) (axes : list Z) (jx : list Z) : list (list Z) :=
  match axes with
  | [] => [jx]
  | a :: rest => flat_map (fun i => spread sh rest (upd jx (Z.to_nat a) (Z.of_nat i))) (seq 0 (Z.to_nat (nth (Z.to_nat a) sh 0)))
  end.

Lemma nest_no_axes : forall sh axes k jx, length jx = length sh -> (forall a, In a axes -> a < k) -> nest axes k sh jx = [jx].
Proof.
  induction sh; intros axes k jx HL HA; destruct jx; try discriminate; [reflexivity|]. cbn.
  destruct (in_dec Z.eq_dec k axes) as [Hin|_]; [apply HA in Hin; lia|].
  rewrite IHsh; [reflexivity|cbn in HL; lia|]. intros b Hb. apply HA in Hb. lia.
Qed.
Lemma nest_drop : forall sh a axes k jx, a < k -> nest (a :: axes) k sh jx = nest axes k sh jx.
Proof.
  induction sh; intros b axes k jx Hlt; destruct jx; try reflexivity. cbn [nest].
  rewrite IHsh by lia.
  destruct (in_dec Z.eq_dec k (b :: axes)) as [H|H]; destruct (in_dec Z.eq_dec k axes) as [H'|H']; try reflexivity.
  - destruct H; [lia|contradiction].
  - exfalso. apply H. right. assumption.
Qed.
Lemma upd_mid {A} : forall (pre : list A) x post v, upd (pre ++ x :: post) (length pre) v = pre ++ v :: post.
Proof. induction pre; intros; cbn; [reflexivity|]. rewrite IHpre. reflexivity. Qed.

Lemma spread_nest : forall sh2 sh1 axes pre rest, length pre = length sh1 -> length rest = length sh2 ->
  StronglySorted Z.lt axes -> Forall (fun a => Z.of_nat (length pre) <= a < Z.of_nat (length pre + length sh2)) axes ->
  spread (sh1 ++ sh2) axes (pre ++ rest) = map (app pre) (nest axes (Z.of_nat (length pre)) sh2 rest).
Proof.
  induction sh2 as [|d sh2 IH]; intros sh1 axes pre rest H1 H2 HS HF; destruct rest as [|r rest]; try discriminate.
  - destruct axes; [reflexivity|]. inversion HF; subst. cbn in *. lia.
  - cbn [nest]. destruct (in_dec Z.eq_dec (Z.of_nat (length pre)) axes) as [Hin|Hout].
    + destruct axes as [|a axes]; [contradiction|]. inversion HS as [|? ? HS' HA]; subst. inversion HF as [|? ? HFa HF']; subst.
      assert (a = Z.of_nat (length pre)). { destruct Hin as [|Hin]; [auto|]. rewrite Forall_forall in HA. apply HA in Hin. lia. }
      subst a. cbn [spread]. rewrite Nat2Z.id. replace (nth (length pre) (sh1 ++ d :: sh2) 0) with d by (rewrite H1, app_nth2, Nat.sub_diag by lia; reflexivity).
      rewrite flat_map_concat_map, flat_map_concat_map, concat_map, map_map. f_equal. apply map_ext. intros i.
      rewrite upd_mid.
      replace (sh1 ++ d :: sh2) with ((sh1 ++ [d]) ++ sh2) by (rewrite <- app_assoc; reflexivity).
      replace (pre ++ Z.of_nat i :: rest) with ((pre ++ [Z.of_nat i]) ++ rest) by (rewrite <- app_assoc; reflexivity).
      rewrite IH.
      * rewrite !map_map. rewrite app_length. cbn [length]. replace (Z.of_nat (length pre + 1)) with (Z.of_nat (length pre) + 1) by lia.
        rewrite nest_drop by lia. apply map_ext. intros x. rewrite <- app_assoc. reflexivity.
      * rewrite !app_length. cbn. lia.
      * cbn in H2. lia.
      * assumption.
      * rewrite Forall_forall in *. intros b Hb. specialize (HA b Hb). specialize (HF' b Hb). rewrite app_length. cbn in *. lia.
    + replace (sh1 ++ d :: sh2) with ((sh1 ++ [d]) ++ sh2) by (rewrite <- app_assoc; reflexivity).
      replace (pre ++ r :: rest) with ((pre ++ [r]) ++ rest) by (rewrite <- app_assoc; reflexivity).
      rewrite IH.
      * rewrite !map_map. rewrite app_length. cbn [length]. replace (Z.of_nat (length pre + 1)) with (Z.of_nat (length pre) + 1) by lia.
        apply map_ext. intros x. rewrite <- app_assoc. reflexivity.
      * rewrite !app_length. cbn. lia.
      * cbn in H2. lia.
      * assumption.
      * rewrite Forall_forall in *. intros b Hb. specialize (HF b Hb). rewrite app_length. cbn in *.
        assert (b <> Z.of_nat (length pre)) by (intros ->; contradiction). lia.
Qed.

Lemma spread_nest0 sh axes jx : length jx = length sh -> valid_axes (length sh) axes -> spread sh axes jx = nest axes 0 sh jx.
Proof.
  intros HL [HS HF]. pose proof (spread_nest sh [] axes [] jx eq_refl HL HS) as E. cbn in E. rewrite E by exact HF.
  apply map_id.
Qed.
