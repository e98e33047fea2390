(** Lazy reduction: values. *)
From Coq Require Import List ZArith Lia Bool Sorted.
From Verif Require Import Prelude PreludeFacts Strides_Model Strides_Spec Strides_Proofs Access_Model Broadcast_Spec Stepper_Model Stepper_Spec Stepper_Proofs
  Stepper2_Proofs Stepper3_Proofs Stepper4_Proofs Reduce_Model Reduce_Spec Reduce_Proofs Reduce2_Proofs Reduce3_Proofs.
Import ListNotations.
Open Scope Z_scope.

(** The operations of a stepper depend on the number of axes only. *)
Lemma x_ops_length {V} sh1 sh2 (e : sexp V) : length sh1 = length sh2 -> x_ops sh1 e = x_ops sh2 e.
Proof.
  intros H. induction e as [v|c b|s f|f args IH] using sexp_ind'; cbn.
  - reflexivity.
  - unfold k_offset. rewrite H. reflexivity.
  - rewrite H. reflexivity.
  - f_equal. apply map_ext_in. intros a Ha. rewrite Forall_forall in IH. apply IH. assumption.
Qed.

Lemma axis_nth s k : (k < length s)%nat -> axis s k = nth (length s - 1 - k) s 0.
Proof.
  intros H. unfold axis. rewrite rev_nth by assumption. rewrite (nth_indep _ 1 0) by lia. f_equal. lia.
Qed.
Lemma axis_over s k : (length s <= k)%nat -> axis s k = 1.
Proof. intros H. unfold axis. apply nth_overflow. rewrite rev_length. assumption. Qed.

Definition wider (d d' : Z) : Prop := d = 1 \/ d = d'.

Lemma wider_fits s t : Forall2 wider s t -> fits s t.
Proof.
  intros H. pose proof (Forall2_len _ _ _ H) as HL. split; [lia|]. intros k.
  destruct (Nat.lt_ge_cases k (length s)) as [Hk|Hk]; [|left; apply axis_over; assumption].
  rewrite !axis_nth by lia. rewrite HL. revert H. generalize (length t - 1 - k)%nat. clear. intros n H. revert n.
  induction H; intros [|n]; cbn; auto; right; reflexivity.
Qed.
Lemma fits_trans a b c : fits a b -> fits b c -> fits a c.
Proof.
  intros [H1 H2] [H3 H4]. split; [lia|]. intros k. destruct (H2 k) as [E|E]; [auto|]. destruct (H4 k) as [E'|E']; [left; congruence|right; congruence].
Qed.
Lemma fits_wider s t : fits s t -> Forall2 wider s (skipn (length t - length s) t).
Proof.
  intros H. pose proof (fits_nth _ _ H) as Hn. destruct H as [HL _].
  assert (HLs : length (skipn (length t - length s) t) = length s) by (rewrite skipn_length; lia).
  set (o := (length t - length s)%nat) in *.
  assert (Hn' : forall j, (j < length s)%nat -> wider (nth j s 0) (nth j (skipn o t) 0)).
  { intros j Hj. unfold wider. replace (nth j (skipn o t) 0) with (nth (j + o) t 0); [apply Hn; assumption|].
    rewrite <- (firstn_skipn o t) at 1. rewrite app_nth2; rewrite firstn_length; [f_equal; lia|lia]. }
  revert HLs Hn'. generalize (skipn o t). clear. induction s as [|d s IH]; intros [|x u] H1 H2; try discriminate; constructor.
  - apply (H2 0%nat). cbn. lia.
  - apply IH; [cbn in H1; lia|]. intros j Hj. apply (H2 (S j)). cbn. lia.
Qed.

Lemma operands_ok_fits {V} s t (e : sexp V) : fits s t -> operands_ok s e -> operands_ok t e.
Proof.
  intros Hf. induction e as [v|c b|sh f|f args IH] using sexp_ind'; intros Hok.
  - exact I.
  - destruct Hok as [H1 H2]. split; [eapply fits_trans; eauto|assumption].
  - destruct Hok as [H1 H2]. split; [eapply fits_trans; eauto|assumption].
  - unfold operands_ok in *. apply all_leaves_fun in Hok. apply all_leaves_fun.
    rewrite Forall_forall in *. intros a Ha. apply IH; auto.
Qed.

Lemma zero_unit_length : forall s ix, length ix = length s -> length (zero_unit s ix) = length s.
Proof. induction s; intros [|i ix] H; try discriminate; cbn; auto. Qed.
Lemma zero_unit_nth : forall s ix j, length ix = length s -> nth j (zero_unit s ix) 0 = if nth j s 0 =? 1 then 0 else nth j ix 0.
Proof.
  induction s; intros [|i ix] j H; try discriminate; destruct j; cbn; auto.
Qed.

Lemma zero_unit_twice : forall s t ix, Forall2 wider s t -> length ix = length t -> zero_unit s (zero_unit t ix) = zero_unit s ix.
Proof.
  intros s t ix H. revert ix. induction H as [|d d' s t Hw _ IH]; intros [|i ix] HL; try discriminate; [reflexivity|].
  cbn. rewrite IH by (cbn in HL; lia). f_equal. destruct (Z.eqb_spec d 1); [reflexivity|]. destruct Hw as [Hw|Hw]; [contradiction|]. subst.
  destruct (Z.eqb_spec d' 1); [contradiction|reflexivity].
Qed.

Lemma zero_unit_skipn : forall n t ix, length ix = length t -> skipn n (zero_unit t ix) = zero_unit (skipn n t) (skipn n ix).
Proof. induction n; intros [|d t] [|i ix] H; try discriminate; try reflexivity. cbn. apply IHn. cbn in H. lia. Qed.

Lemma x_value_unit {V} esh (e : sexp V) jx : operands_ok esh e -> length jx = length esh -> x_value (zero_unit esh jx) e = x_value jx e.
Proof.
  intros Hok HL.
  assert (Hbc : forall s, fits s esh -> bc_index s (zero_unit esh jx) = bc_index s jx).
  { intros s Hs. unfold bc_index. rewrite zero_unit_length by assumption. rewrite HL.
    rewrite zero_unit_skipn by assumption. apply zero_unit_twice; [apply fits_wider; assumption|]. rewrite !skipn_length. lia. }
  revert Hok. induction e as [v|c b|sh f|f args IH] using sexp_ind'; intros Hok; cbn [x_value].
  - reflexivity.
  - destruct Hok as [H1 _]. rewrite Hbc by assumption. reflexivity.
  - destruct Hok as [H1 _]. rewrite Hbc by assumption. reflexivity.
  - unfold operands_ok in Hok. apply all_leaves_fun in Hok. f_equal. f_equal. apply map_ext_in. intros a Ha.
    rewrite Forall_forall in *. apply IH; auto. apply Hok. assumption.
Qed.

(** The kept axes of the iteration shape, the reduced ones of the expression. *)
Fixpoint overlay (axes : list Z) (k : Z) (esh tail : list Z) : list Z :=
  match esh, tail with
  | d :: esh', t :: tail' => (if in_dec Z.eq_dec k axes then d else t) :: overlay axes (k + 1) esh' tail'
  | _, _ => []
  end.
Definition full_shape (keep : bool) (axes esh tail : list Z) : list Z :=
  if keep then overlay axes 0 esh tail else fillw axes 0 esh tail.
Definition full_index (keep : bool) (axes : list Z) (n : nat) (kept : list Z) : list Z :=
  if keep then kept else fillw axes 0 (repeat 0 n) kept.

Lemma overlay_length axes : forall esh k tail, length tail = length esh -> length (overlay axes k esh tail) = length esh.
Proof. induction esh; intros k [|t tail] H; try discriminate; cbn; auto. Qed.

Lemma fillw_wider axes : forall esh k tail, Forall2 wider (without axes k esh) tail -> Forall2 wider esh (fillw axes k esh tail).
Proof.
  induction esh as [|d esh IH]; intros k tail H; cbn in *; [constructor|].
  destruct (in_dec Z.eq_dec k axes).
  - constructor; [right; reflexivity|]. apply IH. assumption.
  - inversion H; subst. constructor; [assumption|]. apply IH. assumption.
Qed.
Lemma overlay_wider axes : forall esh k tail, Forall2 wider (replaced axes 1 k esh) tail -> Forall2 wider esh (overlay axes k esh tail).
Proof.
  induction esh as [|d esh IH]; intros k tail H; inversion H as [|? ? ? ? Hw Ht]; subst; [constructor|]. cbn in *.
  constructor; [|apply IH; assumption]. destruct (in_dec Z.eq_dec k axes); [right; reflexivity|assumption].
Qed.

Lemma fillw_nth_in axes : forall base k kept j, length kept = nkept axes k (length base) -> (j < length base)%nat ->
  In (k + Z.of_nat j) axes -> nth j (fillw axes k base kept) 0 = nth j base 0.
Proof.
  induction base as [|b base IH]; intros k kept j HL Hj Hin; cbn in *; [lia|].
  destruct j.
  - replace (k + Z.of_nat 0) with k in Hin by lia. destruct (in_dec Z.eq_dec k axes); [reflexivity|contradiction].
  - replace (k + Z.of_nat (S j)) with (k + 1 + Z.of_nat j) in Hin by lia.
    destruct (in_dec Z.eq_dec k axes); cbn.
    + apply IH; auto. lia.
    + destruct kept; [discriminate|]. cbn in *. apply IH; auto; lia.
Qed.
Lemma overlay_nth axes : forall esh k tail j, length tail = length esh -> (j < length esh)%nat ->
  nth j (overlay axes k esh tail) 0 = if in_dec Z.eq_dec (k + Z.of_nat j) axes then nth j esh 0 else nth j tail 0.
Proof.
  induction esh as [|d esh IH]; intros k [|t tail] j HL Hj; try discriminate; cbn in Hj; [lia|].
  destruct j.
  - replace (k + Z.of_nat 0) with k by lia. reflexivity.
  - cbn [overlay nth]. rewrite IH by (cbn in HL; lia). replace (k + Z.of_nat (S j)) with (k + 1 + Z.of_nat j) by lia. reflexivity.
Qed.

Lemma fillw_zero_unit axes : forall esh k kept, length kept = nkept axes k (length esh) ->
  zero_unit esh (fillw axes k (repeat 0 (length esh)) kept) =
  fillw axes k (repeat 0 (length esh)) (zero_unit (without axes k esh) kept).
Proof.
  induction esh as [|d esh IH]; intros k kept HL; [reflexivity|]. cbn in *.
  destruct (in_dec Z.eq_dec k axes).
  - rewrite <- IH by assumption. destruct (d =? 1); reflexivity.
  - destruct kept as [|x kept]; [discriminate|]. cbn. rewrite IH by (cbn in HL; lia). reflexivity.
Qed.
Lemma replaced_zero_unit axes : forall esh k kept, length kept = length esh ->
  (forall j, (j < length esh)%nat -> In (k + Z.of_nat j) axes -> nth j kept 0 = 0) ->
  zero_unit esh kept = zero_unit (replaced axes 1 k esh) kept.
Proof.
  induction esh as [|d esh IH]; intros k [|x kept] HL Hz; try discriminate; [reflexivity|]. cbn [zero_unit replaced]. f_equal.
  - destruct (in_dec Z.eq_dec k axes) as [Hin|]; [|reflexivity].
    assert (x = 0). { apply (Hz 0%nat); [cbn; lia|]. replace (k + Z.of_nat 0) with k by lia. assumption. }
    subst. destruct (d =? 1); reflexivity.
  - apply IH; [cbn in HL; lia|]. intros j Hj Hin. apply (Hz (S j)); [cbn; lia|].
    replace (k + Z.of_nat (S j)) with (k + 1 + Z.of_nat j) by lia. assumption.
Qed.

Lemma spread_ext sh1 sh2 : forall axes jx, (forall a, In a axes -> nth (Z.to_nat a) sh1 0 = nth (Z.to_nat a) sh2 0) ->
  spread sh1 axes jx = spread sh2 axes jx.
Proof.
  induction axes as [|a axes IH]; intros jx H; [reflexivity|]. cbn [spread]. rewrite (H a) by (left; reflexivity).
  apply flat_map_ext. intros i. apply IH. intros b Hb. apply H. right. assumption.
Qed.

Lemma zero_unit_upd : forall esh jx a i, length jx = length esh -> (nth a esh 0 = 1 -> i = 0) ->
  zero_unit esh (upd jx a i) = upd (zero_unit esh jx) a i.
Proof.
  induction esh as [|d esh IH]; intros [|x jx] a i HL H; try discriminate; [destruct a; reflexivity|].
  destruct a; cbn in *.
  - destruct (Z.eqb_spec d 1); [rewrite H by assumption|]; reflexivity.
  - rewrite IH by (auto; lia). reflexivity.
Qed.

Lemma spread_zero_unit esh : forall axes jx, length jx = length esh ->
  map (zero_unit esh) (spread esh axes jx) = spread esh axes (zero_unit esh jx).
Proof.
  induction axes as [|a axes IH]; intros jx HL; [reflexivity|]. cbn [spread]. rewrite map_flat_map.
  assert (H : forall i, In i (seq 0 (Z.to_nat (nth (Z.to_nat a) esh 0))) ->
    map (zero_unit esh) (spread esh axes (upd jx (Z.to_nat a) (Z.of_nat i))) =
    spread esh axes (upd (zero_unit esh jx) (Z.to_nat a) (Z.of_nat i))).
  { intros i Hi. apply in_seq in Hi. rewrite IH by (rewrite upd_length; assumption). f_equal.
    apply zero_unit_upd; [assumption|]. intros E. rewrite E in Hi. cbn in Hi. lia. }
  revert H. generalize (seq 0 (Z.to_nat (nth (Z.to_nat a) esh 0))). induction l as [|i l IHl]; intros H; [reflexivity|].
  cbn [flat_map]. rewrite H by (left; reflexivity). f_equal. apply IHl. intros j Hj. apply H. right. assumption.
Qed.

Lemma nth_error_skipn' {A} (l : list A) n k : nth_error (skipn n l) k = nth_error l (n + k).
Proof. revert l. induction n; intros [|a l]; cbn; auto. destruct k; reflexivity. Qed.

Lemma pos_prod s : Forall (fun d => 0 < d) s -> 0 < prod s.
Proof. induction 1 as [|d s Hd _ IH]; [rewrite prod_nil; lia|]. rewrite prod_cons. nia. Qed.

Lemma overlay_pos axes s : Forall (fun d => 0 < d) s -> forall k u, Forall (fun d => 0 < d) u -> Forall (fun d => 0 < d) (overlay axes k s u).
Proof.
  induction 1 as [|d s Hd _ IH]; intros k [|x u] Hu; cbn; try constructor; inversion Hu; subst.
  - destruct (in_dec Z.eq_dec k axes); assumption.
  - apply IH. assumption.
Qed.
Lemma fillw_pos axes s : Forall (fun d => 0 < d) s -> forall k u, Forall (fun d => 0 < d) u -> Forall (fun d => 0 < d) (fillw axes k s u).
Proof.
  induction 1 as [|d s Hd _ IH]; intros k u Hu; cbn; [constructor|].
  destruct (in_dec Z.eq_dec k axes); [constructor; auto|]. destruct u; [constructor|]; inversion Hu; subst; constructor; auto.
Qed.
Lemma overlay_in_bounds axes s : Forall (fun d => 0 < d) s -> forall k u v,
  (forall j, (j < length s)%nat -> In (k + Z.of_nat j) axes -> nth j u 0 = 1) -> length u = length s ->
  in_bounds u v -> in_bounds (overlay axes k s u) v.
Proof.
  induction 1 as [|d s Hd _ IH]; intros k u v Hu HT Ht; destruct u as [|t u]; try discriminate.
  - inversion Ht; subst. constructor.
  - inversion Ht; subst. cbn [overlay]. constructor.
    + destruct (in_dec Z.eq_dec k axes) as [Hin|]; [|assumption].
      assert (t = 1). { apply (Hu 0%nat); [cbn; lia|]. replace (k + Z.of_nat 0) with k by lia. assumption. } lia.
    + apply IH; auto. intros j Hj Hin. apply (Hu (S j)); [cbn; lia|].
      replace (k + Z.of_nat (S j)) with (k + 1 + Z.of_nat j) by lia. assumption.
Qed.
Lemma in_bounds_skipn n : forall s u, in_bounds s u -> in_bounds (skipn n s) (skipn n u).
Proof. unfold in_bounds. induction n; intros s u H; destruct H; cbn; auto. Qed.
Lemma fillw_zeros axes : forall n k, fillw axes k (repeat 0 n) (repeat 0 (nkept axes k n)) = repeat 0 n.
Proof.
  induction n; intros k; [reflexivity|]. cbn. destruct (in_dec Z.eq_dec k axes); cbn; rewrite IHn; reflexivity.
Qed.
Lemma pos_zero_bounds s : Forall (fun d => 0 < d) s -> Forall2 (fun d i => 0 <= i < d) s (repeat 0 (length s)).
Proof. induction 1; cbn; constructor; auto. lia. Qed.
Lemma replaced_bounds axes : forall s k u, length u = length s -> in_bounds s (zero_unit (replaced axes 1 k s) u) ->
  in_bounds (replaced axes 1 k s) (zero_unit (replaced axes 1 k s) u).
Proof.
  induction s as [|d s IH]; intros k [|x u] HK H; try discriminate; cbn in *; [constructor|].
  inversion H; subst. constructor; [|apply IH; auto; lia].
  destruct (in_dec Z.eq_dec k axes); cbn; lia.
Qed.
Lemma without_bounds axes : forall s k u, length u = nkept axes k (length s) ->
  in_bounds s (fillw axes k (repeat 0 (length s)) u) -> in_bounds (without axes k s) u.
Proof.
  induction s as [|d s IH]; intros k u HK H; cbn in *.
  - destruct u; [constructor|discriminate].
  - destruct (in_dec Z.eq_dec k axes).
    + inversion H; subst. apply IH; assumption.
    + destruct u as [|x u]; [discriminate|]. cbn in *. inversion H; subst. constructor; [assumption|]. apply IH; [lia|assumption].
Qed.
Lemma in_bounds_unit_gen s t : Forall2 wider s t -> Forall (fun d => 0 < d) s -> forall jx, in_bounds t jx -> in_bounds s (zero_unit s jx).
Proof.
  induction 1 as [|d d' s t Hw _ IH]; intros Hp jx Hb; inversion Hb; subst; cbn; [constructor|]. inversion Hp; subst.
  constructor; [|apply IH; assumption]. destruct (Z.eqb_spec d 1); [lia|]. destruct Hw; [contradiction|lia].
Qed.

(** ** One reducer *)
Section Lazy.
Context {T R : Type} (f : rfun T R) (dflt : R) (esh : list Z) (e : sexp T) (ev : list Z -> T)
  (axes : list Z) (keep : bool) (initial : option R).
Hypothesis Hsm : small (length esh).
Hypothesis Hval : valid_axes (length esh) axes.
Hypothesis Hel : has_elements esh e ev.
Hypothesis Hlaw : law_if_needed f axes initial.

Definition red : reducer R :=
  mk_reducer axes (red_shape keep axes esh) (if keep then seq 0 (length esh) else kepts axes 0 0 (length esh)) keep initial.
Notation rsh := (red_shape keep axes esh).
Notation value := (reduced f initial row_major keep axes esh ev).

Lemma rsh_length_without : keep = false -> length rsh = nkept axes 0 (length esh).
Proof. intros ->. apply without_length. Qed.
Lemma rsh_length_keep : keep = true -> length rsh = length esh.
Proof. intros ->. apply replaced_length. Qed.

Section Nonempty.
Context (l : layout) (sh : list Z).
Hypothesis Hl : l = row_major \/ l = column_major.
Hypothesis Hpos : Forall (fun d => 0 < d) esh.
Hypothesis Hspos : Forall (fun d => 0 < d) sh.
Hypothesis Hit : iterable keep axes esh sh.
Notation off := (length sh - length rsh)%nat.
Notation tail := (skipn off sh).
Notation fsh := (full_shape keep axes esh tail).
Notation F := (full_index keep axes (length esh)).

Lemma tail_wider : Forall2 wider rsh tail.
Proof. apply fits_wider. apply Hit. Qed.
Lemma tail_length : length tail = length rsh.
Proof. symmetry. eapply Forall2_len, tail_wider. Qed.
Lemma off_len : (off + length rsh = length sh)%nat.
Proof. destruct Hit as [[H _] _]. lia. Qed.

Lemma fsh_wider : Forall2 wider esh fsh.
Proof.
  pose proof tail_wider as H. unfold full_shape, red_shape in *. destruct keep; [apply overlay_wider|apply fillw_wider]; exact H.
Qed.
Lemma fsh_length : length fsh = length esh.
Proof. symmetry. eapply Forall2_len, fsh_wider. Qed.

Lemma fsh_axes a : In a axes -> nth (Z.to_nat a) fsh 0 = nth (Z.to_nat a) esh 0.
Proof.
  intros Ha. destruct Hval as [_ HF]. rewrite Forall_forall in HF. specialize (HF a Ha). pose proof tail_length as HT.
  unfold full_shape, red_shape in *. destruct keep.
  - rewrite replaced_length in *. rewrite overlay_nth; [|exact HT|lia]. replace (0 + Z.of_nat (Z.to_nat a)) with a by lia.
    destruct (in_dec Z.eq_dec a axes); [reflexivity|contradiction].
  - rewrite without_length in *. apply fillw_nth_in; [exact HT|lia|]. replace (0 + Z.of_nat (Z.to_nat a)) with a by lia. assumption.
Qed.

Lemma fsh_pos : Forall (fun d => 0 < d) fsh.
Proof.
  assert (Htp : Forall (fun d => 0 < d) tail).
  { apply Forall_forall. intros x Hx. rewrite Forall_forall in Hspos. apply Hspos. rewrite <- (firstn_skipn off sh). apply in_or_app. right. assumption. }
  unfold full_shape. destruct keep; [apply overlay_pos|apply fillw_pos]; assumption.
Qed.

Lemma HFb_ok ix : in_bounds sh ix -> in_bounds fsh (F (skipn off ix)).
Proof.
  intros Hb.
  assert (Ht : in_bounds tail (skipn off ix)).
  { apply in_bounds_skipn. assumption. }
  pose proof tail_length as HT. destruct Hit as [_ Hunit]. pose proof off_len as Hol. unfold full_shape, full_index, red_shape in *.
  destruct keep.
  - rewrite replaced_length in *. specialize (Hunit eq_refl).
    assert (Hu : forall j, (j < length esh)%nat -> In (0 + Z.of_nat j) axes -> nth j (skipn (length sh - length esh) sh) 0 = 1).
    { intros j Hj Hin. specialize (Hunit _ Hin). rewrite <- (firstn_skipn (length sh - length esh) sh) in Hunit at 2.
      rewrite app_nth2 in Hunit; rewrite firstn_length in *; [|lia]. rewrite <- Hunit. f_equal. lia. }
    apply overlay_in_bounds; assumption.
  - rewrite without_length in *. apply fillw_in_bounds; [exact Ht|exact HT|]. apply pos_zero_bounds. assumption.
Qed.

Lemma HFz_ok : F (repeat 0 (length sh - off)) = repeat 0 (length fsh).
Proof.
  rewrite fsh_length. pose proof off_len as H. replace (length sh - off)%nat with (length rsh) by lia.
  unfold full_index, red_shape. destruct keep.
  - rewrite replaced_length. reflexivity.
  - rewrite without_length. apply fillw_zeros.
Qed.

Lemma HFs_ok pre post : (off + length (pre ++ 0%Z :: post) = length sh)%nat ->
  exists P Q, rd (r_mapping red) (length pre) = Ok (length P) /\ (forall x, F (pre ++ x :: post) = P ++ x :: Q) /\
    forall d, nth_error sh (off + length pre) = Some d ->
      if r_keep red && mem_axis (length pre) (r_axes red) then d = 1 /\ exists d', nth_error fsh (length P) = Some d'
      else nth_error fsh (length P) = Some d.
Proof.
  intros HL. pose proof off_len as Hol. pose proof tail_length as HT. destruct Hit as [_ Hunit]. pose proof fsh_length as Hfl.
  assert (HLr : length (pre ++ 0 :: post) = length rsh) by lia.
  unfold red. cbn [r_mapping r_keep r_axes]. unfold full_index, full_shape, red_shape in *. destruct keep.
  - rewrite replaced_length in *. specialize (Hunit eq_refl). exists pre, post.
    assert (Hlt : (length pre < length esh)%nat) by (rewrite app_length in HLr; cbn in HLr; lia).
    split; [|split; [reflexivity|]].
    + erewrite rd_ok; [|rewrite nth_error_nth' with (d := 0%nat) by (rewrite seq_length; assumption); rewrite seq_nth by assumption; reflexivity]. reflexivity.
    + intros d Hd. cbn [andb].
      pose proof (overlay_nth axes esh 0 (skipn (length sh - length esh) sh) (length pre) HT Hlt) as Ho.
      rewrite Z.add_0_l in Ho. pose proof (mem_axis_spec (length pre) axes) as Hm.
      assert (He : nth_error (overlay axes 0 esh (skipn (length sh - length esh) sh)) (length pre) =
                   Some (nth (length pre) (overlay axes 0 esh (skipn (length sh - length esh) sh)) 0)).
      { apply nth_error_nth'. rewrite Hfl. assumption. }
      destruct (mem_axis (length pre) axes) eqn:Em.
      * specialize (Hunit (Z.of_nat (length pre)) (proj1 Hm eq_refl)). rewrite Nat2Z.id in Hunit. split; [|eauto].
        apply nth_error_nth with (d := 0) in Hd. rewrite <- Hd, <- Hunit. f_equal. lia.
      * rewrite He, Ho. destruct (in_dec Z.eq_dec (Z.of_nat (length pre)) axes) as [Hin|_]; [apply Hm in Hin; discriminate|].
        f_equal. rewrite <- nth_error_skipn' in Hd. apply nth_error_nth with (d := 0) in Hd. assumption.
  - rewrite without_length in *.
    destruct (fillw_split axes esh 0 pre post HLr) as (P' & Q' & E1' & E2' & E3' & E4').
    destruct (fillw_split axes (repeat 0 (length esh)) 0 pre post) as (P & Q & E1 & E2 & E3 & E4); [rewrite repeat_length; assumption|].
    rewrite repeat_length in *.
    assert (Hlt : (length pre < nkept axes 0 (length esh))%nat) by (rewrite app_length in HLr; cbn in HLr; lia).
    exists P, Q. split; [|split; [exact E4|]].
    + erewrite rd_ok by (apply kepts_nth; assumption). rewrite E1. reflexivity.
    + intros d Hd. cbn [andb]. rewrite <- nth_error_skipn' in Hd.
      destruct (nth_error_split _ _ Hd) as (t1 & t2 & Et & Elt).
      rewrite Et in *.
      destruct (fillw_split axes esh 0 t1 t2) as (P2 & Q2 & F1 & F2 & F3 & F4); [rewrite app_length in *; cbn in *; lia|].
      rewrite F4. rewrite Elt in F1. rewrite <- E1 in F1. rewrite <- F1, nth_error_app2, Nat.sub_diag by lia. reflexivity.
Qed.

Notation at_ := (x_at fsh e).
Lemma sub_laws : laws (x_ops esh e) l fsh at_ (x_endst fsh l e).
Proof.
  rewrite (x_ops_length esh fsh) by (symmetry; apply fsh_length).
  apply x_laws; [assumption|]. apply (operands_ok_fits esh); [apply wider_fits, fsh_wider|apply Hel].
Qed.

Lemma red_laws : laws (rs_ops (x_ops esh e) red off) l sh (R_at sh at_ off F) (x_endst fsh l e).
Proof.
  eapply reducer_laws; [apply sub_laws|assumption|pose proof off_len; lia| | |].
  - apply HFs_ok.
  - apply HFb_ok.
  - apply HFz_ok.
Qed.

Lemma in_bounds_unit jx : in_bounds fsh jx -> in_bounds esh (zero_unit esh jx).
Proof.
  apply in_bounds_unit_gen; [apply fsh_wider|assumption].
Qed.

Definition evf (jx : list Z) : T := ev (zero_unit esh jx).
Lemma sub_deref jx st : in_bounds fsh jx -> at_ jx st -> x_deref e st = Ok (evf jx).
Proof.
  intros Hb Ha. destruct Hel as [Hok Hv].
  rewrite (x_deref_ok fsh e) with (ix := jx); auto.
  - rewrite <- (x_value_unit esh) by (auto; rewrite <- fsh_length; apply in_bounds_length; assumption).
    apply Hv. apply in_bounds_unit. assumption.
  - apply (operands_ok_fits esh); [apply wider_fits, fsh_wider|assumption].
Qed.

Lemma zero_on_F ix : in_bounds sh ix -> zero_on axes (F (skipn off ix)).
Proof.
  intros Hb a Ha. pose proof off_len as Hol. pose proof tail_length as HT. pose proof (in_bounds_length _ _ Hb) as HLi.
  destruct Hval as [_ HF]. rewrite Forall_forall in HF. specialize (HF a Ha). destruct Hit as [_ Hunit].
  unfold full_index, red_shape in *. destruct keep.
  - specialize (Hunit eq_refl a Ha). rewrite replaced_length in *.
    pose proof (in_bounds_nth' sh ix (Z.to_nat a + (length sh - length esh)) Hb ltac:(lia)) as Hn.
    rewrite Hunit in Hn. replace (nth (Z.to_nat a) (skipn (length sh - length esh) ix) 0) with (nth (Z.to_nat a + (length sh - length esh)) ix 0); [lia|].
    rewrite <- (firstn_skipn (length sh - length esh) ix) at 1. rewrite app_nth2; rewrite firstn_length; [f_equal; lia|lia].
  - rewrite without_length in *. rewrite fillw_nth_in.
    + apply nth_repeat0.
    + rewrite repeat_length, skipn_length, <- HLi. lia.
    + rewrite repeat_length. lia.
    + replace (0 + Z.of_nat (Z.to_nat a)) with a by lia. assumption.
Qed.

(** The elements read are those of the block. *)
Lemma block_spread ix : in_bounds sh ix ->
  map evf (spread fsh axes (F (skipn off ix))) = map ev (block row_major keep axes esh (bc_index rsh ix)).
Proof.
  intros Hb. pose proof (HFb_ok _ Hb) as Hfb. pose proof (in_bounds_length _ _ Hfb) as HLf. pose proof fsh_length as Hfl.
  rewrite (spread_ext fsh esh) by apply fsh_axes. unfold evf. rewrite <- (map_map (zero_unit esh) ev). f_equal.
  rewrite spread_zero_unit by congruence.
  rewrite spread_nest0 by (rewrite ?zero_unit_length; congruence || assumption).
  pose proof (in_bounds_unit _ Hfb) as Hub. pose proof tail_length as HT. pose proof off_len as Hol. pose proof (in_bounds_length _ _ Hb) as HLi.
  pose proof (zero_on_F ix Hb) as Hz.
  unfold block, bc_index, indices_of. rewrite HLi.
  unfold full_index, red_shape, red_index in *. destruct keep.
  - rewrite replaced_length in *. rewrite (replaced_zero_unit axes esh 0) in *; auto; try congruence.
    2,3: intros j Hj Hin; specialize (Hz _ Hin); rewrite Z.add_0_l, Nat2Z.id in Hz; exact Hz.
    symmetry. apply block_replaced.
    apply replaced_bounds; [congruence|assumption].
  - rewrite without_length in *. rewrite fillw_zero_unit in * by (rewrite skipn_length, <- HLi; lia).
    symmetry. apply block_without; [|apply repeat_length].
    apply without_bounds; [|assumption]. rewrite zero_unit_length; rewrite without_length; [reflexivity|]. rewrite skipn_length, <- HLi. lia.
Qed.

Lemma rs_deref_ok ix st : in_bounds sh ix -> R_at sh at_ off F ix st ->
  exists st', rs_deref f dflt esh (x_ops esh e) (x_deref e) red st = Ok (value (bc_index rsh ix), st') /\
    R_at sh at_ off F ix st'.
Proof.
  intros Hb [_ Ha]. pose proof (HFb_ok _ Hb) as Hfb. pose proof fsh_length as Hfl. pose proof fsh_pos as Hfp.
  unfold rs_deref. rewrite compute_size_prod.
  assert (Hp : 0 < prod esh). { apply pos_prod. assumption. }
  destruct (Z.eqb_spec (prod esh) 0); [lia|].
  unfold reduced. rewrite <- (block_spread ix Hb). cbn [r_axes r_keep r_initial red].
  destruct (list_eq_dec Z.eq_dec axes []) as [Eax|Hne].
  - assert (E0 : (length esh =? 0)%nat || (length axes =? 0)%nat = true) by (rewrite Eax; apply orb_true_r). rewrite E0.
    rewrite (sub_deref _ _ Hfb Ha). cbn [bind]. exists st. split; [|split; assumption].
    assert (E1 : spread fsh axes (F (skipn off ix)) = [F (skipn off ix)]) by (rewrite Eax; reflexivity).
    rewrite E1. reflexivity.
  - assert (Hdim : (0 < length esh)%nat) by (eapply valid_axes_dim; eassumption).
    assert (Hal : (length axes =? 0)%nat = false) by (apply Nat.eqb_neq; intros E0; apply Hne, length_zero_iff_nil; assumption).
    destruct (Nat.eqb_spec (length esh) 0) as [|_]; [lia|]. rewrite Hal. cbn [orb].
    assert (Hv' : valid_axes (length fsh) axes) by (rewrite Hfl; assumption).
    assert (Hagg : (if keep then agg_keep f dflt esh (x_ops esh e) (x_deref e) red (length esh) st
                    else agg f esh (x_ops esh e) (x_deref e) axes st) = agg f esh (x_ops esh e) (x_deref e) axes st).
    { assert (Hfil : filter (fun a => Z.of_nat (length esh - length esh) <=? a) axes = axes).
      { rewrite Nat.sub_diag. destruct Hval as [_ HF]. clear -HF. induction HF; cbn [filter]; [reflexivity|].
        destruct (Z.leb_spec (Z.of_nat 0) x); [rewrite IHHF; reflexivity|lia]. }
      pose proof (agg_keep_eq f dflt esh esh (x_ops esh e) (x_deref e) eq_refl red Hne Hval (length esh) st (le_n _)) as E.
      change (r_axes red) with axes in E. rewrite Hfil in E. rewrite (E Hne). destruct keep; reflexivity. }
    rewrite Hagg. clear Hagg.
    destruct (agg_ok f esh fsh (x_ops esh e) (x_deref e) l at_ (x_endst fsh l e) evf sub_laws sub_deref (eq_sym Hfl) axes (F (skipn off ix)) st)
      as (st' & E & Ha'); auto.
    { intros a Hin. symmetry. apply fsh_axes. assumption. }
    { apply zero_on_F. assumption. }
    rewrite E. cbn [bind].
    assert (Hl1 : (length axes <= 1)%nat \/ merge_law f) by (destruct Hlaw as [[H _]|H]; auto).
    rewrite (aggv_fold f esh fsh evf (eq_sym Hfl) axes) by auto.
    destruct initial as [i|] eqn:Ei.
    + exists st'. split; [|split; assumption]. do 2 f_equal. destruct Hlaw as [[_ H]|Hm]; [discriminate|]. apply Hm.
      intros E0. apply map_eq_nil in E0. revert E0. apply (spread_nonempty esh fsh (eq_sym Hfl)); assumption.
    + exists st'. split; [reflexivity|split; assumption].
Qed.
End Nonempty.
End Lazy.
