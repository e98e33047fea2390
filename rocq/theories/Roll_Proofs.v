(** Proofs about roll. *)
From Coq Require Import List ZArith Bool Lia.
From Verif Require Import Prelude PreludeFacts Strides_Model Strides_Spec Strides_Proofs Roll_Model.
Import ListNotations.
Open Scope Z_scope.

Lemma while_negative_ok n : 0 < n -> forall fuel shift, - shift <= Z.of_nat fuel ->
  exists k, while_negative fuel shift n = Ok (shift + k * n) /\ 0 <= k /\ 0 <= shift + k * n /\
    (shift < 0 -> shift + k * n < n) /\ (0 <= shift -> k = 0).
Proof.
  intros Hn. induction fuel; intros shift Hf; cbn [while_negative].
  - destruct (Z.ltb_spec shift 0); [lia|]. exists 0. repeat split; try lia. f_equal. lia.
  - destruct (Z.ltb_spec shift 0).
    + destruct (IHfuel (shift + n) ltac:(lia)) as (k & E & K1 & K2 & K3 & K4). exists (k + 1). rewrite E.
      replace (shift + n + k * n) with (shift + (k + 1) * n) in * by lia.
      assert (G : shift + (k + 1) * n < n). { destruct (Z.lt_ge_cases (shift + n) 0); [auto|]. rewrite (K4 H0). lia. }
      repeat split; lia.
    + exists 0. repeat split; try lia. f_equal. lia.
Qed.

Lemma make_positive_ok shift n : 0 < n -> exists k, make_positive shift n = Ok (shift + k * n) /\ 0 <= shift + k * n /\
  (shift < 0 -> shift + k * n < n) /\ (0 <= shift -> k = 0).
Proof.
  intros Hn. unfold make_positive.
  destruct (while_negative_ok n Hn (Z.to_nat (- shift)) shift ltac:(lia)) as (k & E & _ & K). exists k. auto.
Qed.

Lemma fold_mul l : forall a, fold_left Z.mul l a = a * prod l.
Proof.
  induction l as [|x l IH]; intros a; cbn [fold_left]; [rewrite prod_nil; lia|]. rewrite IH, prod_cons. lia.
Qed.

Lemma copy_range_ok {V} (s : list V) : forall m i a out, 0 <= a -> (Z.to_nat a + i + m <= length s)%nat ->
  for_up (fun i out => let* x := rdz s (a + Z.of_nat i) in Ok (out ++ [x])) i m out =
  Ok (out ++ firstn m (skipn (Z.to_nat a + i) s)).
Proof.
  induction m; intros i a out Ha Hl.
  - cbn. rewrite app_nil_r. reflexivity.
  - cbn [for_up]. destruct (nth_error_lt_ex s (Z.to_nat a + i) ltac:(lia)) as (x & Hx).
    rewrite (rdz_ok s (a + Z.of_nat i) x) by (try lia; replace (Z.to_nat (a + Z.of_nat i)) with (Z.to_nat a + i)%nat by lia; exact Hx).
    cbn [bind]. rewrite IHm by lia. rewrite (skipn_cons_nth _ _ _ Hx). cbn [firstn]. rewrite <- app_assoc.
    replace (Z.to_nat a + S i)%nat with (S (Z.to_nat a + i)) by lia. reflexivity.
Qed.

Lemma copy_range_eq {V} (s : list V) a b out : 0 <= a <= b -> b <= Z.of_nat (length s) ->
  copy_range s a b out = Ok (out ++ firstn (Z.to_nat (b - a)) (skipn (Z.to_nat a) s)).
Proof.
  intros Hab Hb. unfold copy_range. rewrite copy_range_ok by lia. rewrite Nat.add_0_r. reflexivity.
Qed.

Lemma roll_flat_lemma : forall (V : Type) (s : list V) (shape : list Z) (shift : Z),
  Z.of_nat (length s) = prod shape -> 0 < prod shape ->
  exists r, roll_flat s shape shift = Ok r /\ length r = length s /\
    forall k, 0 <= k < prod shape -> nth_error r (Z.to_nat k) = nth_error s (Z.to_nat ((k - shift) mod prod shape)).
Proof.
  intros V s shape shift Hs Hp. unfold roll_flat. rewrite fold_mul, Z.mul_1_l.
  destruct (make_positive_ok shift (prod shape) Hp) as (q & -> & Hq & _). cbn [bind].
  unfold crem. destruct (Z.eqb_spec (prod shape) 0); [lia|]. cbn [bind].
  rewrite Z.rem_mod_nonneg by lia. rewrite Z_mod_plus_full. set (m := shift mod prod shape).
  assert (Hm : 0 <= m < prod shape) by (apply Z.mod_pos_bound; lia).
  rewrite copy_range_eq by lia. cbn [bind]. rewrite copy_range_eq by lia. cbn [app].
  change (Z.to_nat 0) with 0%nat. cbn [skipn].
  replace (Z.of_nat (length s) - (Z.of_nat (length s) - m)) with m by lia.
  rewrite (firstn_all2 (n := Z.to_nat m)) by (rewrite skipn_length; lia).
  eexists. split; [reflexivity|]. split; [rewrite app_length, skipn_length, firstn_length; lia|].
  intros k Hk.
  assert (E : (k - shift) mod prod shape = if k <? m then k - m + prod shape else k - m).
  { symmetry. destruct (Z.ltb_spec k m).
    - apply (Z.mod_unique_pos _ _ (- (shift / prod shape) - 1)); [lia|].
      pose proof (Z.div_mod shift (prod shape) ltac:(lia)). fold m in H0. lia.
    - apply (Z.mod_unique_pos _ _ (- (shift / prod shape))); [lia|].
      pose proof (Z.div_mod shift (prod shape) ltac:(lia)). fold m in H0. lia. }
  rewrite E. destruct (Z.ltb_spec k m).
  - rewrite nth_error_app1 by (rewrite skipn_length; lia). rewrite nth_error_skipn. f_equal. lia.
  - rewrite nth_error_app2 by (rewrite skipn_length; lia). rewrite skipn_length.
    rewrite nth_error_firstn by lia. f_equal. lia.
Qed.

(** ** along an axis *)
Lemma walk_ok {V} (body : Z -> list V -> res (list V)) (f : Z -> list V) first off : 0 < off ->
  forall m a fuel out, (m <= fuel)%nat ->
  (forall i out, a <= i < a + Z.of_nat m -> body (first + i * off) out = Ok (out ++ f i)) ->
  walk fuel body (first + a * off) (first + (a + Z.of_nat m) * off) off out =
  Ok (out ++ flat_map f (map (fun k => a + Z.of_nat k) (seq 0 m))).
Proof.
  intros Ho. induction m; intros a fuel out Hf Hb.
  - replace (a + Z.of_nat 0) with a by lia. destruct fuel; cbn [walk]; rewrite Z.eqb_refl; cbn; rewrite app_nil_r; reflexivity.
  - destruct fuel; [lia|]. cbn [walk]. destruct (Z.eqb_spec (first + a * off) (first + (a + Z.of_nat (S m)) * off)); [nia|].
    rewrite Hb by lia. cbn [bind].
    replace (first + a * off + off) with (first + (a + 1) * off) by lia.
    replace (a + Z.of_nat (S m)) with (a + 1 + Z.of_nat m) by lia.
    rewrite IHm; [|lia|intros; apply Hb; lia]. rewrite <- app_assoc. f_equal. f_equal.
    cbn [seq map flat_map]. rewrite Z.add_0_r. f_equal.
    rewrite <- seq_shift, map_map. f_equal. apply map_ext. intros k. lia.
Qed.

Lemma loop_ok {V} (body : Z -> list V -> res (list V)) (f : Z -> list V) first off a b out : 0 < off -> a <= b ->
  (forall i out, a <= i < b -> body (first + i * off) out = Ok (out ++ f i)) ->
  loop body (first + a * off) (first + b * off) off out =
  Ok (out ++ flat_map f (map (fun k => a + Z.of_nat k) (seq 0 (Z.to_nat (b - a))))).
Proof.
  intros Ho Hab Hb. unfold loop.
  pose proof (walk_ok body f first off Ho (Z.to_nat (b - a)) a (Z.to_nat (Z.abs (first + b * off - (first + a * off)))) out) as W.
  replace (a + Z.of_nat (Z.to_nat (b - a))) with b in W by lia. apply W; [nia|auto].
Qed.

(** The sequence obtained by rolling axis [a] (no axis: copied) of a block of
    shape [sh] that starts at [from]. *)
Definition next (a : option nat) : option nat := match a with Some (S a) => Some a | _ => None end.
Definition zseq (a b : Z) : list Z := map (fun k => a + Z.of_nat k) (seq 0 (Z.to_nat (b - a))).
Definition order (a : option nat) (shift n : Z) : list Z :=
  match a with Some O => zseq (n - shift) n ++ zseq 0 (n - shift) | _ => zseq 0 n end.
Fixpoint rolled {V} (s : list V) (shift : Z) (a : option nat) (sh : list Z) (from : Z) : list V :=
  match sh with
  | [] => firstn 1 (skipn (Z.to_nat from) s)
  | n :: rest => flat_map (fun i => rolled s shift (next a) rest (from + i * prod rest)) (order a shift n)
  end.

(** The shift fits the axis. *)
Definition shift_fits (shift : Z) (a : option nat) (sh : list Z) : Prop :=
  match a with Some a => (a < length sh)%nat /\ 0 <= shift <= nth a sh 0 | None => True end.

Lemma shift_fits_next shift a n sh : shift_fits shift a (n :: sh) -> shift_fits shift (next a) sh.
Proof. destruct a as [[|a]|]; cbn; auto. intros. split; lia. Qed.

Lemma order_length a shift n sh : 0 <= n -> shift_fits shift a (n :: sh) -> length (order a shift n) = Z.to_nat n.
Proof.
  intros Hn Hf. destruct a as [[|a]|]; cbn in Hf; unfold order, zseq; rewrite ?app_length, ?map_length, ?seq_length; lia.
Qed.

Lemma order_in a shift n sh i : 0 <= n -> shift_fits shift a (n :: sh) -> In i (order a shift n) -> 0 <= i < n.
Proof.
  intros Hn Hf H. assert (Z : forall x y, 0 <= x -> y <= n -> In i (zseq x y) -> 0 <= i < n).
  { intros x y Hx Hy HI. unfold zseq in HI. apply in_map_iff in HI. destruct HI as (k & <- & Hk). apply in_seq in Hk. lia. }
  destruct a as [[|a]|]; cbn in *; [apply in_app_or in H; destruct H as [H|H]|..]; eapply Z; try exact H; lia.
Qed.

Lemma flat_map_length {A B} (f : A -> list B) m l : (forall x, In x l -> length (f x) = m) -> length (flat_map f l) = (length l * m)%nat.
Proof.
  induction l as [|x l IH]; intros H; cbn [flat_map length]; auto. rewrite app_length, H by (left; auto).
  rewrite IH by (intros; apply H; right; auto). lia.
Qed.

Lemma flat_map_nth {A B} (f : A -> list B) m : forall l i x j, (forall x, In x l -> length (f x) = m) ->
  nth_error l i = Some x -> (j < m)%nat -> nth_error (flat_map f l) (i * m + j) = nth_error (f x) j.
Proof.
  induction l as [|y l IH]; intros [|i] x j H Hi Hj; cbn in Hi; try discriminate; cbn [flat_map].
  - injection Hi as ->. rewrite nth_error_app1 by (rewrite H by (left; auto); lia). reflexivity.
  - rewrite nth_error_app2 by (rewrite H by (left; auto); lia). rewrite H by (left; auto).
    rewrite <- (IH i x j) by (auto; intros; apply H; right; auto). f_equal. lia.
Qed.

Lemma rolled_length {V} (s : list V) shift : forall sh a from, is_shape sh -> shift_fits shift a sh ->
  0 <= from -> from + prod sh <= Z.of_nat (length s) -> length (rolled s shift a sh from) = Z.to_nat (prod sh).
Proof.
  induction sh as [|n sh IH]; intros a from Hs Hf H0 Hl; cbn [rolled].
  - rewrite prod_nil in *. rewrite firstn_length, skipn_length. lia.
  - inversion Hs; subst. rewrite prod_cons in *. assert (0 <= prod sh) by (apply prod_nonneg; auto).
    rewrite (flat_map_length _ (Z.to_nat (prod sh))).
    + rewrite (order_length a shift n sh) by auto. rewrite Z2Nat.inj_mul by lia. reflexivity.
    + intros i Hi. pose proof (order_in a shift n sh i H2 Hf Hi). apply IH; auto; [eapply shift_fits_next; eauto|nia|nia].
Qed.

Definition shifted (shift : Z) (a : option nat) (sh ix : list Z) : list Z :=
  match a with Some a => upd ix a ((nth a ix 0 + shift) mod nth a sh 0) | None => ix end.

Lemma order_nth a shift n sh i ix : 0 <= i < n -> shift_fits shift a (n :: sh) ->
  nth_error (order a shift n) (Z.to_nat (nth 0 (shifted shift a (n :: sh) (i :: ix)) 0)) = Some i.
Proof.
  intros Hi Hf. assert (Z : forall x y k, 0 <= k < y - x -> nth_error (zseq x y) (Z.to_nat k) = Some (x + k)).
  { intros x y k Hk. unfold zseq. erewrite map_nth_error; [|apply nth_error_seq; lia]. f_equal. lia. }
  destruct a as [[|a]|]; cbn in *.
  - destruct (Z.lt_ge_cases (i + shift) n).
    + rewrite Z.mod_small by lia. rewrite nth_error_app2 by (unfold zseq; rewrite map_length, seq_length; lia).
      replace (Z.to_nat (i + shift) - length (zseq (n - shift) n))%nat with (Z.to_nat i) by (unfold zseq; rewrite map_length, seq_length; lia).
      rewrite Z by lia. f_equal; lia.
    + replace ((i + shift) mod n) with (i + shift - n).
      2:{ apply (Z.mod_unique_pos _ _ 1); lia. }
      rewrite nth_error_app1 by (unfold zseq; rewrite map_length, seq_length; lia). rewrite Z by lia. f_equal; lia.
  - rewrite Z by lia. reflexivity.
  - rewrite Z by lia. reflexivity.
Qed.

Lemma shifted_cons shift a n sh i ix : exists i', shifted shift a (n :: sh) (i :: ix) = i' :: shifted shift (next a) sh ix.
Proof. destruct a as [[|a]|]; cbn; eauto. Qed.

Lemma shifted_bounds shift : forall sh a ix, in_bounds sh ix -> shift_fits shift a sh -> in_bounds sh (shifted shift a sh ix).
Proof.
  intros sh a ix H Hf. destruct a as [a|]; cbn; auto. cbn in Hf. revert a Hf.
  induction H as [|n i sh ix Hi HF IH]; intros [|a] Hf; cbn in *; try lia.
  - constructor; auto. apply Z.mod_pos_bound. lia.
  - constructor; auto. apply IH. lia.
Qed.

Lemma rolled_nth {V} (s : list V) shift : forall sh a from ix, in_bounds sh ix -> shift_fits shift a sh ->
  0 <= from -> from + prod sh <= Z.of_nat (length s) ->
  nth_error (rolled s shift a sh from) (Z.to_nat (row_pos sh (shifted shift a sh ix))) = nth_error s (Z.to_nat (from + row_pos sh ix)).
Proof.
  intros sh a from ix H. revert a from. induction H as [|n i sh ix Hi HF IH]; intros a from Hf H0 Hl.
  - cbn [rolled]. replace (row_pos [] (shifted shift a [] [])) with 0 by (destruct a as [[|a]|]; reflexivity).
    cbn [row_pos]. change (Z.to_nat 0) with 0%nat. rewrite nth_error_firstn by lia. rewrite nth_error_skipn. f_equal. lia.
  - pose proof (shift_fits_next _ _ _ _ Hf) as Hf'.
    assert (Hsh : is_shape sh) by (clear - HF; induction HF; constructor; auto; lia).
    assert (Hp : 0 <= prod sh) by (apply prod_nonneg; auto). rewrite prod_cons in Hl.
    pose proof (shifted_bounds shift (n :: sh) a (i :: ix) ltac:(constructor; auto) Hf) as HB.
    pose proof (order_nth a shift n sh i ix Hi Hf) as HO.
    destruct (shifted_cons shift a n sh i ix) as (i' & E). rewrite E in *. cbn [nth] in HO. cbn [rolled row_pos].
    inversion HB as [|? ? ? ? Hi' HB']; subst.
    pose proof (row_pos_bound _ _ HB') as RB.
    replace (Z.to_nat (i' * prod sh + row_pos sh (shifted shift (next a) sh ix))) with
      (Z.to_nat i' * Z.to_nat (prod sh) + Z.to_nat (row_pos sh (shifted shift (next a) sh ix)))%nat
      by (rewrite Z2Nat.inj_add, Z2Nat.inj_mul by nia; reflexivity).
    rewrite (flat_map_nth _ (Z.to_nat (prod sh)) _ _ i); [| |exact HO|lia].
    + rewrite IH; auto; [|nia|nia]. f_equal. f_equal. lia.
    + intros k Hk. pose proof (order_in a shift n sh k ltac:(lia) Hf Hk). apply rolled_length; auto; nia.
Qed.

Lemma roll_impl_ok {V} (s : list V) shift axis : forall sh M from out, sh <> [] -> is_shape sh ->
  let a := if (axis <? M)%nat then None else Some (axis - M)%nat in
  shift_fits shift a sh -> 0 <= from -> from + prod sh <= Z.of_nat (length s) ->
  roll_impl s shift axis M sh from out = Ok (out ++ rolled s shift a sh from).
Proof.
  induction sh as [|n sh IH]; intros M from out Hne Hs a Hf H0 Hl; [congruence|]. clear Hne.
  pose proof (shift_fits_next _ _ _ _ Hf) as Hf'.
  inversion Hs as [|? ? Hn Hs']; subst. assert (Hp : 0 <= prod sh) by (apply prod_nonneg; auto).
  rewrite prod_cons in Hl.
  assert (Hnext : next a = if (axis <? M + 1)%nat then None else Some (axis - (M + 1))%nat).
  { unfold a, next. destruct (Nat.ltb_spec axis M), (Nat.ltb_spec axis (M + 1)); try lia; auto.
    - replace (axis - M)%nat with 0%nat by lia. reflexivity.
    - replace (axis - M)%nat with (S (axis - (M + 1))) by lia. reflexivity. }
  cbn [roll_impl]. set (line := match sh with [] => _ | _ :: _ => _ end).
  assert (HL : forall i out, 0 <= i < n -> line (from + i * prod sh) out = Ok (out ++ rolled s shift (next a) sh (from + i * prod sh))).
  { intros i o Hi. unfold line. destruct sh as [|m sh].
    - rewrite prod_nil in *. cbn [rolled]. destruct (nth_error_lt_ex s (Z.to_nat (from + i * 1)) ltac:(lia)) as (x & Hx).
      rewrite (rdz_ok s _ x) by (auto; lia). cbn [bind]. rewrite (skipn_cons_nth _ _ _ Hx). reflexivity.
    - rewrite Hnext in *. apply IH; auto; [discriminate|nia|nia]. }
  rewrite fold_mul, Z.mul_1_l.
  destruct (Z.eq_dec (prod sh) 0) as [Ez|Ez].
  - assert (R : rolled s shift a (n :: sh) from = []).
    { apply length_zero_iff_nil. rewrite rolled_length by (auto; rewrite prod_cons, ?Ez; lia). rewrite prod_cons, Ez. lia. }
    rewrite R, app_nil_r. rewrite Ez. rewrite !Z.mul_0_r, !Z.add_0_r.
    assert (L : forall o, loop line from from 0 o = Ok o).
    { intros o. unfold loop. destruct (Z.to_nat (Z.abs (from - from))); cbn [walk]; rewrite Z.eqb_refl; reflexivity. }
    destruct (axis =? M)%nat; rewrite ?L; cbn [bind]; rewrite ?L; reflexivity.
  - cbn [rolled]. destruct (Nat.eqb_spec axis M) as [E|E].
    + assert (a = Some 0%nat) as Ea. { unfold a. destruct (Nat.ltb_spec axis M); [lia|]. f_equal. lia. }
      rewrite Ea in Hf |- *. cbn in Hf. cbn [order]. rewrite flat_map_app.
      rewrite (loop_ok line (fun i => rolled s shift (next a) sh (from + i * prod sh))) by (try lia; intros; apply HL; lia).
      cbn [bind].
      replace from with (from + 0 * prod sh) at 1 by lia.
      rewrite (loop_ok line (fun i => rolled s shift (next a) sh (from + i * prod sh))) by (try lia; intros; apply HL; lia).
      rewrite Ea, <- app_assoc. reflexivity.
    + assert (order a shift n = zseq 0 n) as Eo.
      { unfold a, order. destruct (Nat.ltb_spec axis M); [reflexivity|]. destruct (axis - M)%nat eqn:Q; [lia|reflexivity]. }
      rewrite Eo. replace from with (from + 0 * prod sh) at 1 by lia.
      rewrite (loop_ok line (fun i => rolled s shift (next a) sh (from + i * prod sh))) by (try lia; intros; apply HL; lia).
      reflexivity.
Qed.

Lemma roll_axis_lemma : forall (V : Type) (s : list V) (shape : list Z) (shift : Z) (axis : nat),
  is_shape shape -> Z.of_nat (length s) = prod shape -> (axis < length shape)%nat ->
  shift <= nth axis shape 0 -> (shift < 0 -> 0 < nth axis shape 0) ->
  exists r, roll_axis s shape shift (Z.of_nat axis) = Ok r /\ length r = length s /\
    forall ix, in_bounds shape ix ->
      nth_error r (Z.to_nat (row_pos shape (upd ix axis ((nth axis ix 0 + shift) mod nth axis shape 0)))) =
      nth_error s (Z.to_nat (row_pos shape ix)).
Proof.
  intros V s shape shift axis Hs Hl Ha Hle Hneg. unfold roll_axis.
  destruct (Z.ltb_spec (Z.of_nat axis) 0); [lia|]. destruct (Z.leb_spec (Z.of_nat (length shape)) (Z.of_nat axis)); [lia|]. cbn [orb].
  set (n := nth axis shape 0) in *.
  rewrite (rdz_ok shape _ n) by (try lia; rewrite Nat2Z.id; apply nth_error_nth'; auto). cbn [bind].
  assert (Hn : 0 <= n). { unfold is_shape in Hs. rewrite Forall_forall in Hs. apply Hs. apply nth_In. auto. }
  assert (Hmp : exists k, make_positive shift n = Ok (shift + k * n) /\ 0 <= shift + k * n <= n).
  { destruct (Z.lt_ge_cases shift 0) as [Hsn|Hsn].
    - destruct (make_positive_ok shift n (Hneg Hsn)) as (k & E & K1 & K2 & _). exists k. split; [exact E|]. specialize (K2 Hsn). lia.
    - exists 0. unfold make_positive. replace (shift + 0 * n) with shift by lia. split; [|lia].
      destruct (Z.to_nat (- shift)); cbn [while_negative]; destruct (Z.ltb_spec shift 0); auto; lia. }
  destruct Hmp as (k & -> & Hk). cbn [bind]. rewrite Nat2Z.id.
  pose proof (roll_impl_ok s (shift + k * n) axis shape 0 0 []) as R. cbv zeta in R.
  destruct (Nat.ltb_spec axis 0); [lia|]. rewrite Nat.sub_0_r in R.
  assert (Hne : shape <> []) by (destruct shape; [cbn in Ha; lia|discriminate]).
  assert (Hf : shift_fits (shift + k * n) (Some axis) shape) by (cbn; fold n; lia).
  rewrite R by (auto; lia). clear R. cbn [app].
  eexists. split; [reflexivity|].
  split; [rewrite rolled_length by (auto; lia); lia|].
  intros ix Hi. pose proof (rolled_nth s (shift + k * n) shape (Some axis) 0 ix Hi Hf ltac:(lia) ltac:(lia)) as R.
  cbn [shifted] in R. fold n in R. rewrite Z.add_assoc, Z_mod_plus_full, Z.add_0_l in R. exact R.
Qed.

(** ** what goes wrong *)
Lemma roll_negative_axis_lemma : forall (V : Type) (s : list V) (shape : list Z) (shift axis : Z),
  axis < 0 -> roll_axis s shape shift axis = Throw runtime_error.
Proof. intros. unfold roll_axis. destruct (Z.ltb_spec axis 0); [reflexivity|lia]. Qed.

Lemma roll_axis_throws_lemma : forall (V : Type) (s : list V) (shape : list Z) (shift axis : Z),
  Z.of_nat (length shape) <= axis -> roll_axis s shape shift axis = Throw runtime_error.
Proof.
  intros. unfold roll_axis. destruct (Z.leb_spec (Z.of_nat (length shape)) axis); [|lia].
  rewrite orb_true_r. reflexivity.
Qed.

Lemma walk_ub {V} (body : Z -> list V -> res (list V)) first last off out fuel :
  (fuel <> 0)%nat -> first <> last -> body first out = UB -> walk fuel body first last off out = UB.
Proof.
  intros Hf H E. destruct fuel; [congruence|]. cbn [walk]. destruct (Z.eqb_spec first last); [congruence|]. rewrite E. reflexivity.
Qed.

Lemma loop_ub {V} (body : Z -> list V -> res (list V)) first last off out :
  first <> last -> body first out = UB -> loop body first last off out = UB.
Proof. intros H E. unfold loop. apply walk_ub; auto. lia. Qed.

(** Reading in front of the first element. *)
Lemma rdz_negative {V} (s : list V) i : i < 0 -> rdz s i = UB.
Proof. intros H. unfold rdz. destruct (Z.ltb_spec i 0); [reflexivity|lia]. Qed.

Lemma roll_impl_front {V} (s : list V) shift axis : forall sh M from out, Forall (fun d => 0 < d) sh -> sh <> [] ->
  from < 0 -> (axis < M)%nat -> roll_impl s shift axis M sh from out = UB.
Proof.
  induction sh as [|n sh IH]; intros M from out Hs Hne Hf HM; [congruence|]. inversion Hs; subst. cbn [roll_impl].
  destruct (Nat.eqb_spec axis M); [lia|]. assert (Hp : 0 < prod sh) by (apply prod_pos; auto).
  rewrite fold_mul, Z.mul_1_l. apply loop_ub; [nia|]. destruct sh.
  - rewrite rdz_negative by auto. reflexivity.
  - apply IH; auto; [discriminate|lia].
Qed.

Lemma roll_impl_large {V} (s : list V) shift axis : forall sh M out, Forall (fun d => 0 < d) sh ->
  (M <= axis < M + length sh)%nat -> nth (axis - M) sh 0 < shift ->
  roll_impl s shift axis M sh 0 out = UB.
Proof.
  induction sh as [|n sh IH]; intros M out Hs HM Hn; [cbn in HM; lia|]. inversion Hs; subst. cbn [roll_impl].
  assert (Hp : 0 < prod sh) by (apply prod_pos; auto). rewrite fold_mul, Z.mul_1_l.
  destruct (Nat.eqb_spec axis M) as [->|E].
  - rewrite Nat.sub_diag in Hn. cbn [nth] in Hn. rewrite loop_ub; [reflexivity|nia|]. destruct sh.
    + rewrite rdz_negative by nia. reflexivity.
    + apply roll_impl_front; auto; [discriminate|nia|lia].
  - apply loop_ub; [nia|]. destruct sh.
    + cbn in HM. lia.
    + apply IH; auto; [cbn [length] in *; lia|].
      replace (axis - M)%nat with (S (axis - (M + 1))) in Hn by lia. exact Hn.
Qed.

Lemma roll_large_lemma : forall (V : Type) (s : list V) (shape : list Z) (shift : Z) (axis : nat),
  Forall (fun d => 0 < d) shape -> (axis < length shape)%nat -> nth axis shape 0 < shift ->
  roll_axis s shape shift (Z.of_nat axis) = UB.
Proof.
  intros V s shape shift axis Hs Ha Hn. unfold roll_axis.
  destruct (Z.ltb_spec (Z.of_nat axis) 0); [lia|]. destruct (Z.leb_spec (Z.of_nat (length shape)) (Z.of_nat axis)); [lia|]. cbn [orb].
  assert (Hp : 0 < nth axis shape 0). { rewrite Forall_forall in Hs. apply Hs. apply nth_In. auto. }
  rewrite (rdz_ok shape _ (nth axis shape 0)) by (try lia; rewrite Nat2Z.id; apply nth_error_nth'; auto). cbn [bind].
  destruct (make_positive_ok shift _ Hp) as (k & -> & _ & _ & K). rewrite K by lia. cbn [bind]. rewrite Z.mul_0_l, Z.add_0_r, Nat2Z.id.
  apply roll_impl_large; auto; [lia|]. rewrite Nat.sub_0_r. exact Hn.
Qed.

Lemma while_negative_diverges fuel shift : shift < 0 -> while_negative fuel shift 0 = UB.
Proof.
  revert shift. induction fuel; intros shift H; cbn [while_negative]; destruct (Z.ltb_spec shift 0); try lia; auto.
  apply IHfuel. lia.
Qed.

Lemma roll_diverges_lemma : forall (V : Type) (shape : list Z) (shift : Z) (axis : nat),
  (axis < length shape)%nat -> nth axis shape 0 = 0 -> shift < 0 ->
  roll_axis (@nil V) shape shift (Z.of_nat axis) = UB.
Proof.
  intros V shape shift axis Ha Hz Hs. unfold roll_axis.
  destruct (Z.ltb_spec (Z.of_nat axis) 0); [lia|]. destruct (Z.leb_spec (Z.of_nat (length shape)) (Z.of_nat axis)); [lia|]. cbn [orb].
  rewrite (rdz_ok shape _ 0) by (try lia; rewrite Nat2Z.id, <- Hz; apply nth_error_nth'; auto). cbn [bind].
  unfold make_positive. rewrite while_negative_diverges by auto. reflexivity.
Qed.

Lemma roll_flat_empty_lemma : forall (V : Type) (shape : list Z) (shift : Z), prod shape = 0 ->
  roll_flat (@nil V) shape shift = UB.
Proof.
  intros V shape shift H. unfold roll_flat. rewrite fold_mul, Z.mul_1_l, H.
  destruct (Z.lt_ge_cases shift 0).
  - unfold make_positive. rewrite while_negative_diverges by auto. reflexivity.
  - assert (E : make_positive shift 0 = Ok shift).
    { unfold make_positive. destruct (Z.to_nat (- shift)); cbn [while_negative]; destruct (Z.ltb_spec shift 0); auto; lia. }
    rewrite E. reflexivity.
Qed.

(** In column-major traversal the array {{1,3,5},{2,4,6}} is the sequence 1..6. *)
Lemma roll_column_lemma :
  exists r, roll_axis [1; 2; 3; 4; 5; 6] [2; 3] 1 0 = Ok r /\ in_bounds [2; 3] [0; 0] /\
    nth_error r (Z.to_nat (col_pos [2; 3] (upd [0; 0] 0 ((0 + 1) mod 2)))) <> nth_error [1; 2; 3; 4; 5; 6] (Z.to_nat (col_pos [2; 3] [0; 0])).
Proof.
  eexists. split; [vm_compute; reflexivity|]. split; [repeat constructor; lia|]. vm_compute. discriminate.
Qed.
