(** Proofs for C88. *)
From Coq Require Import List ZArith Lia Bool QArith Qcanon Qcabs.
From Verif Require Import Prelude PreludeFacts Strides_Model Strides_Spec Broadcast_Model Broadcast_Spec Broadcast_Proofs Stepper_Model Stepper_Spec Reshape_Model
  Reduce_Model Reduce_Spec Reduce13_Proofs Norm_Model Elem_Model Elem_Spec.
Import ListNotations.
Open Scope Z_scope.

(** ** Powers *)
Section Monoid.
  Context {T : Type} (mul : T -> T -> T) (one : T).
  Context (A : forall x y z, mul x (mul y z) = mul (mul x y) z) (L : forall x, mul one x = x) (R : forall x, mul x one = x).
  Lemma product_add m n v : product mul one (m + n) v = mul (product mul one m v) (product mul one n v).
  Proof. induction m as [|m IH]; cbn; [symmetry; apply L|]. rewrite IH. apply A. Qed.
  Lemma pow_ring v : forall fuel N, (N <= fuel)%nat -> pow_impl one (fun x => x) (fun x => x) (fun x y => Ok (mul x y)) fuel N v = Ok (product mul one N v).
  Proof.
    induction fuel as [|fuel IH]; intros N HN.
    - replace N with 0%nat by lia. reflexivity.
    - destruct N as [|[|n]]; [reflexivity|cbn; rewrite R; reflexivity|]. remember (S (S n)) as N eqn:EN.
      assert (E : pow_impl one (fun x => x) (fun x => x) (fun x y => Ok (mul x y)) (S fuel) N v =
        let* p := pow_impl one (fun x => x) (fun x => x) (fun x y => Ok (mul x y)) fuel (N / 2) v in
        let* b := pow_impl one (fun x => x) (fun x => x) (fun x y => Ok (mul x y)) fuel (N mod 2) v in Ok (mul (mul p p) b)) by (subst N; reflexivity).
      rewrite E. pose proof (Nat.div_mod N 2 ltac:(lia)) as D. pose proof (Nat.mod_upper_bound N 2 ltac:(lia)) as M.
      assert (H1 : (N / 2 < N)%nat) by (apply Nat.div_lt; lia).
      rewrite IH by lia. cbn [bind]. rewrite IH by lia. cbn [bind]. f_equal. rewrite <- product_add, <- product_add. f_equal. lia.
  Qed.
End Monoid.

(** Integers *)
Lemma conv_id t z : value_of t z -> int_conv t z = z.
Proof.
  unfold value_of, low, high, int_conv. destruct t as [[|] w]; cbn [signed]; intros H.
  - unfold to_signed. set (b := bits _) in *. assert (Hb : 2 ^ b = 2 * 2 ^ (b - 1)) by (rewrite <- Z.pow_succ_r by (subst b; destruct w; cbn; lia); f_equal; lia).
    assert (0 < 2 ^ (b - 1)) by (apply Z.pow_pos_nonneg; subst b; destruct w; cbn; lia).
    rewrite Z.mod_small by lia. lia.
  - apply Z.mod_small. lia.
Qed.
Lemma mul_ok t a b : value_of (promoted t) (a * b) -> int_mul t a b = Ok (a * b).
Proof.
  intros H. unfold int_mul. destruct (signed (promoted t)) eqn:Sg.
  - destruct H as [H1 H2]. apply Z.leb_le in H1. apply Z.leb_le in H2. rewrite H1, H2. reflexivity.
  - f_equal. pose proof (conv_id (promoted t) (a * b) H) as C. unfold int_conv in C. rewrite Sg in C. exact C.
Qed.
(** Smaller powers stay in range *)
Lemma pow_range t v k m : value_of t 1 -> value_of t (v ^ Z.of_nat m) -> value_of t v -> (k <= m)%nat -> value_of t (v ^ Z.of_nat k).
Proof.
  intros V1 Vm Vv H. destruct (Nat.eq_dec k m) as [->|N]; [exact Vm|].
  destruct (Nat.eq_dec k 0) as [->|K0]; [exact V1|]. destruct (Nat.eq_dec k 1) as [->|K1]; [cbn [Z.of_nat]; rewrite Z.pow_1_r; exact Vv|].
  assert (C : v = 0 \/ v = 1 \/ v = -1 \/ 2 <= Z.abs v) by lia.
  destruct C as [->|[->|[->|C]]].
  - rewrite Z.pow_0_l by lia. unfold value_of in *. rewrite Z.pow_0_l in Vm by lia. exact Vm.
  - rewrite Z.pow_1_l by lia. exact V1.
  - destruct (Z.Even_or_Odd (Z.of_nat k)) as [Ev|Od].
    + replace ((-1) ^ Z.of_nat k) with 1; [exact V1|]. rewrite (Z.pow_opp_even 1) by exact Ev. rewrite Z.pow_1_l by lia. reflexivity.
    + replace ((-1) ^ Z.of_nat k) with (-1); [exact Vv|]. change (-1) with (- (1)). rewrite (Z.pow_opp_odd 1) by exact Od. rewrite Z.pow_1_l by lia. reflexivity.
  - assert (Ab : forall n, Z.abs (v ^ Z.of_nat n) = Z.abs v ^ Z.of_nat n) by (intros n; apply Z.abs_pow).
    assert (Le : 2 * Z.abs (v ^ Z.of_nat k) <= Z.abs (v ^ Z.of_nat m)).
    { rewrite !Ab. replace (Z.of_nat m) with (Z.of_nat k + Z.of_nat (m - k)) by lia. rewrite Z.pow_add_r by lia.
      assert (Z.abs v ^ 1 <= Z.abs v ^ Z.of_nat (m - k)) by (apply Z.pow_le_mono_r; lia). rewrite Z.pow_1_r in H0.
      assert (0 < Z.abs v ^ Z.of_nat k) by (apply Z.pow_pos_nonneg; lia). nia. }
    unfold value_of, low, high in *. destruct (signed t) eqn:Sg.
    + assert (0 < 2 ^ (bits t - 1)) by (apply Z.pow_pos_nonneg; unfold bits; destruct (wide t); lia). lia.
    + assert (0 <= v ^ Z.of_nat k) by (apply Z.pow_nonneg; lia). lia.
Qed.
Lemma value_one t : value_of t 1. Proof. destruct t as [[|] []]; unfold value_of, low, high, bits; cbn; lia. Qed.
Lemma promoted_value t v : value_of t v -> value_of (promoted t) v.
Proof. destruct t as [[|] []]; unfold value_of, low, high, bits, promoted; cbn; lia. Qed.
Lemma pow_int_ok t v : value_of t v -> forall fuel N, (N <= fuel)%nat -> value_of t (v ^ Z.of_nat (N / 2)) -> value_of (promoted t) (v ^ Z.of_nat N) ->
  pow_impl 1 (fun x => x) (int_conv t) (int_mul t) fuel N v = Ok (v ^ Z.of_nat N).
Proof.
  intros Vv. pose proof (value_one t) as V1. pose proof (promoted_value t v Vv) as Vp. pose proof (value_one (promoted t)) as P1.
  induction fuel as [|fuel IH]; intros N HN Hh HP.
  - replace N with 0%nat by lia. reflexivity.
  - destruct N as [|[|n]]; [reflexivity|cbn [Z.of_nat]; rewrite Z.pow_1_r; reflexivity|]. remember (S (S n)) as N eqn:EN.
    assert (E : pow_impl 1 (fun x => x) (int_conv t) (int_mul t) (S fuel) N v =
      let* p := pow_impl 1 (fun x => x) (int_conv t) (int_mul t) fuel (N / 2) v in
      let* s := int_mul t (int_conv t p) (int_conv t p) in
      let* b := pow_impl 1 (fun x => x) (int_conv t) (int_mul t) fuel (N mod 2) v in int_mul t s b) by (subst N; reflexivity).
    rewrite E. pose proof (Nat.div_mod N 2 ltac:(lia)) as D. pose proof (Nat.mod_upper_bound N 2 ltac:(lia)) as M.
    assert (H1 : (N / 2 < N)%nat) by (apply Nat.div_lt; lia).
    assert (H2 : (N / 2 / 2 <= N / 2)%nat) by (apply Nat.div_le_upper_bound; lia).
    rewrite IH; [|lia|apply (pow_range t v _ (N / 2)); assumption|apply promoted_value; exact Hh].
    cbn [bind]. rewrite conv_id by exact Hh.
    assert (E2 : v ^ Z.of_nat (N / 2) * v ^ Z.of_nat (N / 2) = v ^ Z.of_nat (2 * (N / 2))) by (rewrite <- Z.pow_add_r by lia; f_equal; lia).
    rewrite mul_ok; [|rewrite E2; apply (pow_range (promoted t) v _ N); try assumption; lia].
    cbn [bind]. assert (Eb : pow_impl 1 (fun x => x) (int_conv t) (int_mul t) fuel (N mod 2) v = Ok (v ^ Z.of_nat (N mod 2))).
    { destruct (N mod 2)%nat as [|[|]]; [destruct fuel; reflexivity|destruct fuel; cbn [pow_impl Z.of_nat]; rewrite Z.pow_1_r; reflexivity|lia]. }
    rewrite Eb. cbn [bind]. assert (E3 : v ^ Z.of_nat (N / 2) * v ^ Z.of_nat (N / 2) * v ^ Z.of_nat (N mod 2) = v ^ Z.of_nat N).
    { rewrite E2, <- Z.pow_add_r by lia. f_equal. lia. }
    rewrite <- E3. apply mul_ok. rewrite E3. exact HP.
Qed.
(** Unsigned types that are not promoted *)
Lemma pow_unsigned_ok t v : signed t = false -> promoted t = t -> value_of t v -> forall fuel N, (N <= fuel)%nat ->
  pow_impl 1 (fun x => x) (int_conv t) (int_mul t) fuel N v = Ok (v ^ Z.of_nat N mod 2 ^ bits t).
Proof.
  intros Sg Pt Vv. set (m := 2 ^ bits t). assert (Hm : 1 < m) by (subst m; unfold bits; destruct (wide t); reflexivity).
  assert (Mul : forall a b, int_mul t a b = Ok ((a * b) mod m)) by (intros a b; unfold int_mul; rewrite Pt, Sg; reflexivity).
  assert (Conv : forall a, int_conv t a = a mod m) by (intros a; unfold int_conv; rewrite Sg; reflexivity).
  assert (Hv : v mod m = v) by (apply Z.mod_small; unfold value_of, low, high in Vv; rewrite Sg in Vv; subst m; lia).
  induction fuel as [|fuel IH]; intros N HN.
  - replace N with 0%nat by lia. cbn. rewrite Z.mod_small by lia. reflexivity.
  - destruct N as [|[|n]].
    + cbn. rewrite Z.mod_small by lia. reflexivity.
    + cbn [Z.of_nat]. rewrite Z.pow_1_r, Hv. reflexivity.
    + remember (S (S n)) as N eqn:EN.
      assert (E : pow_impl 1 (fun x => x) (int_conv t) (int_mul t) (S fuel) N v =
        let* p := pow_impl 1 (fun x => x) (int_conv t) (int_mul t) fuel (N / 2) v in
        let* s := int_mul t (int_conv t p) (int_conv t p) in
        let* b := pow_impl 1 (fun x => x) (int_conv t) (int_mul t) fuel (N mod 2) v in int_mul t s b) by (subst N; reflexivity).
      rewrite E. pose proof (Nat.div_mod N 2 ltac:(lia)) as D. pose proof (Nat.mod_upper_bound N 2 ltac:(lia)) as M.
      assert (H1 : (N / 2 < N)%nat) by (apply Nat.div_lt; lia).
      rewrite IH by lia. cbn [bind]. rewrite Mul. cbn [bind]. rewrite IH by lia. cbn [bind]. rewrite Mul, Conv. f_equal.
      rewrite Z.mod_mod by lia. rewrite <- (Z.mul_mod (v ^ Z.of_nat (N / 2)) (v ^ Z.of_nat (N / 2))) by lia. rewrite <- Z.mul_mod by lia. f_equal. rewrite <- !Z.pow_add_r by lia. f_equal. lia.
Qed.

(** ** Orders *)
Section Order.
  Context {A : Type} (lt : A -> A -> bool) (O : total_order lt).
  Lemma lt_irr x : lt x x = false. Proof. apply O. Qed.
  Lemma lt_trans x y z : lt x y = true -> lt y z = true -> lt x z = true. Proof. apply O. Qed.
  Lemma lt_anti x y : lt x y = true -> lt y x = false.
  Proof. intros H. destruct (lt y x) eqn:E; [|reflexivity]. pose proof (lt_trans _ _ _ H E) as X. rewrite lt_irr in X. discriminate X. Qed.
  Lemma le_trans x y z : at_least lt y x -> at_least lt z y -> at_least lt z x.
  Proof.
    unfold at_least. intros H1 H2. destruct (lt z x) eqn:E; [|reflexivity]. destruct (lt x y) eqn:F.
    - rewrite (lt_trans _ _ _ E F) in H2. discriminate H2.
    - assert (x = y) by (apply O; assumption). subst y. congruence.
  Qed.
  Lemma max_ub x y : at_least lt (maximum lt x y) x /\ at_least lt (maximum lt x y) y /\ (maximum lt x y = x \/ maximum lt x y = y).
  Proof.
    unfold maximum, at_least. destruct (lt y x) eqn:E; [split; [apply lt_irr|]; split; [apply lt_anti; exact E|left; reflexivity]|].
    split; [exact E|]. split; [apply lt_irr|right; reflexivity].
  Qed.
  Lemma min_lb x y : at_least lt x (minimum lt x y) /\ at_least lt y (minimum lt x y) /\ (minimum lt x y = x \/ minimum lt x y = y).
  Proof.
    unfold minimum, at_least. destruct (lt x y) eqn:E; [split; [apply lt_irr|]; split; [apply lt_anti; exact E|left; reflexivity]|].
    split; [exact E|]. split; [apply lt_irr|right; reflexivity].
  Qed.
  Lemma flip_order : total_order (fun x y => lt y x).
  Proof. split; [apply lt_irr|]. split; [intros x y z H1 H2; exact (lt_trans _ _ _ H2 H1)|intros x y H1 H2; apply O; assumption]. Qed.
  Lemma min_max x y : minimum lt x y = maximum (fun a b => lt b a) x y. Proof. reflexivity. Qed.

  Lemma clamp_ok v lo hi : at_least lt hi lo ->
    at_least lt (clamp lt v lo hi) lo /\ at_least lt hi (clamp lt v lo hi) /\
    (at_least lt v lo -> at_least lt hi v -> clamp lt v lo hi = v) /\ (lt v lo = true -> clamp lt v lo hi = lo) /\ (lt hi v = true -> clamp lt v lo hi = hi).
  Proof.
    intros H. unfold clamp. unfold at_least in *. destruct (lt v lo) eqn:E1.
    - split; [apply lt_irr|]. split; [exact H|]. split; [discriminate|]. split; [reflexivity|]. intros E2. rewrite (lt_trans _ _ _ E2 E1) in H. discriminate H.
    - destruct (lt hi v) eqn:E2.
      + split; [exact H|]. split; [apply lt_irr|]. split; [discriminate|]. split; [discriminate|reflexivity].
      + split; [exact E1|]. split; [exact E2|]. split; [reflexivity|]. split; discriminate.
  Qed.

  (** The fold of maximum *)
  Lemma fold_max : forall l b, (forall x, In x l -> at_least lt (fold_left (maximum lt) l b) x) /\ at_least lt (fold_left (maximum lt) l b) b /\
    (fold_left (maximum lt) l b = b \/ In (fold_left (maximum lt) l b) l).
  Proof.
    induction l as [|x l IH]; intros b; cbn [fold_left].
    - split; [intros x []|]. split; [apply lt_irr|left; reflexivity].
    - destruct (IH (maximum lt b x)) as (H1 & H2 & H3). destruct (max_ub b x) as (M1 & M2 & M3). split; [|split].
      + intros y [<-|Hy]; [eapply le_trans; eassumption|apply H1; exact Hy].
      + eapply le_trans; eassumption.
      + destruct H3 as [H3|H3]; [|right; right; exact H3]. rewrite H3. destruct M3 as [->| ->]; [left; reflexivity|right; left; reflexivity].
  Qed.
  Lemma max_unique l b c : (forall x, In x l -> at_least lt c x) -> at_least lt c b -> (c = b \/ In c l) -> c = fold_left (maximum lt) l b.
  Proof.
    intros H1 H2 H3. destruct (fold_max l b) as (F1 & F2 & F3). set (m := fold_left _ _ _) in *. apply O.
    - destruct F3 as [->|F3]; [exact H2|apply H1; exact F3].
    - destruct H3 as [->|H3]; [exact F2|apply F1; exact H3].
  Qed.
  Lemma amax_law bottom : (forall x, at_least lt x bottom) -> merge_law (amax_f lt bottom).
  Proof.
    intros B a ys Hy. cbn [amax_f rf_merge rf_reduce rf_init]. apply max_unique.
    - intros x Hx. destruct (max_ub a (fold_left (maximum lt) ys bottom)) as (_ & M2 & _). eapply le_trans; [apply (proj1 (fold_max ys bottom)); exact Hx|exact M2].
    - apply max_ub.
    - destruct (max_ub a (fold_left (maximum lt) ys bottom)) as (M1 & M2 & [->| ->]); [left; reflexivity|]. destruct (proj2 (proj2 (fold_max ys bottom))) as [E|E]; [|right; exact E].
      destruct ys as [|y ys]; [contradiction|]. right. left. apply O; [|].
      + pose proof (proj1 (fold_max (y :: ys) bottom) y (or_introl eq_refl)) as Q. rewrite E. apply B.
      + exact (proj1 (fold_max (y :: ys) bottom) y (or_introl eq_refl)).
  Qed.
  Lemma extremum_fold bottom keep axes esh (ev : list Z -> A) ix : (forall x, at_least lt x bottom) ->
    extremum lt bottom keep axes esh ev ix (reduced (amax_f lt bottom) None row_major keep axes esh ev ix).
  Proof.
    intros B. unfold reduced. cbn [amax_f rf_reduce rf_init]. set (l := map ev _). destruct (fold_max l bottom) as (F1 & F2 & F3).
    assert (In_l : forall jx, In jx (block row_major keep axes esh ix) <-> in_bounds esh jx /\ red_index keep axes jx = ix).
    { intros jx. unfold block. rewrite filter_In. cbn [indices_of]. rewrite row_indices_in. destruct (list_eq_dec Z.eq_dec _ _); intuition congruence. }
    split.
    - intros jx Hj Er. apply F1. apply in_map. apply In_l. auto.
    - destruct l as [|y l'] eqn:El.
      + right. split; [|reflexivity]. intros jx Hj Er. assert (X : In (ev jx) l) by (apply in_map; apply In_l; auto). rewrite El in X. contradiction.
      + left. rewrite <- El in *. destruct F3 as [F3|F3].
        * assert (Ey : In y l) by (rewrite El; left; reflexivity). pose proof (F1 y Ey) as Q. rewrite F3 in Q.
          assert (y = bottom) by (apply O; [apply B|exact Q]). rewrite F3. subst y. apply in_map_iff in Ey. destruct Ey as (jx & E & Hj). exists jx. apply In_l in Hj. tauto.
        * apply in_map_iff in F3. destruct F3 as (jx & E & Hj). exists jx. apply In_l in Hj. tauto.
  Qed.
End Order.
