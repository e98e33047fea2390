From Coq Require Import List ZArith Bool Lia.
From Verif Require Import Prelude PreludeFacts Strides_Model Strides_Spec Strides_Proofs Access_Model Access_Spec Access_Proofs Slice_Model Stepper_Model Container_Model Container_Spec Reshape_Model Reshape_Proofs
  SView_Model SView_Spec Reduce_Model Accum2_Proofs Reduce9_Proofs Manip4_Proofs AxisIt_Model AxisIt_Spec AxisIt_Proofs AxisIt2_Proofs Fft_Model Fft_Spec Fft_Proofs.
Import ListNotations.
Open Scope Z_scope.

Lemma packed_elem l e ix : is_order l -> packed l e -> in_bounds (x_shape e) ix -> x_elem e ix = Slot (rank l (x_shape e) ix).
Proof.
  intros Hl (D & O & L & H & Hs) Hin. unfold x_elem. rewrite D, O, Z.add_0_l. f_equal.
  rewrite element_offset_same by (rewrite H; apply in_bounds_length; exact Hin).
  assert (Est : x_strides e = match l with row_major => row_strides (x_shape e) | _ => col_strides (x_shape e) end).
  { apply (nth_ext _ _ 0 0).
    - rewrite H. destruct l; auto using row_strides_length, col_strides_length; symmetry; auto using row_strides_length, col_strides_length.
    - intros k Hk. rewrite H in Hk. rewrite Hs by exact Hk. destruct Hl as [ -> | -> ]; symmetry; [apply row_strides_nth|apply col_strides_nth]; exact Hk. }
  rewrite Est. destruct Hl as [ -> | -> ]; cbn [rank]; [apply dot_row|apply dot_col]; exact Hin.
Qed.

Section Lanes.
Context {K : Type} (l : layout) (sh : list Z) (p : nat) (n : nat).
Hypothesis Hl : is_order l.
Hypothesis Hsh : is_shape sh.
Hypothesis En : nth_error sh p = Some (Z.of_nat n).

(** The buffer holds x *)
Definition repr (b : list K) (x : list Z -> K) : Prop :=
  Z.of_nat (length b) = prod sh /\ forall ix, in_bounds sh ix -> nth_error b (Z.to_nat (rank l sh ix)) = Some (x ix).

Lemma repr_ext b x y : repr b x -> (forall ix, in_bounds sh ix -> x ix = y ix) -> repr b y.
Proof. intros (H1 & H2) E. split; [exact H1|]. intros ix Hix. rewrite H2, E by exact Hix. reflexivity. Qed.

Lemma repr_upd b x ix0 v : repr b x -> in_bounds sh ix0 -> exists b', wrz b (rank l sh ix0) v = Ok b' /\
  forall y, (forall ix, in_bounds sh ix -> ix = ix0 -> y ix = v) -> (forall ix, in_bounds sh ix -> ix <> ix0 -> y ix = x ix) -> repr b' y.
Proof.
  intros (H1 & H2) H0. pose proof (rank_bound l sh ix0 Hl H0) as B. eexists. split; [apply wrz_ok; lia|]. intros y Y1 Y2. split; [rewrite upd_length; exact H1|].
  intros ix Hix. destruct (list_eq_dec Z.eq_dec ix ix0) as [E|E].
  - rewrite (Y1 ix Hix E). rewrite E. apply nth_error_upd_same. lia.
  - rewrite nth_error_upd_other; [rewrite H2 by exact Hix; rewrite Y2 by assumption; reflexivity|].
    intros Er. apply E. apply (rank_inj l sh); try assumption. pose proof (rank_bound l sh ix Hl Hix). lia.
Qed.

Lemma insert_bounds rest j : in_bounds (without p sh) rest -> 0 <= j < Z.of_nat n -> in_bounds sh (insert_at p j rest).
Proof.
  intros Hr Hj. destruct (split_axis _ _ _ En) as (a & q & E & Lp). rewrite E in Hr |- *.
  rewrite <- Lp, without_mid in Hr. apply in_bounds_split in Hr. destruct Hr as (rp & rq & -> & Hp & Hq).
  pose proof (in_bounds_length _ _ Hp) as L1. rewrite <- Lp, <- L1, insert_mid.
  apply in_bounds_app; [exact Hp|]. constructor; [lia|exact Hq].
Qed.
Lemma without_bounds ix : in_bounds sh ix -> in_bounds (without p sh) (without p ix) /\ 0 <= nth p ix 0 < Z.of_nat n /\ ix = insert_at p (nth p ix 0) (without p ix).
Proof.
  intros Hix. destruct (split_axis _ _ _ En) as (a & q & E & Lp). rewrite E in Hix |- *. apply in_bounds_split in Hix. destruct Hix as (ia & iq & -> & Ha & Hq).
  inversion Hq as [|d i s r Hi Hr]; subst. pose proof (in_bounds_length _ _ Ha) as L1. rewrite without_mid, <- L1, without_mid, insert_mid.
  rewrite app_nth2, Nat.sub_diag by lia. cbn [nth]. split; [apply in_bounds_app; assumption|]. split; [exact Hi|reflexivity].
Qed.
Lemma without_insert rest j : in_bounds (without p sh) rest -> without p (insert_at p j rest) = rest /\ nth p (insert_at p j rest) 0 = j.
Proof.
  intros Hr. destruct (split_axis _ _ _ En) as (a & q & E & Lp). rewrite E in Hr. rewrite <- Lp, without_mid in Hr. apply in_bounds_split in Hr.
  destruct Hr as (rp & rq & -> & Hp & Hq). pose proof (in_bounds_length _ _ Hp) as L1. rewrite <- Lp, <- L1, insert_mid, without_mid.
  split; [reflexivity|]. rewrite app_nth2, Nat.sub_diag by lia. reflexivity.
Qed.

(** A view of a line *)
Definition lane (w : sview) (rest : list Z) : Prop :=
  forall j, 0 <= j < Z.of_nat n -> w_element w [j] = Ok (Slot (rank l sh (insert_at p j rest))).

Lemma read_lane w rest b x : lane w rest -> in_bounds (without p sh) rest -> repr b x ->
  read_slice w n b = Ok (list_of n (fun j => x (insert_at p (Z.of_nat j) rest))).
Proof.
  intros Hw Hr (H1 & H2). unfold read_slice, list_of. apply seqM_map. intros j Hj. apply in_seq in Hj. rewrite Hw by lia. cbn [bind].
  pose proof (insert_bounds rest (Z.of_nat j) Hr ltac:(lia)) as Hb. pose proof (rank_bound l sh _ Hl Hb).
  apply rdz_ok; [lia|]. apply H2. exact Hb.
Qed.

Lemma write_lane w rest b x y : lane w rest -> in_bounds (without p sh) rest -> repr b x ->
  exists b', write_slice w (list_of n y) b = Ok b' /\
    forall z, (forall ix, in_bounds sh ix -> without p ix = rest -> z ix = y (Z.to_nat (nth p ix 0))) -> (forall ix, in_bounds sh ix -> without p ix <> rest -> z ix = x ix) -> repr b' z.
Proof.
  intros Hw Hr Hb. unfold write_slice.
  assert (G : forall m, (m <= n)%nat -> exists b', for_each (fun v '(j, buf) =>
    let* c := w_element w [j] in
    match c with Slot p => let* b := wrz buf p v in Ok (j + 1, b) | Elem _ => UB end) (list_of m y) (0, b) = Ok (Z.of_nat m, b') /\
     forall z, (forall ix, in_bounds sh ix -> without p ix = rest -> nth p ix 0 < Z.of_nat m -> z ix = y (Z.to_nat (nth p ix 0))) ->
       (forall ix, in_bounds sh ix -> without p ix <> rest \/ Z.of_nat m <= nth p ix 0 -> z ix = x ix) -> repr b' z).
  { induction m as [|m IH]; intros Hm.
    - exists b. split; [reflexivity|]. intros z _ Z2. apply (repr_ext b x z Hb). intros ix Hix. symmetry. apply Z2; [exact Hix|]. right. destruct (without_bounds ix Hix) as (_ & B & _). lia.
    - destruct IH as (b1 & E1 & R1); [lia|]. replace (S m) with (m + 1)%nat by lia. rewrite list_of_app.
      assert (F : forall A S (body : A -> S -> res S) l1 l2 s, for_each body (l1 ++ l2) s = (let* s := for_each body l1 s in for_each body l2 s)).
      { clear. intros A S body l1 l2. induction l1 as [|a l1 IH]; intros s; cbn [for_each app bind]; [reflexivity|]. destruct (body a s) as [s'|x|]; cbn; [apply IH|reflexivity|reflexivity]. }
      rewrite F, E1. cbn [bind list_of map seq for_each]. rewrite Hw by lia. cbn [bind]. rewrite Nat.add_0_r.
      pose proof (insert_bounds rest (Z.of_nat m) Hr ltac:(lia)) as Hib.
      set (x1 := fun ix => if list_eq_dec Z.eq_dec (without p ix) rest then if nth p ix 0 <? Z.of_nat m then y (Z.to_nat (nth p ix 0)) else x ix else x ix).
      assert (Rx1 : repr b1 x1).
      { apply R1; intros ix Hix H; unfold x1.
        - intros H'. destruct (list_eq_dec Z.eq_dec (without p ix) rest); [|contradiction]. destruct (Z.ltb_spec (nth p ix 0) (Z.of_nat m)); [reflexivity|lia].
        - destruct (list_eq_dec Z.eq_dec (without p ix) rest); [|reflexivity]. destruct H as [H|H]; [contradiction|]. destruct (Z.ltb_spec (nth p ix 0) (Z.of_nat m)); [lia|reflexivity]. }
      destruct (repr_upd b1 x1 _ (y m) Rx1 Hib) as (b2 & E2 & R2). rewrite E2. cbn [bind]. exists b2. split; [do 2 f_equal; lia|].
      intros z Z1 Z2. apply R2; intros ix Hix Hc.
      + subst ix. destruct (without_insert rest (Z.of_nat m) Hr) as (W1 & W2). rewrite Z1; [rewrite W2, Nat2Z.id; reflexivity|exact Hix|exact W1|rewrite W2; lia].
      + unfold x1. destruct (list_eq_dec Z.eq_dec (without p ix) rest) as [Hwr|Hwr].
        * destruct (Z.ltb_spec (nth p ix 0) (Z.of_nat m)); [apply Z1; [exact Hix|exact Hwr|lia]|].
          destruct (without_bounds ix Hix) as (_ & B & Ei). apply Z2; [exact Hix|]. right.
          destruct (Z.eq_dec (nth p ix 0) (Z.of_nat m)) as [Em|]; [|lia]. exfalso. apply Hc. rewrite Ei, Hwr, Em. reflexivity.
        * apply Z2; [exact Hix|]. left. exact Hwr. }
  destruct (G n (Nat.le_refl n)) as (b' & E & R). rewrite E. cbn [bind]. exists b'. split; [reflexivity|].
  intros z Z1 Z2. apply R.
  - intros ix Hix Hwr _. apply Z1; assumption.
  - intros ix Hix [H|H]; [apply Z2; assumption|]. destruct (without_bounds ix Hix) as (_ & B & _). lia.
Qed.
End Lanes.

(** The loop over the slices *)
Lemma slices_loop_ok {K} (b en : slice_it) (N : nat) (I : nat -> list K -> Prop) (f : sview -> list K -> res (list K)) :
  (forall k, exists it, slice_nexts k b = Ok it /\ (slice_equal it en = true <-> k = N)) ->
  (forall k it buf, (k < N)%nat -> slice_nexts k b = Ok it -> I k buf -> exists buf', f (slice_deref it) buf = Ok buf' /\ I (S k) buf') ->
  forall fuel buf, (N <= fuel)%nat -> I 0%nat buf -> exists buf', slices_loop fuel b en f buf = Ok buf' /\ I N buf'.
Proof.
  intros Hit Hstep.
  assert (G : forall m k it fuel buf, (k + m = N)%nat -> (m <= fuel)%nat -> slice_nexts k b = Ok it -> I k buf -> exists buf', slices_loop fuel it en f buf = Ok buf' /\ I N buf').
  { induction m as [|m IH]; intros k it fuel buf Hk Hf Ei HI; destruct (Hit k) as (it' & Ei' & Eq); rewrite Ei in Ei'; injection Ei' as <-.
    - assert (k = N) by lia. subst k. exists buf. destruct fuel; cbn [slices_loop]; rewrite (proj2 Eq eq_refl); split; [reflexivity|exact HI|reflexivity|exact HI].
    - destruct fuel as [|fuel]; [lia|]. cbn [slices_loop]. assert (Es : slice_equal it en = false) by (destruct (slice_equal it en); [pose proof (proj1 Eq eq_refl); lia|reflexivity]). rewrite Es.
      destruct (Hstep k it buf ltac:(lia) Ei HI) as (buf' & Ef & HI'). rewrite Ef. cbn [bind].
      destruct (Hit (k + 1)%nat) as (it2 & E2 & _). pose proof E2 as E2'. rewrite slice_nexts_app, Ei in E2. cbn [bind slice_nexts] in E2.
      destruct (slice_next it) as [it3| |] eqn:E3; try discriminate. cbn [bind] in E2. injection E2 as ->. cbn [bind].
      apply (IH (k + 1)%nat); [lia|lia|exact E2'|]. replace (k + 1)%nat with (S k) by lia. exact HI'. }
  intros fuel buf Hf HI. apply (G N 0%nat b fuel buf); [lia|exact Hf|reflexivity|exact HI].
Qed.
