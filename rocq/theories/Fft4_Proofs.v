From Coq Require Import List ZArith Bool Lia Ring Ring_theory.
From Verif Require Import Prelude PreludeFacts Strides_Model Strides_Spec Strides_Proofs Access_Model Slice_Model Stepper_Model Container_Model Container_Spec Reshape_Model Reshape_Proofs
  SView_Model SView_Spec Reduce_Model AxisIt_Model AxisIt_Spec AxisIt_Proofs AxisIt2_Proofs Fft_Model Fft_Spec Fft_Proofs Fft2_Proofs Fft3_Proofs.
Import ListNotations.
Open Scope Z_scope.

Lemma axis_pos dim axis p : Z.of_nat dim < 2 ^ 64 -> axis_names dim axis p -> normalize_axis dim axis = Z.of_nat p.
Proof.
  intros Hd (Hp & [ -> | -> ]); unfold normalize_axis.
  - destruct (Z.of_nat p <? 0) eqn:E; [apply Z.ltb_lt in E; lia|reflexivity].
  - replace (_ <? 0) with true by (symmetry; apply Z.ltb_lt; lia). unfold to_size_t. rewrite Z.mod_small; lia.
Qed.

Lemma prod_positive s : Forall (fun d => 0 < d) s -> 0 < prod s.
Proof. induction 1 as [|d s Hd _ IH]; [reflexivity|]. rewrite prod_cons. nia. Qed.

(** Two iterators *)
Lemma slices_loop2_ok {K} (b by_ en : slice_it) (N : nat) (I : nat -> list K -> Prop) (f : sview -> sview -> list K -> res (list K)) :
  (forall k, exists it, slice_nexts k b = Ok it /\ (slice_equal it en = true <-> k = N)) ->
  (forall k, exists it, slice_nexts k by_ = Ok it) ->
  (forall k it ity buf, (k < N)%nat -> slice_nexts k b = Ok it -> slice_nexts k by_ = Ok ity -> I k buf -> exists buf', f (slice_deref it) (slice_deref ity) buf = Ok buf' /\ I (S k) buf') ->
  forall fuel buf, (N <= fuel)%nat -> I 0%nat buf -> exists buf', slices_loop2 fuel b by_ en f buf = Ok buf' /\ I N buf'.
Proof.
  intros Hit Hity Hstep.
  assert (G : forall m k it ity fuel buf, (k + m = N)%nat -> (m <= fuel)%nat -> slice_nexts k b = Ok it -> slice_nexts k by_ = Ok ity -> I k buf -> exists buf', slices_loop2 fuel it ity en f buf = Ok buf' /\ I N buf').
  { induction m as [|m IH]; intros k it ity fuel buf Hk Hf Ei Ey HI; destruct (Hit k) as (it' & Ei' & Eq); rewrite Ei in Ei'; injection Ei' as <-.
    - assert (k = N) by lia. subst k. exists buf. destruct fuel; cbn [slices_loop2]; rewrite (proj2 Eq eq_refl); split; [reflexivity|exact HI|reflexivity|exact HI].
    - destruct fuel as [|fuel]; [lia|]. cbn [slices_loop2]. assert (Es : slice_equal it en = false) by (destruct (slice_equal it en); [pose proof (proj1 Eq eq_refl); lia|reflexivity]). rewrite Es.
      destruct (Hity (k + 1)%nat) as (iy2 & Y2). pose proof Y2 as Y2'. rewrite slice_nexts_app, Ey in Y2. cbn [bind slice_nexts] in Y2.
      destruct (slice_next ity) as [iy3| |] eqn:Y3; try discriminate. cbn [bind] in Y2. injection Y2 as ->. cbn [bind].
      destruct (Hstep k it ity buf ltac:(lia) Ei Ey HI) as (buf' & Ef & HI'). rewrite Ef. cbn [bind].
      destruct (Hit (k + 1)%nat) as (it2 & E2 & _). pose proof E2 as E2'. rewrite slice_nexts_app, Ei in E2. cbn [bind slice_nexts] in E2.
      destruct (slice_next it) as [it3| |] eqn:E3; try discriminate. cbn [bind] in E2. injection E2 as ->. cbn [bind].
      apply (IH (k + 1)%nat); [lia|lia|exact E2'|exact Y2'|]. replace (k + 1)%nat with (S k) by lia. exact HI'. }
  intros fuel buf Hf HI. apply (G N 0%nat b by_ fuel buf); [lia|exact Hf|reflexivity|reflexivity|exact HI].
Qed.

Section Arrays.
Context {K : Type} (l : layout) (sh : list Z) (p : nat) (n : nat).
Hypothesis Hl : is_order l.
Hypothesis Pos : Forall (fun d => 0 < d) sh.
Hypothesis Sz : prod sh < 2 ^ 62.
Hypothesis En : nth_error sh p = Some (Z.of_nat n).
Hypothesis Ok_ : slices_ok l sh p.

Lemma sz64 : prod sh < 2 ^ 64.
Proof. pose proof Sz. change (2 ^ 62) with 4611686018427387904 in *. change (2 ^ 64) with 18446744073709551616. lia. Qed.
Lemma shape_ok : is_shape sh.
Proof. revert Pos. apply Forall_impl. lia. Qed.
Lemma n_positive : (0 < n)%nat.
Proof. apply nth_error_In in En. rewrite Forall_forall in Pos. apply Pos in En. lia. Qed.
Lemma prod_pos : 0 < prod sh.
Proof. apply prod_positive. exact Pos. Qed.
Lemma others_shape : is_shape (without p sh).
Proof. pose proof shape_ok as H. unfold without, is_shape in *. rewrite Forall_forall in *. intros d Hd. apply H. apply in_app_or in Hd. destruct Hd as [Hd|Hd]; [rewrite <- (firstn_skipn p sh)|rewrite <- (firstn_skipn (S p) sh)]; apply in_or_app; auto. Qed.
Lemma n_bound : Z.of_nat n < 2 ^ 62 /\ prod (without p sh) <= prod sh.
Proof.
  pose proof Sz as Hs. assert (E : prod sh = Z.of_nat n * prod (without p sh)).
  { destruct (split_axis _ _ _ En) as (a & q & E & Lp). rewrite E, <- Lp, without_mid, !prod_app, prod_cons. ring. }
  pose proof n_positive. assert (0 < prod (without p sh)).
  { assert (H' : Forall (fun d => 0 < d) (without p sh)).
    { unfold without. rewrite Forall_forall in *. intros d Hd. apply Pos. apply in_app_or in Hd. destruct Hd as [Hd|Hd]; [rewrite <- (firstn_skipn p sh)|rewrite <- (firstn_skipn (S p) sh)]; apply in_or_app; auto. }
    apply prod_positive. exact H'. }
  nia.
Qed.

Lemma array_repr (c : cont K) x : array_of l c sh x <-> packed l (of_cont c) /\ ct_shape c = sh /\ repr l sh (ct_data c) x.
Proof.
  unfold array_of, repr. split.
  - intros (P1 & P2 & P3 & P4). split; [exact P1|]. split; [exact P2|]. split; [exact P3|]. intros ix Hix. specialize (P4 ix Hix).
    pose proof (packed_elem l (of_cont c) ix Hl P1 ltac:(cbn; rewrite P2; exact Hix)) as E. cbn in E. rewrite P2 in E. unfold x_elem in E. cbn in E. injection E as E. rewrite Z.add_0_l in E.
    unfold elt in P4. rewrite E in P4. unfold rdz in P4. destruct (rank l sh ix <? 0) eqn:Eneg; [discriminate|]. unfold rd in P4. destruct (nth_error (ct_data c) _) eqn:En'; [|discriminate]. congruence.
  - intros (P1 & P2 & P3 & P4). split; [exact P1|]. split; [exact P2|]. split; [exact P3|]. intros ix Hix. specialize (P4 ix Hix).
    pose proof (packed_elem l (of_cont c) ix Hl P1 ltac:(cbn; rewrite P2; exact Hix)) as E. cbn in E. rewrite P2 in E. unfold x_elem in E. cbn in E. injection E as E. rewrite Z.add_0_l in E.
    unfold elt. rewrite E. pose proof (rank_bound l sh ix Hl Hix). apply rdz_ok; [lia|exact P4].
Qed.
Lemma repr_array (c : cont K) (b : list K) x : packed l (of_cont c) -> ct_shape c = sh -> repr l sh b x -> array_of l (mk_cont sh (ct_strides c) (ct_back c) (ct_layout c) b) sh x.
Proof. intros Pc Es Hb. apply array_repr. split; [|split; [reflexivity|exact Hb]]. unfold packed, of_cont in *. cbn in *. rewrite Es in Pc. exact Pc. Qed.

(** The slices of an array are its lines *)
Lemma slices_facts (c : cont K) : packed l (of_cont c) -> ct_shape c = sh ->
  exists b en, slice_begin false (of_cont c) p = Ok b /\ slice_end false (of_cont c) p = Ok en /\
    (forall k, exists it, slice_nexts k b = Ok it /\ (slice_equal it en = true <-> k = Z.to_nat (prod (without p sh)))) /\
    forall k it, (k < Z.to_nat (prod (without p sh)))%nat -> slice_nexts k b = Ok it ->
      exists rest, in_bounds (without p sh) rest /\ rank l (without p sh) rest = Z.of_nat k /\ lane l sh p n (slice_deref it) rest.
Proof.
  intros Pc Es. pose proof sz64 as S64.
  assert (P0 : Forall (fun d => 0 < d) (x_shape (of_cont c))) by (cbn; rewrite Es; exact Pos).
  assert (S0 : prod (x_shape (of_cont c)) < 2 ^ 64) by (cbn [of_cont x_shape]; rewrite Es; exact S64).
  assert (E0 : nth_error (x_shape (of_cont c)) p = Some (Z.of_nat n)) by (cbn; rewrite Es; exact En).
  destruct (slice_end_lemma l (of_cont c) p (Z.of_nat n) Hl Pc P0 S0 E0) as (b & en & Hb & He & Heq).
  exists b, en. split; [exact Hb|]. split; [exact He|]. unfold others in Heq. cbn [of_cont x_shape] in Heq. rewrite Es in Heq.
  pose proof (prod_nonneg _ others_shape) as Hnn. split.
  - intros k. destruct (Heq k) as (it & H1 & H2). exists it. split; [exact H1|]. rewrite H2. split; intros H; lia.
  - intros k it Hk Ek. destruct (rank_onto l (without p sh) (Z.of_nat k) Hl others_shape ltac:(lia)) as (rest & Hr & Er).
    exists rest. split; [exact Hr|]. split; [exact Er|].
    destruct (slices_lemma l (of_cont c) p (Z.of_nat n) Hl Pc P0 S0 E0 rest) as (b' & it' & Hb' & Hi & _ & Hrd); [cbn; rewrite Es; exact Ok_|unfold others; cbn; rewrite Es; exact Hr|].
    rewrite Hb in Hb'. injection Hb' as <-. unfold others in Hi. cbn [of_cont x_shape] in Hi. rewrite Es, Er, Nat2Z.id, Ek in Hi. injection Hi as <-.
    intros j Hj. destruct (Hrd j Hj) as (_ & H & _). rewrite H. f_equal.
    rewrite (packed_elem l (of_cont c) _ Hl Pc).
    + cbn [of_cont x_shape]. rewrite Es. reflexivity.
    + cbn [of_cont x_shape]. rewrite Es. apply (insert_bounds sh p n En rest j Hr Hj).
Qed.

(** The state of the loop after k lines *)
Definition done (g : list Z -> nat -> K) (x : list Z -> K) (k : nat) (ix : list Z) : K :=
  if rank l (without p sh) (without p ix) <? Z.of_nat k then g (without p ix) (Z.to_nat (nth p ix 0)) else x ix.

Lemma done_step (g : list Z -> nat -> K) (x : list Z -> K) k rest w b : (k < Z.to_nat (prod (without p sh)))%nat -> in_bounds (without p sh) rest -> rank l (without p sh) rest = Z.of_nat k -> lane l sh p n w rest ->
  repr l sh b (done g x k) ->
  read_slice w n b = Ok (list_of n (fun j => x (insert_at p (Z.of_nat j) rest))) /\
  exists b', write_slice w (list_of n (g rest)) b = Ok b' /\ repr l sh b' (done g x (S k)).
Proof.
  intros Hk Hr Er Hw Hb. split.
  - rewrite (read_lane l sh p n Hl En w rest b _ Hw Hr Hb). f_equal. apply list_of_ext. intros j Hj. unfold done.
    destruct (without_insert sh p n En rest (Z.of_nat j) Hr) as (W1 & _). rewrite W1, Er. rewrite Z.ltb_irrefl. reflexivity.
  - destruct (write_lane l sh p n Hl shape_ok En w rest b _ (g rest) Hw Hr Hb) as (b' & E & R). exists b'. split; [exact E|]. apply R; intros ix Hix Hc; unfold done.
    + rewrite Hc, Er. destruct (Z.ltb_spec (Z.of_nat k) (Z.of_nat (S k))); [reflexivity|lia].
    + destruct (without_bounds sh p n shape_ok En ix Hix) as (Hw' & _ & _).
      destruct (Z.ltb_spec (rank l (without p sh) (without p ix)) (Z.of_nat (S k))) as [H1|H1]; destruct (Z.ltb_spec (rank l (without p sh) (without p ix)) (Z.of_nat k)) as [H2|H2]; try reflexivity; try lia.
      exfalso. apply Hc. apply (rank_inj l (without p sh)); try assumption. lia.
Qed.
Lemma done_start (g : list Z -> nat -> K) (x : list Z -> K) b : repr l sh b x -> repr l sh b (done g x 0).
Proof.
  intros Hb. apply (repr_ext l sh b x); [exact Hb|]. intros ix Hix. unfold done. destruct (without_bounds sh p n shape_ok En ix Hix) as (Hw & _).
  pose proof (rank_bound l _ _ Hl Hw). destruct (Z.ltb_spec (rank l (without p sh) (without p ix)) (Z.of_nat 0)); [lia|reflexivity].
Qed.
Lemma done_end (g : list Z -> nat -> K) (x : list Z -> K) b : repr l sh b (done g x (Z.to_nat (prod (without p sh)))) -> repr l sh b (fun ix => g (without p ix) (Z.to_nat (nth p ix 0))).
Proof.
  intros Hb. apply (repr_ext l sh b _ _ Hb). intros ix Hix. unfold done. destruct (without_bounds sh p n shape_ok En ix Hix) as (Hw & _).
  pose proof (rank_bound l _ _ Hl Hw). destruct (Z.ltb_spec (rank l (without p sh) (without p ix)) (Z.of_nat (Z.to_nat (prod (without p sh))))); [reflexivity|lia].
Qed.

Lemma map_array (c : cont K) x f : array_of l c sh x -> array_of l (map_cont f c) sh (fun ix => f (x ix)).
Proof.
  intros H. apply array_repr in H. destruct H as (P1 & P2 & P3 & P4). apply array_repr. split; [exact P1|]. split; [exact P2|]. cbn [map_cont ct_data]. split; [rewrite map_length; exact P3|].
  intros ix Hix. apply map_nth_error. apply P4. exact Hix.
Qed.
Lemma array_ext (c : cont K) x y : array_of l c sh x -> (forall ix, in_bounds sh ix -> x ix = y ix) -> array_of l c sh y.
Proof. intros (P1 & P2 & P3 & P4) E. split; [exact P1|]. split; [exact P2|]. split; [exact P3|]. intros ix Hix. rewrite P4, E by exact Hix. reflexivity. Qed.

Context (A : arith K) (one : K) (opp : K -> K) (L : complex_laws A one opp).
Local Notation "x *k y" := (mul A x y) (at level 40, left associativity).
Add Ring Kring4 : (cl_ring _ _ _ L).

Lemma fft_array (c : cont K) x axis : Z.of_nat (length sh) < 2 ^ 64 -> axis_names (length sh) axis p -> array_of l c sh x ->
  exists c', fft A c axis = Ok c' /\ array_of l c' sh (fun ix => dft A n (line p x ix) (Z.to_nat (nth p ix 0))).
Proof.
  intros Hd Hax Hc. apply array_repr in Hc. destruct Hc as (Pc & Es & Hb). unfold fft. rewrite Es, (axis_pos _ _ _ Hd Hax).
  rewrite (rdz_ok sh (Z.of_nat p) (Z.of_nat n)) by (first [lia|rewrite Nat2Z.id; exact En]). cbn [bind]. rewrite !Nat2Z.id.
  destruct (slices_facts c Pc Es) as (b & en & E1 & E2 & Hit & Hln). rewrite E1, E2. cbn [bind].
  set (g := fun rest => dft A n (fun j => x (insert_at p (Z.of_nat j) rest))).
  pose proof n_bound as (Nb1 & Nb2). pose proof n_positive as Np.
  destruct (slices_loop_ok b en (Z.to_nat (prod (without p sh))) (fun k buf => repr l sh buf (done g x k))
    (fun w buf => let* x := read_slice w n buf in let* y := transform A x in write_slice w y buf) Hit) with (fuel := Z.to_nat (compute_size sh)) (buf := ct_data c) as (buf' & E & R).
  - intros k it buf Hk Ek HI. destruct (Hln k it Hk Ek) as (rest & Hr & Er & Hw).
    destruct (done_step g x k rest _ buf Hk Hr Er Hw HI) as (R1 & b' & W1 & W2). rewrite R1. cbn [bind]. rewrite (transform_ok A one opp L n _ Np Nb1). cbn [bind].
    exists b'. split; [exact W1|exact W2].
  - rewrite compute_size_prod. lia.
  - apply done_start. exact Hb.
  - rewrite E. cbn [bind]. eexists. split; [reflexivity|]. apply repr_array; [exact Pc|exact Es|]. apply done_end in R. exact R.
Qed.

Lemma ifft_array (c : cont K) x : Z.of_nat (length sh) < 2 ^ 64 -> array_of l c sh x ->
  exists c', ifft A c (Z.of_nat p) = Ok c' /\ array_of l c' sh (fun ix => conj A (dft A n (fun j => conj A (line p x ix j)) (Z.to_nat (nth p ix 0)))).
Proof.
  intros Hd Hc. assert (Hp : (p < length sh)%nat) by (apply nth_error_Some; rewrite En; discriminate).
  unfold ifft. destruct Hc as (P1 & P2 & P3 & P4). rewrite P2. rewrite AxisIt_Proofs.to_size_t_small by lia.
  rewrite (rdz_ok sh (Z.of_nat p) (Z.of_nat n)) by (first [lia|rewrite Nat2Z.id; exact En]). cbn [bind]. pose proof n_positive. destruct (Z.eqb_spec (Z.of_nat n) 0); [lia|].
  pose proof (map_array c x (conj A) (Logic.conj P1 (Logic.conj P2 (Logic.conj P3 P4)))) as Hm.
  destruct (fft_array _ _ (Z.of_nat p) Hd (Logic.conj Hp (or_introl eq_refl)) Hm) as (c' & E & Hc'). rewrite E. cbn [bind]. eexists. split; [reflexivity|].
  apply map_array with (f := conj A) in Hc'. exact Hc'.
Qed.

Lemma line_of (x : list Z -> K) ix : in_bounds sh ix -> line p x ix (Z.to_nat (nth p ix 0)) = x ix /\ (Z.to_nat (nth p ix 0%Z) < n)%nat.
Proof. intros Hix. destruct (without_bounds sh p n shape_ok En ix Hix) as (Hw & B & E). unfold line. rewrite Z2Nat.id by lia. rewrite <- E. split; [reflexivity|lia]. Qed.
(** A line of an array of which the elements are given line by line *)
Lemma line_line (g : (nat -> K) -> nat -> K) (x : list Z -> K) ix j : in_bounds sh ix -> (j < n)%nat ->
  line p (fun ix' => g (line p x ix') (Z.to_nat (nth p ix' 0))) ix j = g (line p x ix) j.
Proof.
  intros Hix Hj. destruct (without_bounds sh p n shape_ok En ix Hix) as (Hw & B & E). unfold line at 1. destruct (without_insert sh p n En (without p ix) (Z.of_nat j) Hw) as (W1 & W2).
  rewrite W2, Nat2Z.id. f_equal. unfold line. rewrite W1. reflexivity.
Qed.

Lemma ifft_fft (c : cont K) x : Z.of_nat (length sh) < 2 ^ 64 -> array_of l c sh x ->
  exists c' c'', fft A c (Z.of_nat p) = Ok c' /\ ifft A c' (Z.of_nat p) = Ok c'' /\ array_of l c'' sh (fun ix => numeral A one n *k x ix).
Proof.
  intros Hd Hc. assert (Hp : (p < length sh)%nat) by (apply nth_error_Some; rewrite En; discriminate).
  destruct (fft_array c x (Z.of_nat p) Hd (Logic.conj Hp (or_introl eq_refl)) Hc) as (c' & E1 & H1).
  destruct (ifft_array c' _ Hd H1) as (c'' & E2 & H2). exists c', c''. split; [exact E1|]. split; [exact E2|].
  apply (array_ext _ _ _ H2). intros ix Hix. destruct (line_of x ix Hix) as (Lx & Lk).
  rewrite <- Lx, <- (back_forth A one opp L n (line p x ix) _ Lk). f_equal. apply dft_ext. intros j Hj. f_equal. apply (line_line (dft A n)); assumption.
Qed.

Lemma fft_ifft (c : cont K) x : Z.of_nat (length sh) < 2 ^ 64 -> array_of l c sh x ->
  exists c' c'', ifft A c (Z.of_nat p) = Ok c' /\ fft A c' (Z.of_nat p) = Ok c'' /\ array_of l c'' sh (fun ix => numeral A one n *k x ix).
Proof.
  intros Hd Hc. assert (Hp : (p < length sh)%nat) by (apply nth_error_Some; rewrite En; discriminate).
  destruct (ifft_array c _ Hd Hc) as (c' & E1 & H1).
  destruct (fft_array c' _ (Z.of_nat p) Hd (Logic.conj Hp (or_introl eq_refl)) H1) as (c'' & E2 & H2). exists c', c''. split; [exact E1|]. split; [exact E2|].
  apply (array_ext _ _ _ H2). intros ix Hix. destruct (line_of x ix Hix) as (Lx & Lk).
  rewrite <- Lx, <- (forth_back A one opp L n (line p x ix) _ Lk). apply dft_ext. intros j Hj.
  apply (line_line (fun y k => conj A (dft A n (fun i => conj A (y i)) k))); assumption.
Qed.

Lemma convolve_product (cx cy : cont K) x y axis : Z.of_nat (length sh) < 2 ^ 64 -> axis_names (length sh) axis p -> array_of l cx sh x -> array_of l cy sh y ->
  exists c', fft_convolve A cx cy axis = (let* out := ifft A c' axis in Ok (map_cont (fun z => over A z (Z.of_nat n)) out)) /\
    array_of l c' sh (fun ix => dft A n (line p y ix) (Z.to_nat (nth p ix 0)) *k dft A n (line p x ix) (Z.to_nat (nth p ix 0))).
Proof.
  intros Hd Hax Hx Hy. assert (Hp : (p < length sh)%nat) by (apply nth_error_Some; rewrite En; discriminate).
  unfold fft_convolve. pose proof Hx as (_ & Ex & _). pose proof Hy as (_ & Ey & _). rewrite Ex, Ey, Z.eqb_refl. cbn [negb].
  rewrite (axis_pos _ _ _ Hd Hax). rewrite (rdz_ok sh (Z.of_nat p) (Z.of_nat n)) by (first [lia|rewrite Nat2Z.id; exact En]). cbn [bind]. rewrite Z.eqb_refl. cbn [negb].
  destruct (fft_array cx x _ Hd Hax Hx) as (xv & Exv & Hxv). destruct (fft_array cy y _ Hd Hax Hy) as (yv & Eyv & Hyv). rewrite Exv, Eyv. cbn [bind].
  apply array_repr in Hxv. destruct Hxv as (Px & Esx & Hbx). apply array_repr in Hyv. destruct Hyv as (Py & Esy & Hby). rewrite !Nat2Z.id.
  destruct (slices_facts xv Px Esx) as (bx & ex & E1 & E2 & Hit & Hln). destruct (slices_facts yv Py Esy) as (by_ & ey & E3 & E4 & Hity & Hlny). rewrite E1, E2, E3. cbn [bind].
  set (X := fun ix => dft A n (line p x ix) (Z.to_nat (nth p ix 0))) in *. set (Y := fun ix => dft A n (line p y ix) (Z.to_nat (nth p ix 0))) in *.
  set (g := fun rest j => Y (insert_at p (Z.of_nat j) rest) *k X (insert_at p (Z.of_nat j) rest)).
  pose proof n_bound as (Nb1 & Nb2).
  destruct (slices_loop2_ok bx by_ ex (Z.to_nat (prod (without p sh))) (fun k buf => repr l sh buf (done g X k))
    (fun w wy buf => let* a := read_slice wy n (ct_data yv) in let* b := read_slice w n buf in let* q := zip_with (fun _ a b => mul A a b) a b n in write_slice w q buf) Hit) with (fuel := Z.to_nat (compute_size sh)) (buf := ct_data xv) as (buf' & E & R).
  - intros k. destruct (Hity k) as (it & H & _). eauto.
  - intros k it ity buf Hk Ek Eky HI. destruct (Hln k it Hk Ek) as (rest & Hr & Er & Hw). destruct (Hlny k ity Hk Eky) as (rest' & Hr' & Er' & Hw').
    assert (rest' = rest) by (apply (rank_inj l (without p sh)); try assumption; congruence). subst rest'.
    rewrite (read_lane l sh p n Hl En _ rest _ _ Hw' Hr Hby). cbn [bind].
    destruct (done_step g X k rest _ buf Hk Hr Er Hw HI) as (R1 & b' & W1 & W2). rewrite R1. cbn [bind]. rewrite zip_ok by lia. cbn [bind].
    exists b'. split; [exact W1|exact W2].
  - rewrite compute_size_prod. lia.
  - apply done_start. exact Hbx.
  - rewrite E. cbn [bind]. apply done_end in R. rewrite Esx. eexists. split; [reflexivity|]. apply (array_ext _ _ _ (repr_array xv buf' _ Px Esx R)). intros ix Hix.
    unfold g. destruct (without_bounds sh p n shape_ok En ix Hix) as (_ & B & Ei). rewrite Z2Nat.id by lia. rewrite <- Ei. reflexivity.
Qed.

Lemma convolve_array (cx cy : cont K) x y : Z.of_nat (length sh) < 2 ^ 64 -> array_of l cx sh x -> array_of l cy sh y ->
  exists c', fft_convolve A cx cy (Z.of_nat p) = Ok c' /\ array_of l c' sh (fun ix => circular A n (line p x ix) (line p y ix) (Z.to_nat (nth p ix 0))).
Proof.
  intros Hd Hx Hy. assert (Hp : (p < length sh)%nat) by (apply nth_error_Some; rewrite En; discriminate).
  destruct (convolve_product cx cy x y (Z.of_nat p) Hd (Logic.conj Hp (or_introl eq_refl)) Hx Hy) as (c' & Ec & Hc'). rewrite Ec.
  destruct (ifft_array _ _ Hd Hc') as (out & Eo & Ho). rewrite Eo. cbn [bind]. eexists. split; [reflexivity|].
  apply map_array with (f := fun z => over A z (Z.of_nat n)) in Ho. apply (array_ext _ _ _ Ho). intros ix Hix. cbn beta.
  destruct (line_of x ix Hix) as (_ & Lk). pose proof n_positive as Np.
  rewrite <- (cl_over _ _ _ L (circular A n (line p x ix) (line p y ix) (Z.to_nat (nth p ix 0))) (Z.of_nat n)) by lia. f_equal. rewrite Nat2Z.id.
  rewrite <- (product_back A one opp L n (line p x ix) (line p y ix) _ Lk). f_equal. apply dft_ext. intros j Hj. f_equal.
  destruct (without_bounds sh p n shape_ok En ix Hix) as (Hw & _ & _). unfold line at 1. destruct (without_insert sh p n En (without p ix) (Z.of_nat j) Hw) as (W1 & W2).
  rewrite W2, Nat2Z.id.
  replace (line p y (insert_at p (Z.of_nat j) (without p ix))) with (line p y ix) by (unfold line; rewrite W1; reflexivity).
  replace (line p x (insert_at p (Z.of_nat j) (without p ix))) with (line p x ix) by (unfold line; rewrite W1; reflexivity). ring.
Qed.

(** A negative axis *)
Lemma ifft_negative (c : cont K) axis : - 2 ^ 63 <= axis < 0 -> Z.of_nat (length (ct_shape c)) < 2 ^ 63 -> ifft A c axis = UB.
Proof.
  intros Ha Hd. unfold ifft. unfold rdz. change (2 ^ 63) with 9223372036854775808 in *.
  assert (E : to_size_t axis = axis + 18446744073709551616) by (unfold to_size_t; change (2 ^ 64) with 18446744073709551616; symmetry; apply (Z.mod_unique_pos _ _ (-1)); lia).
  rewrite E. destruct (Z.ltb_spec (axis + 18446744073709551616) 0); [reflexivity|]. unfold rd.
  rewrite (proj2 (nth_error_None _ _)) by lia. reflexivity.
Qed.
Lemma convolve_negative (cx cy : cont K) x y : Z.of_nat (length sh) < 2 ^ 63 -> array_of l cx sh x -> array_of l cy sh y ->
  fft_convolve A cx cy (Z.of_nat p - Z.of_nat (length sh)) = UB.
Proof.
  intros Hd Hx Hy. assert (Hp : (p < length sh)%nat) by (apply nth_error_Some; rewrite En; discriminate). change (2 ^ 63) with 9223372036854775808 in *.
  destruct (convolve_product cx cy x y (Z.of_nat p - Z.of_nat (length sh)) ltac:(change (2 ^ 64) with 18446744073709551616; lia) (Logic.conj Hp (or_intror eq_refl)) Hx Hy) as (c' & Ec & Hc'). rewrite Ec.
  rewrite ifft_negative; [reflexivity| |]; change (2 ^ 63) with 9223372036854775808; [lia|]. destruct Hc' as (_ & -> & _). exact Hd.
Qed.
End Arrays.

(** The multiples of one are not 0 *)
Lemma numeral_nonzero {K} (A : arith K) one opp n : complex_laws A one opp -> (0 < n)%nat -> numeral A one n <> zero A.
Proof.
  intros L Hn E. pose proof (cl_over _ _ _ L one (Z.of_nat n) ltac:(lia)) as H1. pose proof (cl_over _ _ _ L (zero A) (Z.of_nat n) ltac:(lia)) as H0.
  rewrite Nat2Z.id, E in *. pose proof (cl_ring _ _ _ L) as R.
  assert (Z0 : forall z, mul A (zero A) z = zero A) by (intros z; apply (Ring_theory.Rmul_0_l _ _ _ _ _ _ _ (Eqsth K) (Eq_ext _ _ _) (Rth_ARth (Eqsth K) (Eq_ext _ _ _) R)) || apply (ARmul_0_l (Rth_ARth (Eqsth K) (Eq_ext _ _ _) R))).
  rewrite !Z0 in *. assert (E10 : one = zero A) by congruence.
  pose proof (cl_turn_half _ _ _ L) as Ht. assert (Ez : forall z, z = zero A) by (intros z; rewrite <- (Ring_theory.Rmul_1_l R z), E10; apply Z0).
  destruct (cl_turn_one _ _ _ L 1 1 ltac:(lia)) as (q & Hq); [rewrite (Ez (turn A 1 1)); symmetry; exact E10|lia].
Qed.

Lemma scaled {K} (A : arith K) one opp n x : complex_laws A one opp -> (2 <= n)%nat -> x <> zero A -> mul A (numeral A one n) x <> x.
Proof.
  intros L Hn Hx E. pose proof (cl_ring _ _ _ L) as R. destruct n as [|n]; [lia|]. cbn [numeral] in E.
  assert (Z0 : mul A (numeral A one n) x = zero A).
  { rewrite (Rdistr_l R), (Rmul_1_l R) in E. apply (f_equal (fun y => sub A y x)) in E. rewrite !(Rsub_def R), <- (Radd_assoc R), (Ropp_def R), (Radd_comm R), (Radd_0_l R) in E. exact E. }
  apply (cl_integral _ _ _ L) in Z0. destruct Z0 as [Z0|Z0]; [|contradiction]. revert Z0. apply (numeral_nonzero A one opp n L). lia.
Qed.

(** A 2x2x2x2 container *)
Definition four {K} (x : list Z -> K) : cont K :=
  mk_cont [2;2;2;2] [8;4;2;1] [8;4;2;1] row_major
    (map x (flat_map (fun a => flat_map (fun b => flat_map (fun c => map (fun d => [a;b;c;d]) [0;1]) [0;1]) [0;1]) [0;1])).
Lemma four_array {K} (x : list Z -> K) : array_of row_major (four x) [2;2;2;2] x.
Proof.
  split; [|split; [reflexivity|split; [reflexivity|]]].
  - repeat split. intros k Hk. cbn in Hk. destruct k as [|[|[|[|k]]]]; [reflexivity..|lia].
  - intros ix H. inversion H as [|d i s r Hi Hr]; subst. inversion Hr as [|d2 i2 s2 r2 Hi2 Hr2]; subst. inversion Hr2 as [|d3 i3 s3 r3 Hi3 Hr3]; subst. inversion Hr3 as [|d4 i4 s4 r4 Hi4 Hr4]; subst. inversion Hr4; subst.
    assert (B : forall z, 0 <= z < 2 -> z = 0 \/ z = 1) by (intros; lia).
    destruct (B i Hi) as [ -> | -> ]; destruct (B i2 Hi2) as [ -> | -> ]; destruct (B i3 Hi3) as [ -> | -> ]; destruct (B i4 Hi4) as [ -> | -> ]; reflexivity.
Qed.
Lemma four_wrong {K} (A : arith K) one opp (x : list Z -> K) : complex_laws A one opp -> x [1;1;1;0] <> zero A ->
  exists c', fft A (four x) 2 = Ok c' /\ elt c' [1;1;0;0] = Ok (x [1;1;0;0]) /\ x [1;1;0;0] <> dft A 2 (line 2 x [1;1;0;0]) 0.
Proof.
  intros L Hx. eexists. split; [vm_compute; reflexivity|]. split; [vm_compute; reflexivity|].
  unfold dft, line. cbn [sumn Z.of_nat insert_at without firstn skipn app]. change (2 * 0 * 0) with 0. change (2 * Z.of_nat 1 * 0) with 0. change (2 * Z.pos (Pos.of_succ_nat 0) * 0) with 0. rewrite !(turn_0 A one opp L) by (cbn; lia).
  intros E. apply Hx. pose proof (cl_ring _ _ _ L) as R. rewrite !(Rmul_comm R _ one), !(Rmul_1_l R), (Radd_0_l R) in E.
  change (Z.of_nat 0) with 0 in E. change (Z.of_nat 1) with 1 in E.
  apply (f_equal (fun y => add A (opp (x [1;1;0;0])) y)) in E. rewrite (Radd_assoc R), (Radd_comm R (opp _) (x _)), (Ropp_def R), (Radd_0_l R) in E. symmetry. exact E.
Qed.

Lemma convolve_rejects {K} (A : arith K) (cx cy : cont K) (axis : Z) (p : nat) :
  Z.of_nat (length (ct_shape cx)) < 2 ^ 64 -> axis_names (length (ct_shape cx)) axis p ->
  (length (ct_shape cx) <> length (ct_shape cy) \/ nth p (ct_shape cx) 0 <> nth p (ct_shape cy) 0) ->
  fft_convolve A cx cy axis = Throw runtime_error.
Proof.
  intros Hd Ha H. unfold fft_convolve. destruct (Z.eqb_spec (Z.of_nat (length (ct_shape cx))) (Z.of_nat (length (ct_shape cy)))) as [E|E]; [|reflexivity]. cbn [negb].
  destruct H as [H|H]; [lia|]. rewrite (axis_pos _ _ _ Hd Ha). destruct Ha as (Hp & _).
  rewrite (rdz_ok (ct_shape cx) (Z.of_nat p) (nth p (ct_shape cx) 0)) by (first [lia|rewrite Nat2Z.id; apply nth_error_nth'; lia]). cbn [bind].
  rewrite (rdz_ok (ct_shape cy) (Z.of_nat p) (nth p (ct_shape cy) 0)) by (first [lia|rewrite Nat2Z.id; apply nth_error_nth'; lia]). cbn [bind].
  destruct (Z.eqb_spec (nth p (ct_shape cx) 0) (nth p (ct_shape cy) 0)); [contradiction|reflexivity].
Qed.
