From Coq Require Import List ZArith Bool Lia Permutation Sorted QArith Qround Lqa.
From Verif Require Import Prelude PreludeFacts Strides_Model Access_Model Container_Model Slice_Model Manip_Model Sort_Model Sort_Spec Sort5_Proofs Hist_Model Hist_Spec Hist_Proofs Hist2_Proofs Hist3_Proofs Hist4_Proofs Hist5_Proofs.
Import ListNotations.
Open Scope Z_scope.

(** Reversing with range(size, _, -1), and the first elements with range(0, k) *)
Lemma nth_error_rev {X} (l : list X) i : (i < length l)%nat -> nth_error (rev l) i = nth_error l (length l - 1 - i).
Proof.
  revert i. induction l as [|x l IH]; intros i Hi; cbn [length] in *; [lia|]. cbn [rev].
  destruct (Nat.eq_dec i (length l)) as [->|Hne].
  - rewrite nth_error_app2 by (rewrite rev_length; lia). rewrite rev_length, Nat.sub_diag. replace (S (length l) - 1 - length l)%nat with 0%nat by lia. reflexivity.
  - rewrite nth_error_app1 by (rewrite rev_length; lia). rewrite IH by lia. replace (S (length l) - 1 - i)%nat with (S (length l - 1 - i)) by lia. reflexivity.
Qed.

Lemma nth_error_ext_len {X} : forall l l' : list X, length l = length l' -> (forall i, (i < length l)%nat -> nth_error l i = nth_error l' i) -> l = l'.
Proof.
  induction l as [|x l IH]; intros [|y l'] HL H; cbn [length] in *; try lia; [reflexivity|].
  pose proof (H 0%nat ltac:(lia)) as H0. cbn in H0. injection H0 as ->. f_equal. apply IH; [lia|]. intros i Hi. exact (H (S i) ltac:(lia)).
Qed.

Lemma view_loop (s : slice) (l r : list Z) m : (length r = m)%nat ->
  (forall i, (i < m)%nat -> exists p, slice_at s (Z.of_nat i) = Ok p /\ 0 <= p /\ nth_error l (Z.to_nat p) = nth_error r i) ->
  for_up (fun i acc => let* p := slice_at s (Z.of_nat i) in let* x := rdz l p in Ok (acc ++ [x])) 0 m [] = Ok r.
Proof.
  intros Hr H.
  destruct (for_up_inv (fun i acc => acc = firstn i r) (fun i acc => let* p := slice_at s (Z.of_nat i) in let* x := rdz l p in Ok (acc ++ [x])) 0 m []) as (acc & E & ->).
  - reflexivity.
  - intros i acc Hi ->. cbn in Hi. destruct (H i ltac:(lia)) as (p & Ep & Hp & Ex).
    destruct (nth_error r i) as [x|] eqn:Er; [|apply nth_error_None in Er; lia].
    rewrite Ep. cbn [bind]. rewrite (rdz_ok l p x Hp Ex). cbn [bind]. eexists. split; [reflexivity|].
    clear - Er. revert i Er. induction r as [|y r IH]; intros i Er; [destruct i; discriminate|]. destruct i as [|i]; cbn in Er |- *; [injection Er as ->; reflexivity|]. f_equal. exact (IH i Er).
  - rewrite E. f_equal. replace (0 + m)%nat with m by lia. rewrite <- Hr. apply firstn_all.
Qed.

Lemma view_rev l n : n = length l -> view1 (URange (Some (Z.of_nat n)) None (Some (-1))) l = Ok (rev l).
Proof.
  intros ->. unfold view1, resolve, range_get, get_stepped_range. cbn [Z.ltb]. change (0 <? -1) with false. cbv iota.
  set (L := Z.of_nat (length l)). assert (HL : 0 <= L) by (unfold L; lia).
  replace (0 <=? L) with true by (symmetry; apply Z.leb_le; lia). replace (0 <=? - (L + 1)) with false by (symmetry; apply Z.leb_gt; lia).
  replace (Z.max (-1) (Z.min (L - 1) L)) with (L - 1) by lia. replace (Z.max (-1) (Z.min (L - 1) (- (L + 1) + L))) with (-1) by lia.
  unfold mk_stepped. replace (-1 - (L - 1)) with (- L) by lia. unfold cdiv, crem. cbn [Z.eqb bind].
  change (0 <? -1) with false. replace (Z.quot (- L) (-1)) with L by (rewrite <- (Z.quot_mul L (-1)) at 1 by lia; f_equal; lia).
  replace (Z.rem (- L) (-1)) with 0 by (rewrite <- (Z.rem_mul L (-1)) by lia; f_equal; lia).
  cbn [Z.eqb negb]. rewrite andb_false_r. rewrite Z.add_0_r. cbn [bind slice_size].
  apply view_loop; [rewrite rev_length; unfold L; lia|]. intros i Hi. cbn [slice_at]. eexists. split; [reflexivity|]. unfold L in *. split; [lia|].
  rewrite nth_error_rev by lia. f_equal. lia.
Qed.

Lemma view_first l k : 0 <= k <= Z.of_nat (length l) -> view1 (URange (Some 0) (Some k) None) l = Ok (firstn (Z.to_nat k) l).
Proof.
  intros Hk. unfold view1, resolve, range_get, mk_range, normalize. change (0 <=? 0) with true. cbv iota.
  replace (0 <=? k) with true by (symmetry; apply Z.leb_le; lia).
  replace (Z.max 0 (Z.min (Z.of_nat (length l)) 0)) with 0 by lia. replace (Z.max 0 (Z.min (Z.of_nat (length l)) k)) with k by lia.
  cbn [bind slice_size]. replace (if 0 <? k then k - 0 else 0) with k by (destruct (Z.ltb_spec 0 k); lia).
  apply view_loop; [rewrite firstn_length; lia|]. intros i Hi. cbn [slice_at]. eexists. split; [reflexivity|]. split; [lia|].
  replace (Z.to_nat (0 + Z.of_nat i)) with i by lia. symmetry.
  clear Hk. revert l i Hi. induction (Z.to_nat k) as [|m IH]; intros l i Hi; [lia|]. destruct l as [|y l]; [destruct i; reflexivity|]. destruct i as [|i]; [reflexivity|]. cbn. apply IH. lia.
Qed.

(** Marking distinct positions *)
Lemma zsum_upd : forall (d : list Z) k v x, nth_error d k = Some x -> zsum (upd d k v) = zsum d - x + v.
Proof.
  induction d as [|y d IH]; intros k v x E; [destruct k; discriminate|]. destruct k as [|k]; cbn in E.
  - injection E as ->. cbn. lia.
  - cbn. specialize (IH k v x E). unfold zsum in IH. rewrite IH. lia.
Qed.

Lemma mark_ok : forall (idx d : list Z), NoDup idx -> Forall (fun i => 0 <= i < Z.of_nat (length d)) idx -> (forall i, In i idx -> nth_error d (Z.to_nat i) = Some 0) ->
  exists d', for_each (fun i d => wrz d i 1) idx d = Ok d' /\ length d' = length d /\ zsum d' = zsum d + Z.of_nat (length idx) /\
    (forall i, In i idx -> nth_error d' (Z.to_nat i) = Some 1) /\ (forall k, ~ In (Z.of_nat k) idx -> nth_error d' k = nth_error d k).
Proof.
  induction idx as [|i idx IH]; intros d Nd F Z0; cbn [for_each].
  - exists d. split; [reflexivity|]. split; [reflexivity|]. split; [cbn; lia|]. split; [intros i []|reflexivity].
  - inversion Nd as [|? ? Ni Nd']; subst. inversion F as [|? ? Fi F']; subst.
    rewrite wrz_ok by lia. cbn [bind].
    destruct (IH (upd d (Z.to_nat i) 1)) as (d' & E & L & Sm & H1 & H2).
    + exact Nd'.
    + rewrite upd_length. exact F'.
    + intros j Hj. rewrite nth_error_upd_other; [apply Z0; right; exact Hj|]. rewrite Forall_forall in F'. specialize (F' j Hj). intros Heq. apply Ni. replace i with j by lia. exact Hj.
    + exists d'. split; [exact E|]. split; [rewrite L, upd_length; reflexivity|]. split.
      { rewrite Sm, (zsum_upd d (Z.to_nat i) 1 0) by (apply Z0; left; reflexivity). cbn [length]. lia. }
      split.
      * intros j [ <- | Hj ]; [|exact (H1 j Hj)]. destruct (in_dec Z.eq_dec i idx) as [Hin|Hni]; [exact (H1 i Hin)|].
        rewrite H2 by (replace (Z.of_nat (Z.to_nat i)) with i by lia; exact Hni). apply nth_error_upd_same. lia.
      * intros k Hk. rewrite H2 by (intros Hin; apply Hk; right; exact Hin). apply nth_error_upd_other. intros Heq. apply Hk. left. lia.
Qed.

Lemma sub_ok (ns ds : list Z) : length ds = length ns -> (forall i x y, nth_error ns i = Some x -> nth_error ds i = Some y -> 0 <= x - y < 2 ^ 64) ->
  exists rs, for_up (fun i n => let* x := rd n i in let* y := rd ds i in wr n i (to_size_t (x - y))) 0 (length ns) ns = Ok rs /\ length rs = length ns /\
    forall i x y, nth_error ns i = Some x -> nth_error ds i = Some y -> nth_error rs i = Some (x - y).
Proof.
  intros HL Hr.
  destruct (for_up_inv (fun k rs => length rs = length ns /\ (forall i, (k <= i)%nat -> nth_error rs i = nth_error ns i) /\ (forall i x y, (i < k)%nat -> nth_error ns i = Some x -> nth_error ds i = Some y -> nth_error rs i = Some (x - y)))
    (fun i n => let* x := rd n i in let* y := rd ds i in wr n i (to_size_t (x - y))) 0 (length ns) ns) as (rs & E & L & _ & H).
  - split; [reflexivity|]. split; [reflexivity|]. intros i x y Hi. lia.
  - intros k rs Hk (L & R & D). cbn in Hk. destruct (nth_error ns k) as [x|] eqn:Ex; [|apply nth_error_None in Ex; lia]. destruct (nth_error ds k) as [y|] eqn:Ey; [|apply nth_error_None in Ey; lia].
    rewrite (rd_ok rs k x) by (rewrite R by lia; exact Ex). cbn [bind]. rewrite (rd_ok _ _ _ Ey). cbn [bind]. rewrite wr_ok by lia.
    eexists. split; [reflexivity|]. split; [rewrite upd_length; exact L|]. split.
    + intros i Hi. rewrite nth_error_upd_other by lia. apply R. lia.
    + intros i x' y' Hi Ex' Ey'. destruct (Nat.eq_dec i k) as [->|Hn].
      * rewrite Ex in Ex'. rewrite Ey in Ey'. injection Ex' as <-. injection Ey' as <-. rewrite nth_error_upd_same by lia. unfold to_size_t. rewrite Z.mod_small by exact (Hr k x y Ex Ey). reflexivity.
      * rewrite nth_error_upd_other by lia. apply D; [lia|assumption|assumption].
  - exists rs. split; [exact E|]. split; [exact L|]. intros i x y Ex Ey. apply H; [|exact Ex|exact Ey]. assert (i < length ns)%nat by (apply nth_error_Some; congruence). lia.
Qed.

Lemma zsum_sub : forall ns ds rs : list Z, length ds = length ns -> length rs = length ns ->
  (forall i x y, nth_error ns i = Some x -> nth_error ds i = Some y -> nth_error rs i = Some (x - y)) -> zsum rs = zsum ns - zsum ds.
Proof.
  induction ns as [|x ns IH]; intros [|y ds] [|z rs] L1 L2 H; cbn [length] in *; try lia; [reflexivity|].
  pose proof (H 0%nat x y eq_refl eq_refl) as H0. cbn in H0. injection H0 as ->.
  change (zsum (x - y :: rs)) with (x - y + zsum rs). change (zsum (x :: ns)) with (x + zsum ns). change (zsum (y :: ds)) with (y + zsum ds).
  rewrite (IH ds rs) by (try lia; intros i; exact (H (S i))). lia.
Qed.

(** The rounded counts *)
Definition npos (l : list Q) : nat := length (filter (fun x => negb (Qle_bool x 0)) l).
Lemma qle0 x : negb (Qle_bool x 0) = true <-> (0 < x)%Q.
Proof.
  split; intros H.
  - apply negb_true_iff in H. apply Qnot_le_lt. intros K. apply Qle_bool_iff in K. congruence.
  - apply negb_true_iff. destruct (Qle_bool x 0) eqn:E; [|reflexivity]. apply Qle_bool_iff in E. lra.
Qed.

Lemma ceil_bounds x : (x <= inject_Z (Qceiling x) /\ inject_Z (Qceiling x) < x + 1)%Q.
Proof.
  split; [apply Qle_ceiling|]. pose proof (Qceiling_lt x) as H. unfold Z.sub in H. rewrite inject_Z_plus in H. change (inject_Z (- (1))) with (- (1))%Q in H. lra.
Qed.

Lemma ceil_sum : forall xs, Forall (fun x => (0 <= x)%Q) xs ->
  (qsum xs <= inject_Z (zsum (map Qceiling xs)) /\ inject_Z (zsum (map Qceiling xs)) <= qsum xs + inject_Z (Z.of_nat (npos xs)))%Q /\
  ((0 < npos xs)%nat -> inject_Z (zsum (map Qceiling xs)) < qsum xs + inject_Z (Z.of_nat (npos xs)))%Q.
Proof.
  induction xs as [|x xs IH]; intros F; [split; [split; discriminate|cbn; lia]|].
  inversion F as [|? ? Fx F']; subst. destruct (IH F') as ((I1 & I2) & I3). destruct (ceil_bounds x) as (B1 & B2).
  cbn [map]. change (zsum (?y :: ?l)) with (y + zsum l). change (qsum (x :: xs)) with (x + qsum xs)%Q. rewrite inject_Z_plus.
  unfold npos. cbn [filter]. destruct (negb (Qle_bool x 0)) eqn:E.
  - cbn [length]. fold (npos xs). rewrite Nat2Z.inj_succ. unfold Z.succ. rewrite inject_Z_plus. change (inject_Z 1) with 1%Q. split; [split; lra|]. intros _. lra.
  - fold (npos xs). assert (Hx : (x == 0)%Q). { apply negb_false_iff in E. apply Qle_bool_iff in E. lra. }
    assert (C0 : Qceiling x = 0) by (rewrite Hx; reflexivity). rewrite C0. change (inject_Z 0) with 0%Q. split; [split; lra|]. intros Hp. specialize (I3 Hp). lra.
Qed.

Lemma desc_pos : forall l k x, StronglySorted (fun x y => (y <= x)%Q) l -> (k < npos l)%nat -> nth_error l k = Some x -> (0 < x)%Q.
Proof.
  induction l as [|y l IH]; intros k x Hs Hk E; [destruct k; discriminate|]. inversion Hs as [|? ? Hs' Hf]; subst.
  unfold npos in Hk. cbn [filter] in Hk. destruct (negb (Qle_bool y 0)) eqn:Ey.
  - destruct k as [|k]; cbn in E; [injection E as <-; apply qle0; exact Ey|]. cbn [length] in Hk. apply (IH k x Hs'); [unfold npos; lia|exact E].
  - exfalso. apply negb_false_iff in Ey. apply Qle_bool_iff in Ey. rewrite Forall_forall in Hf.
    destruct (filter (fun x => negb (Qle_bool x 0)) l) as [|z f] eqn:Ef; [cbn in Hk; lia|].
    assert (Hz : In z (filter (fun x => negb (Qle_bool x 0)) l)) by (rewrite Ef; left; reflexivity). apply filter_In in Hz. destruct Hz as (Hz & Pz). apply qle0 in Pz. specialize (Hf z Hz). lra.
Qed.

Lemma ss_app {X} (R : X -> X -> Prop) : forall l x, StronglySorted R l -> Forall (fun y => R y x) l -> StronglySorted R (l ++ [x]).
Proof.
  induction l as [|y l IH]; intros x Hs F; cbn; [constructor; constructor|]. inversion Hs; subst. inversion F; subst. constructor; [apply IH; assumption|]. apply Forall_app. split; [assumption|constructor; [assumption|constructor]].
Qed.
Lemma ss_rev {X} (R R' : X -> X -> Prop) : (forall x y, R x y -> R' y x) -> forall l, StronglySorted R l -> StronglySorted R' (rev l).
Proof.
  intros HR. induction l as [|y l IH]; intros Hs; cbn; [constructor|]. inversion Hs as [|? ? Hs' Hf]; subst. apply ss_app; [apply IH; exact Hs'|].
  rewrite Forall_forall in *. intros z Hz. apply in_rev in Hz. apply HR. apply Hf. exact Hz.
Qed.

Lemma npos_perm l l' : Permutation l l' -> npos l = npos l'.
Proof.
  unfold npos. intros P. induction P as [|x l l' P IH|x y l|l1 l2 l3 P1 IH1 P2 IH2]; cbn [filter]; [reflexivity| | |congruence].
  - destruct (negb (Qle_bool x 0)); cbn [length]; lia.
  - destruct (negb (Qle_bool x 0)), (negb (Qle_bool y 0)); reflexivity.
Qed.
Lemma npos_le l : (npos l <= length l)%nat.
Proof. unfold npos. induction l as [|x l IH]; cbn [filter length]; [lia|]. destruct (negb (Qle_bool x 0)); cbn [length]; lia. Qed.

Lemma npos_map l (f : Q -> Q) : (forall x, 0 < f x <-> 0 < x)%Q -> npos (map f l) = npos l.
Proof.
  intros H. unfold npos. induction l as [|x l IH]; cbn [map filter]; [reflexivity|].
  replace (negb (Qle_bool (f x) 0)) with (negb (Qle_bool x 0)); [destruct (negb (Qle_bool x 0)); cbn [length]; lia|].
  destruct (negb (Qle_bool x 0)) eqn:E; symmetry; [apply qle0; apply H; apply qle0; exact E|].
  destruct (negb (Qle_bool (f x) 0)) eqn:E'; [|reflexivity]. apply qle0 in E'. apply (proj1 (H x)) in E'. apply qle0 in E'. congruence.
Qed.

Lemma fold_qsum : forall l acc, (fold_left Qplus l acc == acc + qsum l)%Q.
Proof. induction l as [|x l IH]; intros acc; cbn [fold_left]; [cbn; ring|]. rewrite IH. change (qsum (x :: l)) with (x + qsum l)%Q. ring. Qed.
Lemma qsum_map l c : (qsum (map (fun x => c * x) l) == c * qsum l)%Q.
Proof. induction l as [|x l IH]; cbn [map]; [cbn; ring|]. change (qsum (?y :: ?m)) with (y + qsum m)%Q. rewrite IH. ring. Qed.
Lemma qsum_div l c : (qsum (map (fun x => x / c) l) == qsum l / c)%Q.
Proof. induction l as [|x l IH]; cbn [map]; [cbn; unfold Qdiv; ring|]. change (qsum (?y :: ?m)) with (y + qsum m)%Q. rewrite IH. unfold Qdiv. ring. Qed.
Lemma qsum_ge : forall l x, Forall (fun y => (0 <= y)%Q) l -> In x l -> (x <= qsum l)%Q.
Proof.
  induction l as [|y l IH]; intros x F Hin; [contradiction|]. inversion F as [|? ? Fy F']; subst. change (qsum (y :: l)) with (y + qsum l)%Q.
  assert (0 <= qsum l)%Q. { clear - F'. induction F' as [|z l Hz F IH]; [cbn; lra|]. change (qsum (z :: l)) with (z + qsum l)%Q. lra. }
  destruct Hin as [ -> | Hin ]; [lra|]. specialize (IH x F' Hin). lra.
Qed.
Lemma fold_zsum : forall l acc, fold_left Z.add l acc = acc + zsum l.
Proof. induction l as [|x l IH]; intros acc; cbn [fold_left]; [cbn; lia|]. rewrite IH. change (zsum (x :: l)) with (x + zsum l). lia. Qed.

Lemma map_each {X} (f : X -> Z) (g : X -> res Z) : forall l acc, (forall x, In x l -> g x = Ok (f x)) ->
  for_each (fun p n => let* k := g p in Ok (n ++ [k])) l acc = Ok (acc ++ map f l).
Proof.
  induction l as [|x l IH]; intros acc H; cbn [for_each map]; [rewrite app_nil_r; reflexivity|].
  rewrite H by (left; reflexivity). cbn [bind]. rewrite IH by (intros y Hy; apply H; right; exact Hy). rewrite <- app_assoc. reflexivity.
Qed.

Lemma perm_nodup (idx : list Z) n : Permutation idx (map Z.of_nat (seq 0 n)) -> NoDup idx.
Proof.
  intros P. apply (Permutation_NoDup (Permutation_sym P)). apply FinFun.Injective_map_NoDup; [intros x y; lia|apply seq_NoDup].
Qed.

Lemma nodup_app_l {X} (l l' : list X) : NoDup (l ++ l') -> NoDup l.
Proof. induction l as [|x l IH]; intros H; [constructor|]. cbn in H. inversion H as [|? ? Hn Hd]; subst. constructor; [intros Hi; apply Hn; apply in_or_app; left; exact Hi|exact (IH Hd)]. Qed.

Lemma forall2_nth {X Y} (R : X -> Y -> Prop) l l' : Forall2 R l l' -> forall k x, nth_error l k = Some x -> exists y, nth_error l' k = Some y /\ R x y.
Proof. induction 1 as [|x y l l' H F IH]; intros k z E; [destruct k; discriminate|]. destruct k as [|k]; cbn in E; [injection E as <-; exists y; split; [reflexivity|exact H]|exact (IH k z E)]. Qed.

Lemma bin_items_lemma (a : algos) N weights : std_ok a -> weights <> [] -> Forall (fun w => (0 <= w)%Q) weights -> (0 < qsum weights)%Q ->
  0 <= N -> N + Z.of_nat (length weights) < 2 ^ 63 ->
  exists counts, bin_items exact a N weights = Ok counts /\ length counts = length weights /\ zsum counts = N /\ Forall (fun c => 0 <= c) counts /\
    forall i w c, nth_error weights i = Some w -> nth_error counts i = Some c ->
      (inject_Z N * w / qsum weights - 1 <= inject_Z c /\ inject_Z c < inject_Z N * w / qsum weights + 1)%Q.
Proof.
  intros Ha Hne Hw Ht HN HB. unfold bin_items. cbv zeta. change (@length (num exact) weights) with (@length Q weights).
  destruct (Nat.leb_spec (length weights) 1) as [H1|H1].
  { destruct weights as [|w [|]]; [contradiction| |cbn in H1; lia]. exists [N]. split; [reflexivity|]. split; [reflexivity|]. split; [cbn; lia|]. split; [constructor; [lia|constructor]|].
    intros i w' c Ew Ec. destruct i as [|i]; [|destruct i; discriminate]. cbn in Ew, Ec. injection Ew as <-. injection Ec as <-. cbn in Ht |- *.
    assert (E : (inject_Z N * w / (w + 0) == inject_Z N)%Q) by (field; lra). rewrite E. split; lra. }
  cbn [a_add a_of a_div a_mul a_ceil a_lt exact num]. set (tot := fold_left Qplus weights (inject_Z 0)).
  assert (Et : (tot == qsum weights)%Q) by (unfold tot; rewrite fold_qsum; change (inject_Z 0) with 0%Q; ring).
  set (P := map (fun w => (w / tot)%Q) weights). set (xs := map (fun p => (inject_Z N * p)%Q) P).
  assert (LP : length P = length weights) by (unfold P; apply map_length).
  assert (HP : Forall (fun p => (0 <= p /\ p <= 1)%Q) P).
  { unfold P. rewrite Forall_forall in Hw |- *. intros p Hp. apply in_map_iff in Hp. destruct Hp as (w & <- & Hin). pose proof (Hw w Hin) as W0. pose proof (qsum_ge weights w ltac:(rewrite Forall_forall; exact Hw) Hin) as W1. rewrite Et.
    assert (0 <= /qsum weights)%Q by (apply Qinv_le_0_compat; lra). split; [unfold Qdiv; nra|]. apply Qle_shift_div_r; [exact Ht|lra]. }
  assert (HNq : (0 <= inject_Z N)%Q) by (change 0%Q with (inject_Z 0); rewrite <- Zle_Qle; exact HN).
  assert (Hxs : Forall (fun x => (0 <= x)%Q) xs).
  { unfold xs. rewrite Forall_forall in HP |- *. intros x Hx. apply in_map_iff in Hx. destruct Hx as (p & <- & Hp). destruct (HP p Hp). nra. }
  assert (Sx : (qsum xs == inject_Z N)%Q). { unfold xs. rewrite qsum_map. unfold P. rewrite qsum_div, Et. field. lra. }
  rewrite (map_each (fun p => Qceiling (inject_Z N * p))).
  2:{ intros p Hp. rewrite Forall_forall in HP. destruct (HP p Hp) as (P0 & P1). unfold a_size. cbn [a_trunc exact].
      assert (Ez : Qtrunc (inject_Z (Qceiling (inject_Z N * p))) = Qceiling (inject_Z N * p)) by (unfold Qtrunc; destruct (Qle_bool 0 _); [apply Qfloor_Z|apply Qceiling_Z]).
      rewrite Ez. cbn [bind].
      assert (C0 : 0 <= Qceiling (inject_Z N * p)) by (rewrite <- (Qceiling_Z 0); apply Qceiling_resp_le; change (inject_Z 0) with 0%Q; nra).
      assert (C1 : Qceiling (inject_Z N * p) <= N) by (rewrite <- (Qceiling_Z N) at 2; apply Qceiling_resp_le; nra).
      replace ((0 <=? Qceiling (inject_Z N * p)) && (Qceiling (inject_Z N * p) <? 2 ^ 64)) with true by (symmetry; apply andb_true_iff; rewrite Z.leb_le, Z.ltb_lt; lia). reflexivity. }
  cbn [bind app]. replace (map (fun p => Qceiling (inject_Z N * p)) P) with (map Qceiling xs) by (unfold xs; rewrite map_map; reflexivity).
  set (ns := map Qceiling xs). assert (Lns : length ns = length weights) by (unfold ns, xs; rewrite !map_length; exact LP).
  destruct (ceil_sum xs Hxs) as ((S1 & S2) & S3). fold ns in S1, S2, S3. rewrite Sx in S1, S2, S3.
  assert (Nle : (npos xs <= length weights)%nat) by (rewrite <- LP; pose proof (npos_le xs) as K; unfold xs in K at 2; rewrite map_length in K; exact K).
  rewrite <- Zle_Qle in S1. rewrite <- inject_Z_plus, <- Zle_Qle in S2. rewrite <- inject_Z_plus in S3.
  assert (B : 0 <= fold_left Z.add ns 0 < 2 ^ 64) by (rewrite fold_zsum; lia).
  unfold to_size_t at 1 2. rewrite Z.mod_small by exact B. rewrite fold_zsum, Z.add_0_l.
  assert (Near : forall i w x, nth_error weights i = Some w -> nth_error ns i = Some x -> (inject_Z N * w / qsum weights <= inject_Z x /\ inject_Z x < inject_Z N * w / qsum weights + 1)%Q).
  { intros i w x Ew Ex. unfold ns, xs, P in Ex. rewrite !map_map in Ex. rewrite nth_error_map, Ew in Ex. cbn in Ex. injection Ex as <-.
    destruct (ceil_bounds (inject_Z N * (w / tot))) as (B1 & B2). assert (E : (inject_Z N * (w / tot) == inject_Z N * w / qsum weights)%Q) by (rewrite Et; field; lra).
    rewrite E in B1 at 1. rewrite E in B2 at 2. split; assumption. }
  assert (Ns0 : Forall (fun c => 0 <= c) ns).
  { unfold ns. rewrite Forall_forall in Hxs |- *. intros c Hc. apply in_map_iff in Hc. destruct Hc as (x & <- & Hx). rewrite <- (Qceiling_Z 0). apply Qceiling_resp_le. change (inject_Z 0) with 0%Q. exact (Hxs x Hx). }
  destruct (Z.eqb_spec (zsum ns) N) as [Es|Es].
  { exists ns. split; [reflexivity|]. split; [exact Lns|]. split; [exact Es|]. split; [exact Ns0|]. intros i w c Ew Ec. destruct (Near i w c Ew Ec). split; lra. }
  set (e := zsum ns - N). assert (He : 0 < e) by (unfold e; lia).
  assert (Hpos : (0 < npos xs)%nat) by lia. specialize (S3 Hpos). rewrite <- Zlt_Qlt in S3.
  assert (Hpp : forall x : Q, (0 < inject_Z N * x <-> 0 < x)%Q).
  { assert (N <> 0). { intros ->. assert (npos xs = 0%nat); [|lia]. unfold npos, xs. clear. induction P as [|p P IH]; [reflexivity|]. cbn [map filter].
      replace (negb (Qle_bool (inject_Z 0 * p) 0)) with false; [exact IH|]. symmetry. apply negb_false_iff. apply Qle_bool_iff. change (inject_Z 0) with 0%Q. lra. }
    assert (0 < inject_Z N)%Q by (change 0%Q with (inject_Z 0); rewrite <- Zlt_Qlt; lia). intros x. split; intros K; nra. }
  assert (En : npos xs = npos P) by (unfold xs; apply npos_map; exact Hpp).
  destruct (argsort_iter_ok a (fun x y => negb (Qle_bool y x)) false P (iota (length P)) Ha) as (sorter & Esort & Ls & (ws & (Pp & Fp) & Sp) & _).
  { unfold iota. rewrite map_length, seq_length. lia. }
  { exact (q_swo _). }
  assert (Li : length (iota (length P)) = length P) by (unfold iota; rewrite map_length, seq_length; reflexivity). rewrite Li in Ls, Pp, Fp. rewrite firstn_all in Pp, Fp.
  rewrite Esort. cbn [bind]. rewrite view_rev by (rewrite Ls; reflexivity). cbn [bind].
  assert (Etp : to_ptrdiff e = e). { unfold to_ptrdiff. cbv zeta. rewrite Z.mod_small by lia. replace (e <? 2 ^ 63) with true by (symmetry; apply Z.ltb_lt; lia). reflexivity. }
  rewrite Etp. rewrite view_first by (rewrite rev_length, Ls, LP; lia). cbn [bind].
  set (top := firstn (Z.to_nat e) (rev sorter)).
  assert (Ltop : length top = Z.to_nat e) by (unfold top; rewrite firstn_length, rev_length, Ls, LP; lia).
  assert (Ptop : forall i, In i top -> 0 <= i < Z.of_nat (length P) /\ exists p, nth_error P (Z.to_nat i) = Some p /\ (0 < p)%Q).
  { intros i Hi. destruct (In_nth_error _ _ Hi) as (k & Ek). assert (Hk : (k < Z.to_nat e)%nat) by (rewrite <- Ltop; apply nth_error_Some; congruence).
    assert (Ek' : nth_error (rev sorter) k = Some i).
    { unfold top in Ek. clear - Ek. revert k Ek. generalize (rev sorter). induction (Z.to_nat e) as [|m IH]; intros l k Ek; [destruct k; discriminate|]. destruct l as [|y l]; [destruct k; discriminate|]. destruct k as [|k]; cbn in *; [exact Ek|exact (IH l k Ek)]. }
    split.
    - assert (Hin : In i sorter) by (apply in_rev; exact (nth_error_In _ _ Ek')). apply (Permutation_in _ Pp) in Hin. apply in_map_iff in Hin. destruct Hin as (j & <- & Hj). apply in_seq in Hj. lia.
    - assert (Fr : Forall2 (fun (i : Z) (w : Q) => nth_error P (Z.to_nat i) = Some w) (rev sorter) (rev ws)).
      { clear - Fp. induction Fp as [|x y l l' H F IH]; cbn; [constructor|]. apply Forall2_app; [exact IH|]. constructor; [exact H|constructor]. }
      destruct (forall2_nth _ _ _ Fr k i Ek') as (p & Ep & HPp). exists p. split; [exact HPp|].
      apply (desc_pos (rev ws) k p); [|rewrite <- (npos_perm P (rev ws)); [lia|]|exact Ep].
      + unfold sorted in Sp. refine (ss_rev _ _ _ ws Sp). cbn. intros x y Hxy. apply negb_false_iff in Hxy. apply Qle_bool_iff in Hxy. exact Hxy.
      + transitivity ws; [apply Permutation_sym; exact (nth_perm P sorter ws Fp Pp)|apply Permutation_rev]. }
  destruct (mark_ok top (repeat 0 (length P))) as (d & Ed & Ld & Sd & D1 & D2).
  { apply (nodup_app_l top (skipn (Z.to_nat e) (rev sorter))). unfold top. rewrite firstn_skipn. apply NoDup_rev. exact (perm_nodup sorter _ Pp). }
  { rewrite repeat_length. apply Forall_forall. intros i Hi. apply Ptop. exact Hi. }
  { intros i Hi. destruct (Ptop i Hi) as (R & _). apply nth_error_repeat. lia. }
  rewrite Ed. cbn [bind]. rewrite repeat_length in Ld.
  assert (Dv : forall i x y, nth_error ns i = Some x -> nth_error d i = Some y -> (y = 0 /\ 0 <= x \/ y = 1 /\ 1 <= x) /\ x <= N).
  { intros i x y Ex Ey. assert (Hi : (i < length P)%nat) by (rewrite <- Ld; apply nth_error_Some; congruence).
    rewrite Forall_forall in Ns0. pose proof (Ns0 x (nth_error_In _ _ Ex)) as X0.
    destruct (nth_error P i) as [p|] eqn:Ep; [|apply nth_error_None in Ep; lia].
    assert (Xc : x = Qceiling (inject_Z N * p)). { unfold ns, xs in Ex. rewrite map_map, nth_error_map, Ep in Ex. cbn in Ex. congruence. }
    split.
    - destruct (in_dec Z.eq_dec (Z.of_nat i) top) as [Hin|Hni].
      + right. pose proof (D1 _ Hin) as E1. rewrite Nat2Z.id in E1. split; [congruence|]. destruct (Ptop _ Hin) as (_ & p' & Ep' & Pos). rewrite Nat2Z.id in Ep'. rewrite Ep in Ep'. injection Ep' as <-.
        apply Hpp in Pos. destruct (ceil_bounds (inject_Z N * p)) as (B1 & _). rewrite <- Xc in B1. assert (0 < inject_Z x)%Q by lra. change 0%Q with (inject_Z 0) in H. rewrite <- Zlt_Qlt in H. lia.
      + left. split; [|exact X0]. rewrite (D2 i Hni) in Ey. rewrite nth_error_repeat in Ey by exact Hi. congruence.
    - rewrite Xc. rewrite Forall_forall in HP. destruct (HP p (nth_error_In _ _ Ep)) as (P0 & P1). rewrite <- (Qceiling_Z N) at 2. apply Qceiling_resp_le. nra. }
  destruct (sub_ok ns d) as (rs & Er & Lr & Hr).
  { rewrite Ld, LP. symmetry. exact Lns. }
  { intros i x y Ex Ey. destruct (Dv i x y Ex Ey). lia. }
  exists rs. split; [exact Er|]. split; [rewrite Lr; exact Lns|]. split.
  { rewrite (zsum_sub ns d rs) by (try exact Hr; lia). rewrite Sd, Ltop. assert (Z0 : zsum (repeat 0 (length P)) = 0) by (clear; induction (length P) as [|m IH]; [reflexivity|]; cbn; exact IH). rewrite Z0. lia. }
  assert (Hnth : forall i c, nth_error rs i = Some c -> exists x y, nth_error ns i = Some x /\ nth_error d i = Some y /\ c = x - y).
  { intros i c Ec. assert (Hi : (i < length rs)%nat) by (apply nth_error_Some; congruence). destruct (nth_error ns i) as [x|] eqn:Ex; [|apply nth_error_None in Ex; lia]. destruct (nth_error d i) as [y|] eqn:Ey; [|apply nth_error_None in Ey; lia].
    exists x, y. split; [reflexivity|]. split; [reflexivity|]. pose proof (Hr i x y Ex Ey). congruence. }
  split.
  { apply Forall_forall. intros c Hc. destruct (In_nth_error _ _ Hc) as (i & Ec). destruct (Hnth i c Ec) as (x & y & Ex & Ey & ->). destruct (Dv i x y Ex Ey). lia. }
  intros i w c Ew Ec. destruct (Hnth i c Ec) as (x & y & Ex & Ey & ->). destruct (Near i w x Ew Ex) as (N1 & N2). destruct (Dv i x y Ex Ey) as (Hy & _).
  unfold Z.sub. rewrite inject_Z_plus, inject_Z_opp. assert (HY : (0 <= inject_Z y /\ inject_Z y <= 1)%Q) by (destruct Hy as [ (-> & _) | (-> & _) ]; split; discriminate). split; lra.
Qed.
