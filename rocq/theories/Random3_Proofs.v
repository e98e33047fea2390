From Coq Require Import List ZArith Bool Lia Permutation Arith Factorial.
From Verif Require Import Prelude PreludeFacts Access_Model Random_Model Random_Spec Random_Proofs Random2_Proofs.
Import ListNotations.
Open Scope Z_scope.

Section Choice.
Context {G : Type} (uniform : Z -> G -> Z * G).

(** Sampling with replacement *)
Lemma choice_replace_gen {V} (storage junk : list V) m n g : in_range uniform -> (1 <= m <= length storage)%nat -> Z.of_nat m < 2 ^ 64 -> length junk = n ->
  exists result g', choice uniform storage (Z.of_nat m) n true junk g = Ok (result, g') /\ length result = n /\ Forall (fun x => In x (firstn m storage)) result.
Proof.
  intros Hu H1 H64 Hj. unfold choice. unfold to_size_t. rewrite Z.mod_small by lia.
  match goal with |- exists result g', for_up ?f _ _ _ = _ /\ _ => destruct (for_up_inv (fun i s => length (fst s) = n /\ forall k x, (k < i)%nat -> nth_error (fst s) k = Some x -> In x (firstn m storage)) f 0 n (junk, g)) as ([result g'] & E & L & H) end.
  - split; [exact Hj|]. intros k x Hk. lia.
  - intros i [r g1] Hi (L & H). cbn in Hi, L, H. pose proof (Hu (Z.of_nat m - 1) g1 ltac:(lia)) as Hd. destruct (uniform (Z.of_nat m - 1) g1) as [d g2]. cbn [fst] in Hd.
    destruct (nth_error storage (Z.to_nat d)) as [x|] eqn:Ex; [|apply nth_error_None in Ex; lia]. rewrite (rdz_ok storage d x) by (try lia; exact Ex). cbn [bind]. rewrite wr_ok by lia. cbn [bind].
    eexists. split; [reflexivity|]. cbn [fst]. split; [rewrite upd_length; exact L|]. intros k y Hk Ey. destruct (Nat.eq_dec k i) as [->|Hn].
    + rewrite nth_error_upd_same in Ey by lia. injection Ey as <-. apply (nth_error_In _ (Z.to_nat d)). rewrite nth_error_firstn by lia. exact Ex.
    + rewrite nth_error_upd_other in Ey by lia. apply (H k y); [lia|exact Ey].
  - exists result, g'. split; [exact E|]. split; [exact L|]. apply Forall_forall. intros x Hx. destruct (In_nth_error _ _ Hx) as (k & Ek). apply (H k x); [|exact Ek]. assert (k < length result)%nat by (apply nth_error_Some; congruence). cbn in L. lia.
Qed.
Lemma choice_view_lemma {V} (storage junk : list V) o m n g : in_range uniform -> NoDup storage -> (1 <= m <= o)%nat -> (o + m <= length storage)%nat -> Z.of_nat m < 2 ^ 64 -> length junk = n ->
  exists result g', choice uniform storage (Z.of_nat m) n true junk g = Ok (result, g') /\ length result = n /\ forall x, In x result -> ~ In x (firstn m (skipn o storage)).
Proof.
  intros Hu Nd Hm Ho H64 Hj. destruct (choice_replace_gen storage junk m n g Hu ltac:(lia) H64 Hj) as (result & g' & E & L & H). exists result, g'. split; [exact E|]. split; [exact L|].
  intros x Hx Hin. rewrite Forall_forall in H. pose proof (H x Hx) as H0. destruct (In_nth_error _ _ H0) as (i & Ei). destruct (In_nth_error _ _ Hin) as (j & Ej).
  assert (Hi : (i < m)%nat). { assert (i < length (firstn m storage))%nat by (apply nth_error_Some; congruence). rewrite firstn_length in *. lia. }
  assert (Hjm : (j < m)%nat). { assert (j < length (firstn m (skipn o storage)))%nat by (apply nth_error_Some; congruence). rewrite firstn_length in *. lia. }
  rewrite nth_error_firstn in Ei by lia. rewrite nth_error_firstn, nth_error_skipn in Ej by lia.
  enough (i = (o + j)%nat) by lia. apply (proj1 (NoDup_nth_error storage) Nd); [apply nth_error_Some; congruence|congruence].
Qed.
Lemma choice_empty_lemma {V} n (junk : list V) g : (1 <= n)%nat -> choice uniform [] 0 n true junk g = UB.
Proof.
  intros Hn. unfold choice. destruct n as [|n]; [lia|]. cbn [for_up]. destruct (uniform (to_size_t (0 - 1)) g) as [k g']. unfold rdz, rd. destruct (k <? 0); [reflexivity|]. destruct (Z.to_nat k); reflexivity.
Qed.

(** Sampling without replacement, as a function *)
Fixpoint pst {V} (data : list V) (n : nat) (g0 : G) (k : nat) : list V * G :=
  match k with
  | O => (firstn n data, g0)
  | S k =>
      let '(r, g) := pst data n g0 k in
      let '(d, g) := uniform (Z.of_nat (n + k)) g in
      (match nth_error data (n + k) with Some x => if d <? Z.of_nat n then upd r (Z.to_nat d) x else r | None => r end, g)
  end.

Lemma pst_length {V} (data : list V) n g0 : (n <= length data)%nat -> forall k, length (fst (pst data n g0 k)) = n.
Proof.
  intros Hn. induction k as [|k IH]; cbn [pst]; [cbn; rewrite firstn_length; lia|]. destruct (pst data n g0 k) as [r g]. destruct (uniform (Z.of_nat (n + k)) g) as [d g']. cbn [fst] in *.
  destruct (nth_error data (n + k)); [|exact IH]. destruct (d <? Z.of_nat n); [rewrite upd_length|]; exact IH.
Qed.

Lemma copy_ok {V} (storage junk : list V) n : (n <= length storage)%nat -> length junk = n ->
  for_up (fun i result => let* x := rd storage i in wr result i x) 0 n junk = Ok (firstn n storage).
Proof.
  intros Hn Hj. destruct (for_up_inv (fun i r => length r = n /\ forall k, (k < i)%nat -> nth_error r k = nth_error storage k) (fun i result => let* x := rd storage i in wr result i x) 0 n junk) as (r & E & L & H).
  - split; [exact Hj|]. intros k Hk. lia.
  - intros i r Hi (L & H). cbn in Hi. destruct (nth_error storage i) as [x|] eqn:Ex; [|apply nth_error_None in Ex; lia]. rewrite (rd_ok _ _ _ Ex). cbn [bind]. rewrite wr_ok by lia.
    eexists. split; [reflexivity|]. split; [rewrite upd_length; exact L|]. intros k Hk. destruct (Nat.eq_dec k i) as [->|Hne]; [rewrite nth_error_upd_same by lia; congruence|]. rewrite nth_error_upd_other by lia. apply H. lia.
  - rewrite E. f_equal. apply nth_error_ext_len; [rewrite firstn_length; lia|]. intros k Hk. rewrite nth_error_firstn by lia. apply H. lia.
Qed.

Lemma choice_ok_gen {V} (data junk : list V) size n g : (forall k, (k < length data - n)%nat -> 0 <= fst (uniform (Z.of_nat (n + k)) (snd (pst data n g k)))) -> (n <= length data)%nat -> length junk = n ->
  choice uniform data size n false junk g = Ok (pst data n g (length data - n)).
Proof.
  intros Hu Hn Hj. unfold choice. replace (length data <? n)%nat with false by (symmetry; apply Nat.ltb_ge; exact Hn). rewrite copy_ok by assumption. cbn [bind].
  match goal with |- for_up ?f _ _ _ = _ => destruct (for_up_inv (fun i s => s = pst data n g (i - n)) f n (length data - n) (firstn n data, g)) as (s & E & H) end.
  - rewrite Nat.sub_diag. reflexivity.
  - intros i [r g1] Hi Es. replace (S i - n)%nat with (S (i - n)) by lia. cbn [pst]. rewrite <- Es. replace (n + (i - n))%nat with i by lia.
    pose proof (Hu (i - n)%nat ltac:(lia)) as Hd. rewrite <- Es in Hd. replace (n + (i - n))%nat with i in Hd by lia. cbn [snd] in Hd. destruct (uniform (Z.of_nat i) g1) as [d g2]. cbn [fst] in Hd.
    destruct (nth_error data i) as [x|] eqn:Ex; [|apply nth_error_None in Ex; lia]. rewrite (rd_ok _ _ _ Ex). cbn [bind].
    assert (Lr : length r = n) by (rewrite <- (pst_length data n g Hn (i - n)), <- Es; reflexivity).
    destruct (Z.ltb_spec d (Z.of_nat n)); [rewrite wrz_ok by lia|]; cbn [bind]; eexists; split; reflexivity.
  - rewrite E, H. f_equal. f_equal. lia.
Qed.

Lemma choice_ok {V} (data junk : list V) size n g : in_range uniform -> (n <= length data)%nat -> length junk = n ->
  choice uniform data size n false junk g = Ok (pst data n g (length data - n)).
Proof. intros Hu. apply choice_ok_gen. intros k Hk. apply Hu. lia. Qed.

Lemma pst_shows {V} (data : list V) n g0 : in_range uniform -> (n <= length data)%nat -> forall k, (n + k <= length data)%nat ->
  shows (fst (pst (upto (length data)) n g0 k)) data (fst (pst data n g0 k)) /\ snd (pst (upto (length data)) n g0 k) = snd (pst data n g0 k) /\
  NoDup (fst (pst (upto (length data)) n g0 k)) /\ Forall (fun p => 0 <= p < Z.of_nat (n + k)) (fst (pst (upto (length data)) n g0 k)).
Proof.
  intros Hu Hn. set (N := length data).
  assert (Ln : length (upto N) = N) by apply upto_length. induction k as [|k IH]; intros Hk.
  - cbn [pst fst snd]. split; [|split; [reflexivity|split]].
    + apply forall2_of_nth; [rewrite !firstn_length; fold N; lia|]. intros i p x Ep Ex.
      assert (Hi : (i < n)%nat). { assert (i < length (firstn n data))%nat by (apply nth_error_Some; congruence). rewrite firstn_length in H. lia. }
      rewrite nth_error_firstn in Ep by lia. rewrite nth_error_firstn in Ex by lia. rewrite upto_nth in Ep by (unfold N; lia). injection Ep as <-. split; [lia|]. rewrite Nat2Z.id. exact Ex.
    + pose proof (upto_nodup N) as Q. rewrite <- (firstn_skipn n (upto N)) in Q. clear - Q. induction (firstn n (upto N)) as [|x l IH]; [constructor|]. cbn in Q. inversion Q as [|? ? H1 H2]; subst. constructor; [intros Hi; apply H1; apply in_or_app; left; exact Hi|exact (IH H2)].
    + apply Forall_forall. intros p Hp. destruct (In_nth_error _ _ Hp) as (i & Ei). assert (Hi : (i < n)%nat). { assert (i < length (firstn n (upto N)))%nat by (apply nth_error_Some; congruence). rewrite firstn_length in H. lia. }
      rewrite nth_error_firstn in Ei by lia. rewrite upto_nth in Ei by lia. injection Ei as <-. lia.
  - destruct (IH ltac:(lia)) as (I1 & I2 & I3 & I4). cbn [pst].
    pose proof (pst_length (upto N) n g0 ltac:(lia) k) as L1. pose proof (pst_length data n g0 Hn k) as L2.
    destruct (pst (upto N) n g0 k) as [r g]. destruct (pst data n g0 k) as [v g']. cbn [fst snd] in *. subst g'.
    pose proof (Hu (Z.of_nat (n + k)) g ltac:(lia)) as Hd. destruct (uniform (Z.of_nat (n + k)) g) as [d g']. cbn [fst snd] in *.
    rewrite upto_nth by lia. destruct (nth_error data (n + k)) as [x|] eqn:Ex; [|apply nth_error_None in Ex; lia].
    destruct (Z.ltb_spec d (Z.of_nat n)) as [Hlt|Hge]; (split; [|split; [reflexivity|split]]).
    + apply forall2_of_nth; [rewrite !upd_length; lia|]. intros i p y Ep Ey. destruct (Nat.eq_dec i (Z.to_nat d)) as [->|Hne].
      * rewrite nth_error_upd_same in Ep by lia. rewrite nth_error_upd_same in Ey by lia. injection Ep as <-. injection Ey as <-. split; [lia|]. rewrite Nat2Z.id. exact Ex.
      * rewrite nth_error_upd_other in Ep by lia. rewrite nth_error_upd_other in Ey by lia. destruct (forall2_nth' _ _ _ I1 i p Ep) as (y' & Ey' & H). replace y with y' by congruence. exact H.
    + apply NoDup_nth_error. intros i j Hi Eij. rewrite upd_length in Hi.
      destruct (Nat.eq_dec i (Z.to_nat d)) as [Ei|Hi']; destruct (Nat.eq_dec j (Z.to_nat d)) as [Ej|Hj'].
      * congruence.
      * exfalso. rewrite Ei in Eij. rewrite nth_error_upd_same in Eij by lia. rewrite nth_error_upd_other in Eij by lia. rewrite Forall_forall in I4. pose proof (I4 (Z.of_nat (n + k)) (nth_error_In r j (eq_sym Eij))). lia.
      * exfalso. rewrite Ej in Eij. rewrite nth_error_upd_same in Eij by lia. rewrite nth_error_upd_other in Eij by lia. rewrite Forall_forall in I4. pose proof (I4 (Z.of_nat (n + k)) (nth_error_In r i Eij)). lia.
      * rewrite !nth_error_upd_other in Eij by lia. apply (proj1 (NoDup_nth_error r) I3); assumption.
    + apply Forall_forall. intros p Hp. destruct (In_nth_error _ _ Hp) as (i & Ei). destruct (Nat.eq_dec i (Z.to_nat d)) as [->|Hne].
      * rewrite nth_error_upd_same in Ei by lia. injection Ei as <-. lia.
      * rewrite nth_error_upd_other in Ei by lia. rewrite Forall_forall in I4. pose proof (I4 p (nth_error_In _ _ Ei)). lia.
    + exact I1.
    + exact I3.
    + eapply Forall_impl; [|exact I4]. cbn. intros p Hp. lia.
Qed.

Lemma choice_distinct_lemma {V} (data junk : list V) size n g : in_range uniform -> (n <= length data)%nat -> length junk = n ->
  exists result idx g', choice uniform data size n false junk g = Ok (result, g') /\ length result = n /\
    NoDup idx /\ Forall (fun p => 0 <= p < Z.of_nat (length data)) idx /\ shows idx data result.
Proof.
  intros Hu Hn Hj. rewrite choice_ok by assumption. destruct (pst_shows data n g Hu Hn (length data - n) ltac:(lia)) as (H1 & H2 & H3 & H4).
  exists (fst (pst data n g (length data - n))), (fst (pst (upto (length data)) n g (length data - n))), (snd (pst data n g (length data - n))).
  split; [rewrite <- surjective_pairing; reflexivity|]. split; [apply pst_length; exact Hn|]. split; [exact H3|]. split; [|exact H1].
  replace (n + (length data - n))%nat with (length data) in H4 by lia. exact H4.
Qed.
End Choice.

(** Counting the draws that give a sample *)
Fixpoint sum_over {X} (f : X -> nat) (l : list X) : nat := match l with [] => 0 | x :: l => f x + sum_over f l end.
Definition count {X} (p : X -> bool) (l : list X) : nat := length (filter p l).
Definition b2n (b : bool) : nat := if b then 1 else 0.

Lemma count_sum {X} (p : X -> bool) l : count p l = sum_over (fun x => b2n (p x)) l.
Proof. unfold count. induction l as [|x l IH]; cbn [filter sum_over]; [reflexivity|]. destruct (p x); cbn [length b2n]; lia. Qed.
Lemma sum_ext {X} (f h : X -> nat) l : (forall x, In x l -> f x = h x) -> sum_over f l = sum_over h l.
Proof. induction l as [|x l IH]; intros H; cbn [sum_over]; [reflexivity|]. rewrite (H x) by (left; reflexivity). rewrite IH by (intros; apply H; right; assumption). reflexivity. Qed.
Lemma sum_swap {X Y} (f : X -> Y -> nat) l m : sum_over (fun x => sum_over (f x) m) l = sum_over (fun y => sum_over (fun x => f x y) l) m.
Proof.
  induction l as [|x l IH]; cbn [sum_over]; [induction m as [|y m IHm]; cbn [sum_over]; lia|]. rewrite IH. clear IH. induction m as [|y m IHm]; cbn [sum_over]; [reflexivity|]. lia.
Qed.
Lemma sum_const {X} c (l : list X) : sum_over (fun _ => c) l = (length l * c)%nat.
Proof. induction l as [|x l IH]; cbn [sum_over length]; lia. Qed.
Lemma sum_scale {X} c (f : X -> nat) (l : list X) : sum_over (fun x => (c * f x)%nat) l = (c * sum_over f l)%nat.
Proof. induction l as [|x l IH]; cbn [sum_over]; lia. Qed.
Lemma count_app {X} (p : X -> bool) l m : count p (l ++ m) = (count p l + count p m)%nat.
Proof. unfold count. rewrite filter_app, app_length. reflexivity. Qed.
Lemma count_flat {X Y} (p : Y -> bool) (f : X -> list Y) l : count p (flat_map f l) = sum_over (fun x => count p (f x)) l.
Proof. induction l as [|x l IH]; cbn [flat_map sum_over]; [reflexivity|]. rewrite count_app, IH. reflexivity. Qed.
Lemma count_map {X Y} (p : Y -> bool) (f : X -> Y) l : count p (map f l) = count (fun x => p (f x)) l.
Proof. unfold count. induction l as [|x l IH]; cbn [map filter]; [reflexivity|]. destruct (p (f x)); cbn [length]; lia. Qed.
Lemma count_zero {X} (p : X -> bool) l : (forall x, In x l -> p x = false) -> count p l = 0%nat.
Proof. unfold count. induction l as [|x l IH]; intros H; cbn [filter]; [reflexivity|]. rewrite (H x) by (left; reflexivity). apply IH. intros; apply H; right; assumption. Qed.
Lemma count_all {X} (p : X -> bool) l : (forall x, In x l -> p x = true) -> count p l = length l.
Proof. unfold count. induction l as [|x l IH]; intros H; cbn [filter length]; [reflexivity|]. rewrite (H x) by (left; reflexivity). cbn [length]. rewrite IH by (intros; apply H; right; assumption). reflexivity. Qed.
Lemma count_one {X} (p : X -> bool) l x : NoDup l -> In x l -> p x = true -> (forall y, In y l -> p y = true -> y = x) -> count p l = 1%nat.
Proof.
  induction l as [|z l IH]; intros Nd Hx Px H; [contradiction|]. inversion Nd as [|? ? Hn Nd']; subst. unfold count. cbn [filter]. destruct Hx as [ -> | Hx ].
  - rewrite Px. cbn [length]. f_equal. apply count_zero. intros y Hy. destruct (p y) eqn:E; [|reflexivity]. exfalso. apply Hn. rewrite <- (H y (or_intror Hy) E). exact Hy.
  - destruct (p z) eqn:E; [exfalso; apply Hn; rewrite (H z (or_introl eq_refl) E); exact Hx|]. apply IH; try assumption. intros y Hy. apply H. right. exact Hy.
Qed.

Lemma same_spec l l' : same_elements l l' = true <-> incl l l' /\ incl l' l.
Proof.
  unfold same_elements. rewrite andb_true_iff, !forallb_forall. unfold incl. split; intros [H1 H2]; split; intros x Hx.
  - apply H1 in Hx. apply existsb_exists in Hx. destruct Hx as (y & Hy & E). apply Z.eqb_eq in E. subst. exact Hy.
  - apply H2 in Hx. apply existsb_exists in Hx. destruct Hx as (y & Hy & E). apply Z.eqb_eq in E. subst. exact Hy.
  - apply existsb_exists. exists x. split; [apply H1; exact Hx|apply Z.eqb_refl].
  - apply existsb_exists. exists x. split; [apply H2; exact Hx|apply Z.eqb_refl].
Qed.

(** The sample after the draws [ds] *)
Definition picked (data : list Z) (n : nat) (ds : list (Z * Z)) : list Z :=
  fst (fold_left (fun '(r, i) '((_, d) : Z * Z) => (match nth_error data i with Some x => if d <? Z.of_nat n then upd r (Z.to_nat d) x else r | None => r end, S i)) ds (firstn n data, n)).
Lemma picked_pos data n ds : forall r i, snd (fold_left (fun '(r, i) '((_, d) : Z * Z) => (match nth_error (data : list Z) i with Some x => if d <? Z.of_nat n then upd r (Z.to_nat d) x else r | None => r end, S i)) ds (r, i)) = (i + length ds)%nat.
Proof. induction ds as [|[b d] ds IH]; intros r i; cbn [fold_left length]; [cbn; lia|]. rewrite IH. lia. Qed.
Lemma picked_snoc data n ds b d x : nth_error data (n + length ds) = Some x ->
  picked data n (ds ++ [(b, d)]) = if d <? Z.of_nat n then upd (picked data n ds) (Z.to_nat d) x else picked data n ds.
Proof.
  intros Ex. unfold picked. rewrite fold_left_app. cbn [fold_left]. pose proof (picked_pos data n ds (firstn n data) n) as P. destruct (fold_left _ ds (firstn n data, n)) as [r i]. cbn [snd] in P. subst i. rewrite Ex. reflexivity.
Qed.

Lemma draws_length n : forall k ds, In ds (all_draws n k) -> length ds = k /\ forall i b d, nth_error ds i = Some (b, d) -> b = Z.of_nat (n + i) /\ 0 <= d <= b.
Proof.
  induction k as [|k IH]; intros ds Hd; cbn [all_draws] in Hd; [destruct Hd as [ <- | [] ]; split; [reflexivity|intros [|i] b d E; discriminate]|].
  apply in_flat_map in Hd. destruct Hd as (ds' & Hd' & Hd). apply in_map_iff in Hd. destruct Hd as (d & <- & Hd). apply in_seq in Hd. destruct (IH ds' Hd') as (L & H). split; [rewrite app_length; cbn; lia|].
  intros i b e E. destruct (Nat.lt_ge_cases i (length ds')) as [Hi|Hi].
  - rewrite nth_error_app1 in E by exact Hi. exact (H i b e E).
  - rewrite nth_error_app2 in E by exact Hi. destruct (i - length ds')%nat as [|j] eqn:Ej; [|destruct j; discriminate]. cbn in E. injection E as <- <-. split; [f_equal; lia|lia].
Qed.

Lemma scripted_pst (data : list Z) n ds : (forall i b d, nth_error ds i = Some (b, d) -> b = Z.of_nat (n + i)) -> forall k, (k <= length ds)%nat -> (n + k <= length data)%nat -> pst scripted data n ds k = (picked data n (firstn k ds), skipn k ds).
Proof.
  intros Hb. induction k as [|k IH]; intros Hk Hn; [reflexivity|]. cbn [pst]. rewrite IH by lia.
  destruct (skipn k ds) as [|[b d] rest] eqn:Ek. { assert (length (skipn k ds) = 0%nat) by (rewrite Ek; reflexivity). rewrite skipn_length in H. lia. }
  cbn [scripted]. assert (Ed : nth_error ds k = Some (b, d)). { rewrite <- (firstn_skipn k ds), Ek. rewrite nth_error_app2 by (rewrite firstn_length; lia). rewrite firstn_length. replace (k - Nat.min k (length ds))%nat with 0%nat by lia. reflexivity. }
  rewrite (Hb k b d Ed), Z.eqb_refl. assert (Ef : firstn (S k) ds = firstn k ds ++ [(b, d)]). { clear - Ed. revert k Ed. induction ds as [|e ds IH]; intros [|k] Ed; cbn in *; try discriminate; [injection Ed as ->; reflexivity|]. f_equal. exact (IH k Ed). }
  destruct (nth_error data (n + k)) as [x|] eqn:Ex; [|apply nth_error_None in Ex; lia].
  rewrite Ef. rewrite (picked_snoc data n (firstn k ds) b d x) by (rewrite firstn_length; replace (Nat.min k (length ds)) with k by lia; exact Ex). f_equal.
  clear - Ek. revert k Ek. induction ds as [|e ds IH]; intros [|k] Ek; try discriminate; [cbn in Ek; injection Ek as -> ->; reflexivity|]. cbn [skipn] in Ek. exact (IH k Ek).
Qed.

Lemma filter_out_length (t : list Z) : forall m, NoDup t -> NoDup m -> incl t m -> (length (filter (fun y => negb (existsb (Z.eqb y) t)) m) + length t = length m)%nat.
Proof.
  induction t as [|z t IHt]; intros m Nt' Nm It.
  - rewrite (proj2 (filter_ext_in_iff _ (fun _ => true) m)) by (intros; reflexivity). cbn [length]. clear. induction m; cbn; [reflexivity|]. lia.
  - inversion Nt' as [|? ? Hz Nt'']; subst. assert (Hzm : In z m) by (apply It; left; reflexivity). destruct (in_split z m Hzm) as (m1 & m2 & ->).
                 assert (Pm : Permutation (m1 ++ z :: m2) (z :: (m1 ++ m2))) by (symmetry; apply Permutation_middle). pose proof (Permutation_NoDup Pm Nm) as Nm'. inversion Nm' as [|? ? Hzz Nmm]; subst.
                 assert (E : filter (fun y => negb (existsb (Z.eqb y) (z :: t))) (m1 ++ z :: m2) = filter (fun y => negb (existsb (Z.eqb y) t)) (m1 ++ m2)).
                 { rewrite !filter_app. cbn [filter]. replace (negb (existsb (Z.eqb z) (z :: t))) with false by (cbn; rewrite Z.eqb_refl; reflexivity).
                   f_equal; apply filter_ext_in; intros y Hy; cbn; (destruct (Z.eqb_spec y z) as [->|]; [exfalso; apply Hzz; apply in_or_app; auto|reflexivity]). }
                 rewrite E. cbn [length]. rewrite (Permutation_length Pm). cbn [length]. rewrite <- (IHt (m1 ++ m2) Nt'' Nmm); [lia|].
                 intros w Hw. assert (Hw' : In w (m1 ++ z :: m2)) by (apply It; right; exact Hw). apply (Permutation_in _ Pm) in Hw'. destruct Hw' as [ <- | Hw' ]; [contradiction|exact Hw']. 
Qed.

Section Count.
Context (data : list Z) (n : nat).
Hypothesis Nd : NoDup data.
Hypothesis Hn : (n <= length data)%nat.

Lemma firstn_S_nth {X} (l : list X) : forall k x, nth_error l k = Some x -> firstn (S k) l = firstn k l ++ [x].
Proof. induction l as [|e l IH]; intros [|k] x E; cbn in *; try discriminate; [injection E as ->; reflexivity|]. f_equal. exact (IH k x E). Qed.
Lemma nodup_firstn {X} (l : list X) : NoDup l -> forall k, NoDup (firstn k l).
Proof. intros H k. rewrite <- (firstn_skipn k l) in H. clear - H. induction (firstn k l) as [|x m IH]; [constructor|]. cbn in H. inversion H as [|? ? H1 H2]; subst. constructor; [intros Hi; apply H1; apply in_or_app; left; exact Hi|exact (IH H2)]. Qed.

Lemma picked_ok : forall k ds, (n + k <= length data)%nat -> In ds (all_draws n k) ->
  length (picked data n ds) = n /\ NoDup (picked data n ds) /\ incl (picked data n ds) (firstn (n + k) data).
Proof.
  induction k as [|k IH]; intros ds Hk Hd.
  - cbn in Hd. destruct Hd as [ <- | [] ]. unfold picked. cbn. rewrite firstn_length. split; [lia|]. split; [apply nodup_firstn; exact Nd|]. rewrite Nat.add_0_r. apply incl_refl.
  - cbn [all_draws] in Hd. apply in_flat_map in Hd. destruct Hd as (ds' & Hd' & Hd). apply in_map_iff in Hd. destruct Hd as (d & <- & Hd). apply in_seq in Hd.
    destruct (IH ds' ltac:(lia) Hd') as (L & D & I). destruct (draws_length n k ds' Hd') as (Lk & _).
    destruct (nth_error data (n + k)) as [x|] eqn:Ex; [|apply nth_error_None in Ex; lia].
    rewrite (picked_snoc data n ds' _ (Z.of_nat d) x) by (rewrite Lk; exact Ex).
    replace (n + S k)%nat with (S (n + k)) by lia. rewrite (firstn_S_nth data (n + k) x Ex).
    assert (Hx : ~ In x (firstn (n + k) data)). { pose proof (nodup_firstn data Nd (S (n + k))) as Q. rewrite (firstn_S_nth data (n + k) x Ex) in Q. apply NoDup_remove_2 in Q. rewrite app_nil_r in Q. exact Q. }
    destruct (Z.ltb_spec (Z.of_nat d) (Z.of_nat n)) as [Hlt|Hge].
    + rewrite Nat2Z.id. split; [rewrite upd_length; exact L|]. split.
      * apply NoDup_nth_error. intros i j Hi Eij. rewrite upd_length in Hi.
        destruct (Nat.eq_dec i d) as [Ei|Hi']; destruct (Nat.eq_dec j d) as [Ej|Hj'].
        -- congruence.
        -- exfalso. rewrite Ei in Eij. rewrite nth_error_upd_same in Eij by lia. rewrite nth_error_upd_other in Eij by lia. apply Hx. apply I. exact (nth_error_In _ j (eq_sym Eij)).
        -- exfalso. rewrite Ej in Eij. rewrite nth_error_upd_same in Eij by lia. rewrite nth_error_upd_other in Eij by lia. apply Hx. apply I. exact (nth_error_In _ i Eij).
        -- rewrite !nth_error_upd_other in Eij by lia. apply (proj1 (NoDup_nth_error (picked data n ds')) D); assumption.
      * intros y Hy. destruct (In_nth_error _ _ Hy) as (i & Ei). destruct (Nat.eq_dec i d) as [->|Hne].
        -- rewrite nth_error_upd_same in Ei by lia. injection Ei as <-. apply in_or_app. right. left. reflexivity.
        -- rewrite nth_error_upd_other in Ei by lia. apply in_or_app. left. apply I. exact (nth_error_In _ _ Ei).
    + split; [exact L|]. split; [exact D|]. intros y Hy. apply in_or_app. left. apply I. exact Hy.
Qed.

Lemma incl_decide (l m : list Z) : incl l m \/ ~ incl l m.
Proof.
  induction l as [|x l IH]; [left; intros z []|]. destruct (in_dec Z.eq_dec x m) as [Hx|Hx]; [|right; intros H; apply Hx; apply H; left; reflexivity].
  destruct IH as [H|H]; [left; intros z [ <- | Hz ]; [exact Hx|exact (H z Hz)]|right; intros Q; apply H; intros z Hz; apply Q; right; exact Hz].
Qed.

(** Replacing the element number d of [r] by x gives the set [x :: s] *)
Lemma one_slot r s x m : NoDup r -> length r = n -> NoDup (x :: s) -> length (x :: s) = n -> ~ In x r -> NoDup m -> incl r m -> 
  count (fun d => same_elements (upd r d x) (x :: s)) (seq 0 n) = count (fun y => same_elements r (y :: s)) (filter (fun y => negb (existsb (Z.eqb y) s)) m).
Proof.
  intros Nr Lr Ns Ls Hx Nm Im. inversion Ns as [|? ? Hxs Ns']; subst. cbn [length] in Ls.
  assert (Nf : NoDup (filter (fun y => negb (existsb (Z.eqb y) s)) m)) by (apply NoDup_filter; exact Nm).
  assert (Inf : forall y, In y (filter (fun y => negb (existsb (Z.eqb y) s)) m) <-> In y m /\ ~ In y s).
  { intros y. rewrite filter_In, negb_true_iff. split; intros [H1 H2]; (split; [exact H1|]).
    - intros Hy. apply (Bool.not_true_iff_false (existsb (Z.eqb y) s)); [exact H2|]. apply existsb_exists. exists y. split; [exact Hy|apply Z.eqb_refl].
    - destruct (existsb (Z.eqb y) s) eqn:E; [|reflexivity]. apply existsb_exists in E. destruct E as (z & Hz & E). apply Z.eqb_eq in E. subst z. contradiction. }
  assert (Up : forall d y, nth_error r d = Some y -> forall z, In z (upd r d x) <-> z = x \/ (In z r /\ z <> y)).
  { intros d y Ed z. assert (Hd : (d < length r)%nat) by (apply nth_error_Some; congruence). split.
    - intros Hz. destruct (In_nth_error _ _ Hz) as (i & Ei). destruct (Nat.eq_dec i d) as [->|Hne]; [rewrite nth_error_upd_same in Ei by lia; left; congruence|]. rewrite nth_error_upd_other in Ei by lia. right. split; [exact (nth_error_In _ _ Ei)|]. intros ->. apply Hne. apply (proj1 (NoDup_nth_error r) Nr); [apply nth_error_Some; congruence|congruence].
    - intros [ -> | (Hz & Hzy) ]; [apply (nth_error_In _ d); apply nth_error_upd_same; lia|]. destruct (In_nth_error _ _ Hz) as (i & Ei). apply (nth_error_In _ i). rewrite nth_error_upd_other; [exact Ei|]. congruence. }
  destruct (incl_decide s r) as [Hsr|Hsr].
  - (* exactly one element of r is not in s *)
    assert (Ex : exists y, In y r /\ ~ In y s).
    { destruct (incl_decide r s) as [Hrs|Hrs].
      - exfalso. pose proof (NoDup_incl_length Nr Hrs). lia.
      - clear - Hrs. induction r as [|y r IH]; [exfalso; apply Hrs; intros z []|]. destruct (in_dec Z.eq_dec y s) as [Hy|Hy]; [|exists y; split; [left; reflexivity|exact Hy]].
        destruct IH as (z & Hz & Hzs); [intros Hi; apply Hrs; intros w [ <- | Hw ]; [exact Hy|exact (Hi w Hw)]|]. exists z. split; [right; exact Hz|exact Hzs]. }
    destruct Ex as (y & Hyr & Hys).
    assert (Iys : incl r (y :: s)). { apply NoDup_length_incl; [constructor; assumption|cbn; lia|]. intros z [ <- | Hz ]; [exact Hyr|exact (Hsr z Hz)]. }
    destruct (In_nth_error _ _ Hyr) as (d & Ed). assert (Hd : (d < length r)%nat) by (apply nth_error_Some; congruence).
    rewrite (count_one _ (seq 0 (length r)) d); [|apply seq_NoDup|apply in_seq; lia| |].
    + symmetry. apply (count_one _ _ y); [exact Nf|apply Inf; split; [apply Im; exact Hyr|exact Hys]| |].
      * apply same_spec. split; [exact Iys|]. intros z [ <- | Hz ]; [exact Hyr|exact (Hsr z Hz)].
      * intros z Hz Ez. apply same_spec in Ez. destruct Ez as (E1 & E2). apply Inf in Hz. assert (Hyz : In y (z :: s)) by (apply E1; exact Hyr). destruct Hyz as [->|Hyz]; [reflexivity|contradiction].
    + apply same_spec. split; intros z Hz.
      * apply (Up d y Ed) in Hz. destruct Hz as [ -> | (Hz & Hzy) ]; [left; reflexivity|]. right. apply Iys in Hz. destruct Hz as [ <- | Hz ]; [congruence|exact Hz].
      * apply (Up d y Ed). destruct Hz as [ <- | Hz ]; [left; reflexivity|]. right. split; [apply Hsr; exact Hz|]. intros ->. contradiction.
    + intros e He Ee. apply in_seq in He. apply same_spec in Ee. destruct Ee as (E1 & E2).
      destruct (nth_error r e) as [w|] eqn:Ew; [|apply nth_error_None in Ew; lia].
      destruct (Nat.eq_dec e d) as [|Hne]; [assumption|]. exfalso.
      assert (Hy' : In y (upd r e x)) by (apply (Up e w Ew); right; split; [exact Hyr|]; intros ->; apply Hne; apply (proj1 (NoDup_nth_error r) Nr); [lia|congruence]).
      apply E1 in Hy'. destruct Hy' as [ -> | Hy' ]; contradiction.
  - rewrite !count_zero; [reflexivity| |].
    + intros z Hz. destruct (same_elements r (z :: s)) eqn:E; [|reflexivity]. exfalso. apply same_spec in E. apply Hsr. intros w Hw. apply E. right. exact Hw.
    + intros d Hd. apply in_seq in Hd. destruct (same_elements (upd r d x) (x :: s)) eqn:E; [|reflexivity]. exfalso. apply same_spec in E. apply Hsr. intros w Hw.
      destruct (nth_error r d) as [y|] eqn:Ey; [|apply nth_error_None in Ey; lia]. assert (Hw' : In w (upd r d x)) by (apply E; right; exact Hw). apply (Up d y Ey) in Hw'. destruct Hw' as [->|(Hw' & _)]; [contradiction|exact Hw'].
Qed.

Lemma same_perm r s s' : Permutation s s' -> same_elements r s = same_elements r s'.
Proof.
  intros P. destruct (same_elements r s) eqn:E; symmetry.
  - apply same_spec in E. destruct E as (E1 & E2). apply same_spec. split; intros z Hz; [apply (Permutation_in _ P); apply E1; exact Hz|apply E2; apply (Permutation_in _ (Permutation_sym P)); exact Hz].
  - destruct (same_elements r s') eqn:E'; [|reflexivity]. apply same_spec in E'. destruct E' as (E1 & E2). rewrite <- E. symmetry. apply same_spec. split; intros z Hz; [apply (Permutation_in _ (Permutation_sym P)); apply E1; exact Hz|apply E2; apply (Permutation_in _ P); exact Hz].
Qed.

Lemma split_seq k : seq 0 (S (n + k)) = seq 0 n ++ seq n (S k).
Proof. replace (S (n + k)) with (n + S k)%nat by lia. apply seq_app. Qed.

Theorem count_picked : forall k s, (n + k <= length data)%nat -> NoDup s -> length s = n -> incl s (firstn (n + k) data) ->
  count (fun ds => same_elements (picked data n ds) s) (all_draws n k) = fact k.
Proof.
  induction k as [|k IH]; intros s Hk Ns Ls Is.
  - cbn [all_draws]. unfold count. cbn [filter]. replace (same_elements (picked data n []) s) with true; [reflexivity|]. symmetry. apply same_spec.
    rewrite Nat.add_0_r in Is. unfold picked. cbn [fold_left fst]. split; [|exact Is]. apply NoDup_length_incl; [exact Ns|rewrite firstn_length; lia|exact Is].
  - destruct (nth_error data (n + k)) as [x|] eqn:Ex; [|apply nth_error_None in Ex; lia].
    assert (Hx : ~ In x (firstn (n + k) data)). { pose proof (nodup_firstn data Nd (S (n + k))) as Q. rewrite (firstn_S_nth data (n + k) x Ex) in Q. apply NoDup_remove_2 in Q. rewrite app_nil_r in Q. exact Q. }
    replace (n + S k)%nat with (S (n + k)) in Is by lia. rewrite (firstn_S_nth data (n + k) x Ex) in Is.
    cbn [all_draws]. rewrite count_flat.
    assert (Step : forall ds d, In ds (all_draws n k) -> picked data n (ds ++ [(Z.of_nat (n + k), Z.of_nat d)]) = if (d <? n)%nat then upd (picked data n ds) d x else picked data n ds).
    { intros ds d Hds. destruct (draws_length n k ds Hds) as (Lk & _). rewrite (picked_snoc data n ds _ (Z.of_nat d) x) by (rewrite Lk; exact Ex). rewrite Nat2Z.id.
      destruct (Z.ltb_spec (Z.of_nat d) (Z.of_nat n)), (Nat.ltb_spec d n); try lia; reflexivity. }
    destruct (in_dec Z.eq_dec x s) as [Hxs|Hxs].
    + destruct (in_split x s Hxs) as (s1 & s2 & ->). set (t := s1 ++ s2). assert (P : Permutation (s1 ++ x :: s2) (x :: t)) by (symmetry; apply Permutation_middle).
      pose proof (Permutation_NoDup P Ns) as Nt. rewrite (Permutation_length P) in Ls. destruct (proj1 (NoDup_cons_iff x t) Nt) as (Hxt & Nt').
      set (m := firstn (n + k) data) in *. assert (Nm : NoDup m) by (apply nodup_firstn; exact Nd). assert (Lm : length m = (n + k)%nat) by (unfold m; rewrite firstn_length; lia).
      assert (It : incl t m). { intros z Hz. assert (Hz' : In z (s1 ++ x :: s2)) by (apply (Permutation_in _ (Permutation_sym P)); right; exact Hz). apply Is in Hz'. apply in_app_or in Hz'. destruct Hz' as [Hz'|[ <- | [] ]]; [exact Hz'|contradiction]. }
      set (cand := filter (fun y => negb (existsb (Z.eqb y) t)) m).
      rewrite (sum_ext _ (fun ds => sum_over (fun y => b2n (same_elements (picked data n ds) (y :: t))) cand)).
      * rewrite sum_swap. rewrite (sum_ext _ (fun _ => fact k)).
        -- rewrite sum_const. assert (Lc : length cand = S k).
           { assert (Q : (length cand + length t = length m)%nat).
             { unfold cand. apply filter_out_length; assumption. }
             cbn [length] in Ls. lia. }
           rewrite Lc. reflexivity.
        -- intros y Hy. unfold cand in Hy. apply filter_In in Hy. destruct Hy as (Hym & Hyt). rewrite <- count_sum. apply (IH (y :: t)); [lia| | |].
           ++ constructor; [|exact Nt']. intros Hi. apply negb_true_iff in Hyt. assert (existsb (Z.eqb y) t = true) by (apply existsb_exists; exists y; split; [exact Hi|apply Z.eqb_refl]). congruence.
           ++ cbn [length] in *. lia.
           ++ intros z [ <- | Hz ]; [exact Hym|exact (It z Hz)].
      * intros ds Hds. destruct (picked_ok k ds ltac:(lia) Hds) as (Lp & Np & Ip). rewrite count_map, split_seq, count_app.
        rewrite <- count_sum. assert (Z0 : count (fun d => same_elements (picked data n (ds ++ [(Z.of_nat (n + k), Z.of_nat d)])) (s1 ++ x :: s2)) (seq n (S k)) = 0%nat).
        { apply count_zero. intros d Hd. apply in_seq in Hd. rewrite Step by exact Hds. replace (d <? n)%nat with false by (symmetry; apply Nat.ltb_ge; lia).
          destruct (same_elements _ _) eqn:E; [|reflexivity]. apply same_spec in E. exfalso. apply Hx. apply Ip. apply E. apply in_or_app. right. left. reflexivity. }
        rewrite Z0, Nat.add_0_r. assert (Hxp : ~ In x (picked data n ds)) by (intros Hi; apply Hx; apply Ip; exact Hi).
        transitivity (count (fun d => same_elements (upd (picked data n ds) d x) (x :: t)) (seq 0 n)); [|exact (one_slot (picked data n ds) t x m Np Lp Nt Ls Hxp Nm Ip)].
        rewrite !count_sum. apply sum_ext. intros d Hd. apply in_seq in Hd. rewrite Step by exact Hds. replace (d <? n)%nat with true by (symmetry; apply Nat.ltb_lt; lia). f_equal. apply same_perm. exact P.
    + assert (Is' : incl s (firstn (n + k) data)). { intros z Hz. pose proof (Is z Hz) as Q. apply in_app_or in Q. destruct Q as [Q|[ <- | [] ]]; [exact Q|contradiction]. }
      rewrite (sum_ext _ (fun ds => (S k * b2n (same_elements (picked data n ds) s))%nat)).
      * rewrite sum_scale, <- count_sum, IH by (try assumption; lia). cbn [fact]. lia.
      * intros ds Hds. rewrite count_map, split_seq, count_app. destruct (picked_ok k ds ltac:(lia) Hds) as (Lp & Np & Ip).
        rewrite count_zero.
        -- rewrite Nat.add_0_l. destruct (same_elements (picked data n ds) s) eqn:E.
           ++ rewrite count_all; [rewrite seq_length; cbn; lia|]. intros d Hd. apply in_seq in Hd. rewrite Step by exact Hds. replace (d <? n)%nat with false by (symmetry; apply Nat.ltb_ge; lia). exact E.
           ++ rewrite count_zero; [cbn; lia|]. intros d Hd. apply in_seq in Hd. rewrite Step by exact Hds. replace (d <? n)%nat with false by (symmetry; apply Nat.ltb_ge; lia). exact E.
        -- intros d Hd. apply in_seq in Hd. rewrite Step by exact Hds. replace (d <? n)%nat with true by (symmetry; apply Nat.ltb_lt; lia).
           destruct (same_elements _ _) eqn:E; [|reflexivity]. apply same_spec in E. exfalso. apply Hxs. apply E. apply (nth_error_In _ d). apply nth_error_upd_same. lia.
Qed.
End Count.

Lemma choice_uniform_lemma (data junk s : list Z) n : NoDup data -> (n <= length data)%nat -> length junk = n -> NoDup s -> length s = n -> incl s data ->
  length (filter (fun ds => match choice scripted data (Z.of_nat (length data)) n false junk ds with Ok (r, _) => same_elements r s | _ => false end) (all_draws n (length data - n))) = fact (length data - n).
Proof.
  intros Nd Hn Hj Ns Ls Is. rewrite <- (count_picked data n Nd Hn (length data - n) s); [|lia|exact Ns|exact Ls|replace (n + (length data - n))%nat with (length data) by lia; rewrite firstn_all; exact Is].
  change (count (fun ds => match choice scripted data (Z.of_nat (length data)) n false junk ds with Ok (r, _) => same_elements r s | _ => false end) (all_draws n (length data - n)) = count (fun ds => same_elements (picked data n ds) s) (all_draws n (length data - n))).
  rewrite !count_sum. apply sum_ext. intros ds Hds. destruct (draws_length n _ ds Hds) as (Lk & Hd). f_equal.
  rewrite choice_ok_gen; try assumption.
  - rewrite scripted_pst by (try lia; intros i b d E; exact (proj1 (Hd i b d E))). rewrite firstn_all2 by lia. reflexivity.
  - intros k Hk. rewrite scripted_pst by (try lia; intros i b d E; exact (proj1 (Hd i b d E))). cbn [snd]. destruct (skipn k ds) as [|[b d] rest] eqn:Ek. { assert (length (skipn k ds) = 0%nat) by (rewrite Ek; reflexivity). rewrite skipn_length in H. lia. } cbn [scripted fst].
    assert (Ed : nth_error ds k = Some (b, d)). { rewrite <- (firstn_skipn k ds), Ek. rewrite nth_error_app2 by (rewrite firstn_length; lia). rewrite firstn_length. replace (k - Nat.min k (length ds))%nat with 0%nat by lia. reflexivity. }
    destruct (Hd k b d Ed) as (-> & H). rewrite Z.eqb_refl. lia.
Qed.

Lemma choice_replace_lemma {G V} (uniform : Z -> G -> Z * G) (data junk : list V) n g : in_range uniform -> (1 <= length data)%nat -> Z.of_nat (length data) < 2 ^ 64 -> length junk = n ->
  exists result g', choice uniform data (Z.of_nat (length data)) n true junk g = Ok (result, g') /\ length result = n /\ Forall (fun x => In x data) result.
Proof.
  intros Hu H1 H64 Hj. destruct (choice_replace_gen uniform data junk (length data) n g Hu ltac:(lia) H64 Hj) as (r & g' & E & L & H). rewrite firstn_all in H. exists r, g'. auto.
Qed.
