(** Immediate reduction: the loops, over flat positions. *)
From Coq Require Import List ZArith Lia Bool.
From Verif Require Import Prelude PreludeFacts Strides_Model Strides_Spec Reduce_Model Reduce_Spec.
Import ListNotations.
Open Scope Z_scope.

Lemma rdz_nat {A} (l : list A) n a : nth_error l n = Some a -> rdz l (Z.of_nat n) = Ok a.
Proof. intros H. apply rdz_ok; [lia|]. rewrite Nat2Z.id. exact H. Qed.
Lemma wrz_nat {A} (l : list A) n v : (n < length l)%nat -> wrz l (Z.of_nat n) v = Ok (upd l n v).
Proof. intros H. rewrite wrz_ok by lia. rewrite Nat2Z.id. reflexivity. Qed.
Lemma nth_error_some_lt {A} (l : list A) n : (n < length l)%nat -> exists a, nth_error l n = Some a.
Proof. intros H. destruct (nth_error l n) eqn:E; [eauto|]. apply nth_error_None in E. lia. Qed.

Section Loop.
Context {T R : Type} (f : rfun T R) (data : list T) (D : nat -> T) (inner outer U C : nat) (tau : nat -> nat).
Hypothesis HD : forall m, (m < length data)%nat -> nth_error data m = Some (D m).
Hypothesis Hlen : length data = (C * outer * inner)%nat.
Hypothesis Ho : (0 < outer)%nat.
Hypothesis Hi : (0 < inner)%nat.
Hypothesis Htau : forall n, (n < C)%nat -> (tau n < U)%nat.

Lemma accumulate_ok p n v : (p + n <= length data)%nat ->
  accumulate f data (Z.of_nat p) n v = Ok (fold_left (rf_reduce f) (map D (seq p n)) v).
Proof.
  intros H. unfold accumulate.
  destruct (for_up_inv (fun i a => a = fold_left (rf_reduce f) (map D (seq p i)) v)
    (fun k v => let* x := rdz data (Z.of_nat p + Z.of_nat k) in Ok (rf_reduce f v x)) 0 n v) as (w & E & ->).
  - reflexivity.
  - intros i a Hb ->. rewrite <- Nat2Z.inj_add, (rdz_nat data (p + i) (D (p + i))) by (apply HD; lia). cbn [bind].
    eexists. split; [reflexivity|]. rewrite seq_S, map_app, fold_left_app. reflexivity.
  - rewrite E. reflexivity.
Qed.

Lemma transform_ok g p q n (out : list R) : (p + n <= length data)%nat -> (q + n <= length out)%nat ->
  exists out', transform_at g data (Z.of_nat p) n (Z.of_nat q) out = Ok out' /\ length out' = length out /\
    (forall b v, (b < n)%nat -> nth_error out (q + b) = Some v -> nth_error out' (q + b) = Some (g v (D (p + b)%nat))) /\
    (forall k, (k < q \/ q + n <= k)%nat -> nth_error out' k = nth_error out k).
Proof.
  intros H1 H2. unfold transform_at.
  destruct (for_up_inv (fun i out' => length out' = length out /\
    (forall b v, (b < i)%nat -> nth_error out (q + b) = Some v -> nth_error out' (q + b) = Some (g v (D (p + b)%nat))) /\
    (forall k, (k < q \/ q + i <= k)%nat -> nth_error out' k = nth_error out k))
    (fun k out =>
    let* v := rdz out (Z.of_nat q + Z.of_nat k) in
    let* x := rdz data (Z.of_nat p + Z.of_nat k) in
    wrz out (Z.of_nat q + Z.of_nat k) (g v x)) 0 n out) as (w & E & J).
  - repeat split; auto. intros; lia.
  - intros i s Hb (L & A & B). rewrite <- !Nat2Z.inj_add.
    destruct (nth_error_some_lt out (q + i)) as [v Ev]; [lia|].
    rewrite (rdz_nat s (q + i) v) by (rewrite B by lia; exact Ev). cbn [bind].
    rewrite (rdz_nat data (p + i) (D (p + i))) by (apply HD; lia). cbn [bind].
    rewrite wrz_nat by lia. eexists. split; [reflexivity|]. split; [rewrite upd_length; exact L|]. split.
    + intros b v' Hb' Ev'. destruct (Nat.eq_dec b i) as [ -> |Hn].
      * rewrite nth_error_upd_same by lia. rewrite Ev in Ev'. injection Ev' as <-. reflexivity.
      * rewrite nth_error_upd_other by lia. apply A; [lia|assumption].
    + intros k Hk. rewrite nth_error_upd_other by lia. apply B. lia.
  - exists w. split; [exact E|exact J].
Qed.

(** Row [k] of [inner] source elements goes to row [tt k] of the result. *)
Definition tt (k : nat) : nat := tau (k / outer).
Definition rows (u K : nat) : list nat := filter (fun k => tt k =? u)%nat (seq 0 K).
Definition val (u b K : nat) : R := fold_left (rf_reduce f) (map (fun k => D (k * inner + b)%nat) (rows u K)) (rf_init f).
Definition good (K : nat) (buf : list R) : Prop :=
  length buf = (U * inner)%nat /\
  forall u b, (u < U)%nat -> (b < inner)%nat -> rows u K <> [] -> nth_error buf (u * inner + b) = Some (val u b K).

Lemma rows_S u K : rows u (S K) = rows u K ++ (if (tt K =? u)%nat then [K] else []).
Proof. unfold rows. rewrite seq_S, filter_app. reflexivity. Qed.
Lemma rows_in u K k : In k (rows u K) <-> (k < K)%nat /\ tt k = u.
Proof. unfold rows. rewrite filter_In, in_seq, Nat.eqb_eq. intuition lia. Qed.
Lemma val_S u b K : val u b (S K) = if (tt K =? u)%nat then rf_reduce f (val u b K) (D (K * inner + b)) else val u b K.
Proof.
  unfold val. rewrite rows_S. destruct (tt K =? u)%nat.
  - rewrite map_app, fold_left_app. reflexivity.
  - rewrite app_nil_r. reflexivity.
Qed.
Lemma rows_nil_val u b K : rows u K = [] -> val u b K = rf_init f.
Proof. intros H. unfold val. rewrite H. reflexivity. Qed.

Lemma split_pos u b q b' : (b < inner)%nat -> (b' < inner)%nat -> (u * inner + b = q * inner + b')%nat -> u = q /\ b = b'.
Proof. intros. assert (u = q) by nia. subst. split; [reflexivity|lia]. Qed.

Lemma step_transform K buf (vis : bool) g : good K buf -> (tt K < U)%nat -> ((K + 1) * inner <= length data)%nat ->
  (vis = true <-> rows (tt K) K <> []) ->
  (forall v x, g v x = if vis then rf_reduce f v x else rf_reduce f (rf_init f) x) ->
  exists buf', transform_at g data (Z.of_nat (K * inner)) inner (Z.of_nat (tt K * inner)) buf = Ok buf' /\ good (S K) buf'.
Proof.
  intros [L G] Hu Hd Hv Hg.
  destruct (transform_ok g (K * inner) (tt K * inner) inner buf) as (w & E & Lw & A & B); [lia|nia|].
  exists w. split; [exact E|]. split; [lia|]. intros u b Hu' Hb Hr.
  rewrite val_S, rows_S in *. destruct (tt K =? u)%nat eqn:Et.
  - apply Nat.eqb_eq in Et. subst u. destruct (nth_error_some_lt buf (tt K * inner + b)) as [v Ev]; [nia|].
    rewrite (A b v Hb Ev), Hg. destruct vis.
    + assert (Hn : rows (tt K) K <> []) by (apply Hv; reflexivity). rewrite (G _ b Hu Hb Hn) in Ev. injection Ev as <-. reflexivity.
    + destruct (rows (tt K) K) eqn:Er; [|assert (false = true) by (apply Hv; discriminate); discriminate].
      rewrite rows_nil_val by exact Er. reflexivity.
  - apply Nat.eqb_neq in Et. rewrite B.
    + rewrite app_nil_r in Hr. apply G; assumption.
    + assert (u < tt K \/ tt K < u)%nat by lia. nia.
Qed.

Lemma tt_chunk n a : (a < outer)%nat -> tt (n * outer + a) = tau n.
Proof. intros H. unfold tt. rewrite Nat.div_add_l by lia. rewrite Nat.div_small by lia. f_equal. lia. Qed.

Lemma pos_inside n a : (n < C)%nat -> (a < outer)%nat -> ((n * outer + a + 1) * inner <= length data)%nat.
Proof. intros H1 H2. rewrite Hlen. apply Nat.mul_le_mono_r. nia. Qed.

Lemma block_ok n buf (mg : bool) : (n < C)%nat -> good (n * outer) buf ->
  (mg = true <-> rows (tau n) (n * outer) <> []) ->
  exists buf', reduce_block f data outer inner (Z.of_nat (n * outer * inner)) (Z.of_nat (tau n * inner)) buf mg
    = Ok (Z.of_nat (S n * outer * inner), buf') /\ good (S n * outer) buf'.
Proof.
  intros Hn G Hm. unfold reduce_block.
  assert (T0 : tt (n * outer) = tau n) by (rewrite <- (tt_chunk n 0) by lia; f_equal; lia).
  destruct (step_transform (n * outer) buf mg (fun v1 v2 => if mg then rf_reduce f v1 v2 else rf_reduce f (rf_init f) v2))
    as (b1 & E1 & G1); try assumption; try (rewrite T0; auto).
  - pose proof (pos_inside n 0 Hn Ho). rewrite Nat.add_0_r in *. assumption.
  - intros; reflexivity.
  - rewrite T0 in E1. rewrite E1. cbn [bind].
    destruct (for_up_inv (fun i s => fst s = Z.of_nat ((n * outer + i) * inner) /\ good (n * outer + i) (snd s))
      (fun _ '(begin, buf) =>
       let* buf := transform_at (rf_reduce f) data begin inner (Z.of_nat (tau n * inner)) buf in
       Ok (begin + Z.of_nat inner, buf)) 1 (outer - 1) (Z.of_nat (n * outer * inner) + Z.of_nat inner, b1)) as ([bg bf] & E & Hb & Gb).
    + cbn [fst snd]. split; [lia|]. replace (n * outer + 1)%nat with (S (n * outer)) by lia. exact G1.
    + intros i [bg bf] Hb [H1 H2]. cbn [fst snd] in *. subst bg.
      assert (Ti : tt (n * outer + i) = tau n) by (apply tt_chunk; lia).
      destruct (step_transform (n * outer + i) bf true (rf_reduce f)) as (b2 & E2 & G2); try assumption.
      * rewrite Ti. auto.
      * apply pos_inside; lia.
      * split; [|reflexivity]. intros _. intros En. assert (In (n * outer)%nat (rows (tt (n * outer + i)) (n * outer + i))) as I by (apply rows_in; split; [lia|rewrite T0, Ti; reflexivity]). rewrite En in I. destruct I.
      * intros; reflexivity.
      * rewrite Ti in E2. rewrite E2. cbn [bind]. eexists. split; [reflexivity|]. cbn [fst snd]. split; [lia|].
        replace (n * outer + S i)%nat with (S (n * outer + i)) by lia. exact G2.
    + rewrite E. cbn [fst snd] in *. exists bf. split.
      * f_equal. f_equal. rewrite Hb. f_equal. nia.
      * replace (S n * outer)%nat with (n * outer + (1 + (outer - 1)))%nat by lia. exact Gb.
Qed.

Lemma filter_all {A} (p : A -> bool) l : (forall a, In a l -> p a = true) -> filter p l = l.
Proof. induction l; intros H; [reflexivity|]. cbn. rewrite H by (left; reflexivity). f_equal. apply IHl. intros. apply H. right. assumption. Qed.
Lemma filter_nothing {A} (p : A -> bool) l : (forall a, In a l -> p a = false) -> filter p l = [].
Proof. induction l; intros H; [reflexivity|]. cbn. rewrite H by (left; reflexivity). apply IHl. intros. apply H. right. assumption. Qed.

Lemma rows_chunk u n : rows u (S n * outer) = rows u (n * outer) ++ (if (tau n =? u)%nat then seq (n * outer) outer else []).
Proof.
  unfold rows. replace (S n * outer)%nat with (n * outer + outer)%nat by lia. rewrite seq_app, filter_app. f_equal. cbn [Nat.add].
  assert (X : forall k, In k (seq (n * outer) outer) -> tt k = tau n).
  { intros k Hk. apply in_seq in Hk. replace k with (n * outer + (k - n * outer))%nat by lia. apply tt_chunk. lia. }
  destruct (tau n =? u)%nat eqn:E.
  - apply filter_all. intros k Hk. rewrite (X k Hk). exact E.
  - apply filter_nothing. intros k Hk. rewrite (X k Hk). exact E.
Qed.

Lemma row_ok n buf (mg : bool) : inner = 1%nat -> (n < C)%nat -> good (n * outer) buf ->
  (mg = true <-> rows (tau n) (n * outer) <> []) -> (mg = true -> merge_law f) ->
  exists buf', reduce_row f data outer (Z.of_nat (n * outer * inner)) (Z.of_nat (tau n * inner)) buf mg
    = Ok (Z.of_nat (S n * outer * inner), buf') /\ good (S n * outer) buf'.
Proof.
  intros H1 Hn [L G] Hm Hlaw. unfold reduce_row.
  rewrite accumulate_ok by (rewrite Hlen; nia). cbn [bind].
  set (ys := map D (seq (n * outer * inner) outer)).
  assert (Hys : ys <> []) by (unfold ys; destruct outer; [lia|discriminate]).
  assert (Hu : (tau n < U)%nat) by auto.
  assert (HV : forall u b, (b < inner)%nat -> val u b (S n * outer) = if (tau n =? u)%nat then fold_left (rf_reduce f) ys (val u b (n * outer)) else val u b (n * outer)).
  { intros u b Hb. unfold val. rewrite rows_chunk. destruct (tau n =? u)%nat; [|rewrite app_nil_r; reflexivity].
    rewrite map_app, fold_left_app. f_equal. unfold ys. assert (b = 0)%nat by lia. subst b. rewrite H1, Nat.mul_1_r.
    apply map_ext. intros k. f_equal. lia. }
  assert (HG : forall v, v = val (tau n) 0 (S n * outer) -> good (S n * outer) (upd buf (tau n * inner) v)).
  { intros v ->. split; [rewrite upd_length; exact L|]. intros u b Hu' Hb Hr. assert (b = 0)%nat by lia. subst b.
    destruct (Nat.eq_dec (tau n) u) as [ <- |Hne].
    - rewrite Nat.add_0_r, nth_error_upd_same by nia. reflexivity.
    - rewrite nth_error_upd_other by nia. rewrite HV by lia. rewrite rows_chunk in Hr. apply Nat.eqb_neq in Hne. rewrite Hne in *.
      rewrite app_nil_r in Hr. apply G; assumption. }
  assert (Eb : Z.of_nat (n * outer * inner) + Z.of_nat outer = Z.of_nat (S n * outer * inner)) by nia.
  destruct mg.
  - assert (Hr : rows (tau n) (n * outer) <> []) by (apply Hm; reflexivity).
    rewrite (rdz_nat buf (tau n * inner) (val (tau n) 0 (n * outer))) by (rewrite <- (Nat.add_0_r (tau n * inner)); apply G; auto).
    cbn [bind]. rewrite wrz_nat by nia. cbn [bind]. eexists. split; [rewrite Eb; reflexivity|]. apply HG.
    rewrite (Hlaw eq_refl) by exact Hys. rewrite HV, Nat.eqb_refl by lia. reflexivity.
  - cbn [bind]. rewrite wrz_nat by nia. cbn [bind]. eexists. split; [rewrite Eb; reflexivity|]. apply HG.
    rewrite HV, Nat.eqb_refl by lia. rewrite rows_nil_val; [reflexivity|].
    destruct (rows (tau n) (n * outer)) eqn:Er; [reflexivity|]. assert (false = true) by (apply Hm; discriminate). discriminate.
Qed.

(** The index sequence the loop goes through. *)
Variable (A istr : list Z) (I : nat -> list Z).
Hypothesis HC : (0 < C)%nat.
Hypothesis Hnext : forall n, (S n < C)%nat -> next_idx A (length A) (I n) = Ok (false, I (S n)).
Hypothesis Hstop : exists ix, next_idx A (length A) (I (C - 1)) = Ok (true, ix).
Hypothesis Hout : forall n, (n < C)%nat -> inner_product (I n) istr 0 = Z.of_nat (tau n * inner).
Hypothesis Hfirst : tau 0 = 0%nat.
(** A result row is visited for the first time exactly when it is beyond all those visited. *)
Hypothesis Hvisit : forall n, (n < C)%nat -> (forall i, (i < n)%nat -> (tau i < tau n)%nat) \/ (exists i, (i < n)%nat /\ tau i = tau n).
Hypothesis Hlaw : (forall i n, (i < n < C)%nat -> tau i <> tau n) \/ merge_law f.

Lemma rows_visited n : (n < C)%nat -> rows (tau n) (n * outer) <> [] <-> exists i, (i < n)%nat /\ tau i = tau n.
Proof.
  intros Hn. split.
  - intros Hr. destruct (rows (tau n) (n * outer)) as [|k l] eqn:E; [congruence|].
    assert (In k (rows (tau n) (n * outer))) as Hk by (rewrite E; left; reflexivity). apply rows_in in Hk. destruct Hk as [H1 H2].
    exists (k / outer)%nat. split; [|exact H2]. apply Nat.div_lt_upper_bound; lia.
  - intros (i & Hi1 & Hi2) E. assert (In (i * outer)%nat (rows (tau n) (n * outer))) as X.
    { apply rows_in. split; [nia|]. rewrite <- (Nat.add_0_r (i * outer)), tt_chunk by lia. exact Hi2. }
    rewrite E in X. destruct X.
Qed.

Definition border_at (n : nat) (bd : Z) : Prop :=
  (forall i, (i <= n)%nat -> Z.of_nat (tau i * inner) <= bd) /\ exists i, (i <= n)%nat /\ bd = Z.of_nat (tau i * inner).

Lemma loop_ok : forall k n fuel bd mg buf, (n + k = C)%nat -> (0 < k)%nat -> (k <= fuel)%nat -> good (n * outer) buf -> border_at n bd ->
  (mg = true <-> exists i, (i < n)%nat /\ tau i = tau n) ->
  exists buf', reduce_loop f fuel data outer inner A istr (I n) (Z.of_nat (n * outer * inner)) (Z.of_nat (tau n * inner)) bd mg buf = Ok buf' /\ good (C * outer) buf'.
Proof.
  induction k as [|k IH]; intros n fuel bd mg buf Hk Hk0 Hf G Hb Hm; [lia|].
  destruct fuel as [|fuel]; [lia|]. cbn [reduce_loop].
  assert (Hn : (n < C)%nat) by lia.
  assert (Hm' : mg = true <-> rows (tau n) (n * outer) <> []) by (rewrite rows_visited by exact Hn; exact Hm).
  assert (Hmg : mg = true -> merge_law f).
  { intros E. apply Hm in E. destruct E as (i & H1 & H2). destruct Hlaw as [Hl|Hl]; [|exact Hl]. exfalso. apply (Hl i n); auto. }
  assert (exists buf', (if (inner =? 1)%nat then reduce_row f data outer (Z.of_nat (n * outer * inner)) (Z.of_nat (tau n * inner)) buf mg
         else reduce_block f data outer inner (Z.of_nat (n * outer * inner)) (Z.of_nat (tau n * inner)) buf mg)
         = Ok (Z.of_nat (S n * outer * inner), buf') /\ good (S n * outer) buf') as (b1 & E1 & G1).
  { destruct (inner =? 1)%nat eqn:Ei; [apply Nat.eqb_eq in Ei; apply row_ok; assumption|apply block_ok; assumption]. }
  rewrite E1. cbn [bind]. destruct k as [|k].
  - assert (n = C - 1)%nat by lia. subst n. destruct Hstop as [ix Es]. rewrite Es. cbn [bind].
    exists b1. split; [|replace C with (S (C - 1)) by lia; exact G1]. destruct (bd <? _); reflexivity.
  - rewrite Hnext by lia. cbn [bind]. rewrite Hout by lia.
    destruct Hb as [Hb1 (i0 & Hi0 & Hb2)].
    destruct (bd <? Z.of_nat (tau (S n) * inner)) eqn:El.
    + apply Z.ltb_lt in El. apply IH; try lia; try assumption.
      * split; [|exists (S n); split; [lia|reflexivity]]. intros i Hi'. destruct (Nat.eq_dec i (S n)) as [ -> |]; [lia|].
        specialize (Hb1 i). lia.
      * split; [discriminate|]. intros (i & H1 & H2). specialize (Hb1 i). rewrite H2 in Hb1. lia.
    + apply Z.ltb_ge in El. apply IH; try lia; try assumption.
      * split; [|exists i0; split; [lia|exact Hb2]]. intros i Hi'. destruct (Nat.eq_dec i (S n)) as [ -> |]; [lia|].
        apply Hb1. lia.
      * split; [|reflexivity]. intros _. destruct (Hvisit (S n)) as [Hv|Hv]; [lia| |exact Hv].
        specialize (Hv i0). nia.
Qed.

Lemma loop_all fuel buf : (C <= fuel)%nat -> length buf = (U * inner)%nat ->
  exists buf', reduce_loop f fuel data outer inner A istr (I 0) 0 0 0 false buf = Ok buf' /\ good (C * outer) buf'.
Proof.
  intros Hf Hl. destruct (loop_ok C 0 fuel 0 false buf) as (b & E & G); try lia.
  - split; [exact Hl|]. intros u b _ _ H. exfalso. apply H. reflexivity.
  - split; [|exists 0%nat; split; [lia|rewrite Hfirst; reflexivity]]. intros i H. assert (i = 0)%nat by lia. subst i. rewrite Hfirst. cbn. lia.
  - split; [discriminate|]. intros (i & H & _). lia.
  - exists b. split; [|exact G]. rewrite Hfirst in E. exact E.
Qed.
End Loop.
