(** Proofs for C89: whole arrays. *)
From Coq Require Import List ZArith Lia Bool QArith Qabs Qround Lqa.
From Verif Require Import Prelude Strides_Spec Diff_Spec Reduce_Model Unwrap_Model Unwrap_Spec Unwrap_Proofs.
Import ListNotations.
Open Scope Z_scope.

Lemma with_cons a j x l : with_axis (S a) j (x :: l) = x :: with_axis a j l. Proof. reflexivity. Qed.
Lemma with_nth a j : forall ix, (a < length ix)%nat -> nth a (with_axis a j ix) 0 = j.
Proof. induction a as [|a IH]; intros [|x l] H; cbn in H; try lia; [reflexivity|]. rewrite with_cons. cbn [nth]. apply IH. lia. Qed.
Lemma with_length a j : forall ix, (a < length ix)%nat -> length (with_axis a j ix) = length ix.
Proof. induction a as [|a IH]; intros [|x l] H; cbn in H; try lia; [reflexivity|]. rewrite with_cons. cbn [length]. f_equal. apply IH. lia. Qed.
Lemma with_with a i j : forall ix, (a < length ix)%nat -> with_axis a j (with_axis a i ix) = with_axis a j ix.
Proof. induction a as [|a IH]; intros [|x l] H; cbn in H; try lia; [reflexivity|]. rewrite !with_cons. f_equal. apply IH. lia. Qed.
Lemma with_self a : forall ix, (a < length ix)%nat -> with_axis a (nth a ix 0) ix = ix.
Proof. induction a as [|a IH]; intros [|x l] H; cbn in H; try lia; [reflexivity|]. rewrite with_cons. cbn [nth]. f_equal. apply IH. lia. Qed.
Lemma further_with a k : forall ix, (a < length ix)%nat -> further a k ix = with_axis a (nth a ix 0 + k) ix.
Proof. unfold further. induction a as [|a IH]; intros [|x l] H; cbn in H; try lia; [reflexivity|]. rewrite with_cons. cbn [nth at_axis]. f_equal. apply IH. lia. Qed.
Lemma with_in_bounds a j : forall sh ix, in_bounds sh ix -> (a < length ix)%nat -> 0 <= j < nth a sh 0 -> in_bounds sh (with_axis a j ix).
Proof.
  unfold in_bounds. induction a as [|a IH]; intros sh ix B H Hj; destruct B as [|d i sh ix Hi B]; cbn in H; try lia.
  - constructor; [exact Hj|exact B].
  - rewrite with_cons. constructor; [exact Hi|]. apply IH; [exact B|lia|exact Hj].
Qed.
Lemma bounds_nth a : forall sh ix, in_bounds sh ix -> (a < length ix)%nat -> 0 <= nth a ix 0 < nth a sh 0.
Proof.
  unfold in_bounds. induction a as [|a IH]; intros sh ix B H; destruct B as [|d i sh ix Hi B]; cbn in H; try lia; [exact Hi|]. cbn [nth]. apply IH; [exact B|lia].
Qed.
Lemma bounds_length sh ix : in_bounds sh ix -> length ix = length sh. Proof. intros B. induction B; cbn; congruence. Qed.

Section Run.
  Context (integral : bool) (discont period : Q) (sh : list Z) (a : nat) (p : list Z -> Q).
  Context (Hp : (0 < period)%Q) (Ha : (a < length sh)%nat).
  Context (Hi : integral = true -> integer period /\ forall ix, in_bounds sh ix -> integer (p ix)).
  Let ph jx := correction (boundary_ambiguous integral period) discont period (difference a p jx).
  (** The sum of the corrections before index i *)
  Definition before (ix : list Z) (i : nat) : Q := match i with O => 0%Q | S n => cumulated a ph ix n end.
  Lemma before_S ix i : (before ix (S i) == before ix i + ph (with_axis a (Z.of_nat i) ix))%Q.
  Proof. destruct i as [|i]; cbn [before cumulated]; [ring|reflexivity]. Qed.
  Lemma before_with ix i : (a < length ix)%nat -> forall n, before (with_axis a i ix) n = before ix n.
  Proof.
    intros H. assert (C : forall n, cumulated a ph (with_axis a i ix) n = cumulated a ph ix n).
    { induction n as [|n IH]; cbn [cumulated]; rewrite with_with by exact H; [reflexivity|]. rewrite IH. reflexivity. }
    intros [|n]; [reflexivity|apply C].
  Qed.
  Lemma suits_at jx : in_bounds sh jx -> nth a jx 0 + 1 < nth a sh 0 -> suits integral period (difference a p jx).
  Proof.
    intros B N E. destruct (Hi E) as [H1 H2]. split; [exact H1|]. unfold difference. pose proof (bounds_length _ _ B) as L.
    pose proof (bounds_nth a _ _ B ltac:(lia)) as X. destruct (H2 _ B) as [z Ez]. destruct (H2 (with_axis a (nth a jx 0 + 1) jx)) as [y Ey]; [apply with_in_bounds; [exact B|lia|lia]|].
    exists (y - z). unfold Z.sub. rewrite inject_Z_plus, inject_Z_opp. lra.
  Qed.
  Lemma before_multiple ix : in_bounds sh ix -> forall i, Z.of_nat i < nth a sh 0 -> exists k : Z, (before ix i == inject_Z k * period)%Q.
  Proof.
    intros B. pose proof (bounds_length _ _ B) as L. induction i as [|i IH]; intros H.
    - exists 0. cbn. change (inject_Z 0) with 0%Q. ring.
    - destruct (IH ltac:(lia)) as [k Ek]. assert (B' : in_bounds sh (with_axis a (Z.of_nat i) ix)) by (apply with_in_bounds; [exact B|lia|lia]).
      destruct (correction_ok integral discont period (difference a p (with_axis a (Z.of_nat i) ix)) Hp) as ((k2 & E2) & _).
      { apply suits_at; [exact B'|]. rewrite with_nth by lia. lia. }
      exists (k + k2). rewrite before_S, Ek. unfold ph. rewrite E2, inject_Z_plus. ring.
  Qed.
  Context (dopt : option Q) (Hd : discontinuity_of dopt period = discont).
  Let u := unwrapped integral dopt period a p.
  Lemma u_eq ix : in_bounds sh ix -> (u ix == p ix + before ix (Z.to_nat (nth a ix 0%Z)))%Q.
  Proof.
    intros B. pose proof (bounds_length _ _ B) as L. pose proof (bounds_nth a _ _ B ltac:(lia)) as N. unfold u, unwrapped. rewrite Hd.
    destruct (Z.leb_spec (nth a ix 0) 0) as [H|H].
    - replace (nth a ix 0) with 0 by lia. cbn. ring.
    - replace (Z.to_nat (nth a ix 0)) with (S (Z.to_nat (nth a ix 0 - 1))) by lia. cbn [before]. fold ph. set (n := Z.to_nat (nth a ix 0 - 1)).
      unfold stored. destruct (Bool.bool_dec integral true) as [E|E]; [|destruct integral; [congruence|reflexivity]].
      replace (if integral then inject_Z (trunc (p ix + cumulated a ph ix n)) else (p ix + cumulated a ph ix n)%Q) with (inject_Z (trunc (p ix + cumulated a ph ix n))) by (rewrite E; reflexivity).
      destruct (before_multiple ix B (S n) ltac:(subst n; lia)) as [k Ek]. cbn [before] in Ek.
      destruct (Hi E) as [[P EP] H2]. destruct (H2 ix B) as [z Ez].
      assert (X : (p ix + cumulated a ph ix n == inject_Z (z + k * P))%Q) by (rewrite Ek, Ez, EP, inject_Z_plus, inject_Z_mult; reflexivity).
      rewrite (trunc_int _ _ X). symmetry. exact X.
  Qed.
  Lemma unwraps_ok : unwraps discont period sh a p u.
  Proof.
    split; [|split].
    - intros ix B. pose proof (bounds_nth a _ _ B ltac:(rewrite (bounds_length _ _ B); lia)) as N.
      destruct (before_multiple ix B (Z.to_nat (nth a ix 0)) ltac:(lia)) as [k Ek]. exists k. rewrite (u_eq ix B), Ek. reflexivity.
    - intros ix B E. rewrite (u_eq ix B), E. cbn. ring.
    - intros ix B B1. pose proof (bounds_length _ _ B) as L. pose proof (bounds_nth a _ _ B ltac:(lia)) as N. cbv zeta.
      rewrite further_with in * by lia. set (i := nth a ix 0) in *. set (jx := with_axis a (i + 1) ix) in *.
      assert (Ni : i + 1 < nth a sh 0). { pose proof (bounds_nth a _ _ B1 ltac:(subst jx; rewrite with_length by lia; lia)) as X. subst jx. rewrite with_nth in X by lia. lia. }
      assert (E : (u jx - u ix == (p jx - p ix) + ph ix)%Q).
      { rewrite (u_eq jx B1), (u_eq ix B). subst jx. rewrite with_nth, before_with by lia. fold i. replace (Z.to_nat (i + 1)) with (S (Z.to_nat i)) by lia.
        rewrite before_S. rewrite Z2Nat.id by lia. subst i. rewrite with_self by lia. ring. }
      destruct (correction_ok integral discont period (difference a p ix) Hp (suits_at ix B Ni)) as (_ & C1 & C2).
      change (difference a p ix) with (p jx - p ix)%Q in *. 
      change (correction (boundary_ambiguous integral period) discont period (p jx - p ix)) with (ph ix) in *. split.
      + intros H. rewrite E, (C1 H). ring.
      + intros H. rewrite E. exact (C2 H).
  Qed.
End Run.

(** There is only one such array. *)
Lemma unwraps_unique discont period sh a p u w : (0 < period)%Q -> (a < length sh)%nat ->
  unwraps discont period sh a p u -> unwraps discont period sh a p w -> forall ix, in_bounds sh ix -> (u ix == w ix)%Q.
Proof.
  intros Hp Ha (U1 & U2 & U3) (W1 & W2 & W3).
  assert (G : forall n ix, in_bounds sh ix -> nth a ix 0 = Z.of_nat n -> (u ix == w ix)%Q).
  2:{ intros ix B. pose proof (bounds_nth a _ _ B ltac:(rewrite (bounds_length _ _ B); lia)) as N. apply (G (Z.to_nat (nth a ix 0))); [exact B|lia]. }
  induction n as [|n IH]; intros jx B E.
  - rewrite (U2 jx B E), (W2 jx B E). reflexivity.
  - pose proof (bounds_length _ _ B) as L. pose proof (bounds_nth a _ _ B ltac:(lia)) as N. set (ix := with_axis a (Z.of_nat n) jx).
    assert (Bi : in_bounds sh ix) by (apply with_in_bounds; [exact B|lia|lia]).
    assert (Ei : nth a ix 0 = Z.of_nat n) by (apply with_nth; lia).
    assert (F : further a 1 ix = jx). { rewrite further_with by (subst ix; rewrite with_length by lia; lia). rewrite Ei. subst ix. rewrite with_with by lia. replace (Z.of_nat n + 1) with (nth a jx 0) by lia. apply with_self. lia. }
    specialize (IH ix Bi Ei). specialize (U3 ix Bi). specialize (W3 ix Bi). rewrite F in U3, W3. specialize (U3 B). specialize (W3 B). cbv zeta in U3, W3.
    destruct U3 as [Ua Ub], W3 as [Wa Wb]. destruct (Qlt_le_dec (Qabs (p jx - p ix)) discont) as [H|H].
    + specialize (Ua H). specialize (Wa H). lra.
    + assert (H' : ~ (Qabs (p jx - p ix) < discont)%Q) by lra. destruct (Ub H') as [Ul Us], (Wb H') as [Wl Ws].
      destruct (U1 jx B) as [k1 E1], (W1 jx B) as [k2 E2].
      apply Qabs_Qle_condition in Ul. apply Qabs_Qle_condition in Wl.
      assert (D : (u jx - w jx == inject_Z (k1 - k2) * period)%Q) by (unfold Z.sub; rewrite E1, E2, inject_Z_plus, inject_Z_opp; ring).
      set (k := k1 - k2) in *. assert (Hk : k = 0 \/ k = 1 \/ k = -1 \/ 2 <= k \/ k <= -2) by lia.
      destruct Hk as [->|[->|[->|[Hk|Hk]]]].
      * change (inject_Z 0) with 0%Q in D. lra.
      * exfalso. change (inject_Z 1) with 1%Q in D. assert (Eu : (u jx - u ix == (1 # 2) * period)%Q) by lra. assert (Ew : (w jx - w ix == - ((1 # 2) * period))%Q) by lra.
        assert (S1 : (0 < p jx - p ix)%Q) by (apply Us; [rewrite Qabs_pos by lra; exact Eu|lra]).
        assert (S2 : (0 < w jx - w ix)%Q) by (apply Ws; [rewrite Qabs_neg by lra; lra|exact S1]). lra.
      * exfalso. change (inject_Z (-1)) with (-1)%Q in D. assert (Eu : (u jx - u ix == - ((1 # 2) * period))%Q) by lra. assert (Ew : (w jx - w ix == (1 # 2) * period)%Q) by lra.
        assert (S1 : (0 < p jx - p ix)%Q) by (apply Ws; [rewrite Qabs_pos by lra; exact Ew|lra]).
        assert (S2 : (0 < u jx - u ix)%Q) by (apply Us; [rewrite Qabs_neg by lra; lra|exact S1]). lra.
      * exfalso. rewrite Zle_Qle in Hk. change (inject_Z 2) with 2%Q in Hk. pose proof (Qmult_le_compat_r _ _ period Hk ltac:(lra)). lra.
      * exfalso. rewrite Zle_Qle in Hk. change (inject_Z (-2)) with (-2)%Q in Hk. pose proof (Qmult_le_compat_r _ _ period Hk ltac:(lra)). lra.
Qed.
Lemma axis_ok dim axis a : Z.of_nat dim < 2 ^ 64 -> axis_names dim axis a -> Z.to_nat (normalize_axis dim axis) = a.
Proof.
  intros Hd (Ha & [-> | ->]); unfold normalize_axis.
  - destruct (Z.ltb_spec (Z.of_nat a) 0); lia.
  - destruct (Z.ltb_spec (Z.of_nat a - Z.of_nat dim) 0); [|lia]. unfold Access_Model.to_size_t. rewrite Z.mod_small; [lia|]. change (2 ^ 64) with 18446744073709551616 in *. lia.
Qed.
Lemma unwrap_ok lvalue integral sh (p : list Z -> Q) dopt axis a period : Z.of_nat (length sh) < 2 ^ 64 -> axis_names (length sh) axis a -> (0 < period)%Q ->
  (integral = true -> integer period /\ forall ix, in_bounds sh ix -> integer (p ix)) ->
  exists p' u, unwrap lvalue integral (length sh) p dopt axis period = (p', u) /\
    unwraps (match dopt with Some d => d | None => ((1 # 2) * period)%Q end) period sh a p u /\ (lvalue = false -> p' = p).
Proof.
  intros Hd Ha Hp Hi. unfold unwrap. rewrite (axis_ok _ _ _ Hd Ha). do 2 eexists. split; [reflexivity|].
  split; [|intros ->; reflexivity]. apply unwraps_ok; [exact Hp|apply Ha|exact Hi|destruct dopt; reflexivity].
Qed.
Lemma multiple_small k period : (0 < period)%Q -> (- period < inject_Z k * period)%Q -> (inject_Z k * period < period)%Q -> k = 0.
Proof.
  intros Hp H1 H2. assert (C : k = 0 \/ 1 <= k \/ k <= -1) by lia. destruct C as [C|[C|C]]; [exact C| |]; exfalso.
  - rewrite Zle_Qle in C. change (inject_Z 1) with 1%Q in C. pose proof (Qmult_le_compat_r _ _ period C ltac:(lra)). lra.
  - rewrite Zle_Qle in C. change (inject_Z (-1)) with (-1)%Q in C. pose proof (Qmult_le_compat_r _ _ period C ltac:(lra)). lra.
Qed.
Lemma unwraps_small discont period sh a p u : (0 < period)%Q -> (discont <= (1 # 2) * period)%Q ->
  unwraps discont period sh a p u -> unwraps ((1 # 2) * period) period sh a p u.
Proof.
  intros Hp Hd (U1 & U2 & U3). split; [exact U1|]. split; [exact U2|]. intros ix B B1. destruct (U3 ix B B1) as [Ua Ub]. cbv zeta in *.
  destruct (U1 ix B) as [k1 E1], (U1 _ B1) as [k2 E2]. set (jx := further a 1 ix) in *. split.
  - intros H. destruct (Qlt_le_dec (Qabs (p jx - p ix)) discont) as [L|L]; [exact (Ua L)|]. destruct (Ub ltac:(lra)) as [M _].
    apply Qabs_Qle_condition in M. apply Qabs_Qlt_condition in H.
    assert (D : (u jx - u ix - (p jx - p ix) == inject_Z (k2 - k1) * period)%Q) by (unfold Z.sub; rewrite E1, E2, inject_Z_plus, inject_Z_opp; ring).
    assert (K : k2 - k1 = 0) by (apply (multiple_small _ period Hp); lra). rewrite K in D. change (inject_Z 0) with 0%Q in D. lra.
  - intros H. apply Ub. lra.
Qed.
Lemma unwraps_again discont period sh a p u : (0 < period)%Q -> ((1 # 2) * period <= discont)%Q ->
  unwraps discont period sh a p u -> unwraps discont period sh a u u.
Proof.
  intros Hp Hd (U1 & U2 & U3). split; [|split].
  - intros ix _. exists 0. change (inject_Z 0) with 0%Q. ring.
  - intros ix _ _. reflexivity.
  - intros ix B B1. destruct (U3 ix B B1) as [Ua Ub]. cbv zeta in *. set (jx := further a 1 ix) in *. split; [reflexivity|]. intros H. split; [|tauto].
    destruct (Qlt_le_dec (Qabs (p jx - p ix)) discont) as [L|L].
    + exfalso. apply H. rewrite (Ua L). exact L.
    + apply Ub. lra.
Qed.
Lemma unwraps_steps discont period sh a p u : unwraps discont period sh a p u -> forall ix, in_bounds sh ix -> in_bounds sh (further a 1 ix) ->
  (Qabs (u (further a 1 ix) - u ix) < discont)%Q \/ (Qabs (u (further a 1 ix) - u ix) <= (1 # 2) * period)%Q.
Proof.
  intros (_ & _ & U3) ix B B1. destruct (U3 ix B B1) as [Ua Ub]. cbv zeta in *. set (jx := further a 1 ix) in *.
  destruct (Qlt_le_dec (Qabs (p jx - p ix)) discont) as [L|L]; [left; rewrite (Ua L); exact L|right; apply Ub; lra].
Qed.
