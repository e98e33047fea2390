(** Interpolation. *)
From Coq Require Import List ZArith Lia Bool Arith QArith Qfield Lqa.
From Verif Require Import Prelude PreludeFacts Access_Model Line_Model Line_Spec.
Import ListNotations.
Open Scope Z_scope.

Lemma qlt_spec x y : qlt x y = true <-> (x < y)%Q.
Proof.
  unfold qlt. split.
  - intros H. apply negb_true_iff in H. destruct (Qlt_le_dec x y) as [L|L]; [exact L|]. apply Qle_bool_iff in L. congruence.
  - intros H. apply negb_true_iff. destruct (Qle_bool y x) eqn:E; [|reflexivity]. apply Qle_bool_iff in E. lra.
Qed.
Lemma qlt_false x y : qlt x y = false <-> (y <= x)%Q.
Proof.
  split; intros H.
  - destruct (Qlt_le_dec x y) as [L|L]; [apply qlt_spec in L; congruence|exact L].
  - destruct (qlt x y) eqn:E; [|reflexivity]. apply qlt_spec in E. lra.
Qed.

Section Interp.
  Context (x xp fp : list Q) (lft rgt : Q).
  Context (Hx : increasing x) (Hp : increasing xp) (Hn : xp <> []) (Lf : length fp = length xp).

  Let n := length x.
  Let P := length xp.
  Let X i := nth i x 0%Q.
  Let XP i := nth i xp 0%Q.
  Let FP i := nth i fp 0%Q.

  Lemma P_pos : (0 < P)%nat. Proof. unfold P. destruct xp; [contradiction|cbn; lia]. Qed.
  Lemma X_at i : (i < n)%nat -> nth_error x i = Some (X i). Proof. intros. apply nth_error_nth'. exact H. Qed.
  Lemma XP_at i : (i < P)%nat -> nth_error xp i = Some (XP i). Proof. intros. apply nth_error_nth'. exact H. Qed.
  Lemma FP_at i : (i < P)%nat -> nth_error fp i = Some (FP i). Proof. intros. apply nth_error_nth'. rewrite Lf. exact H. Qed.
  Lemma X_le i j : (i <= j)%nat -> (j < n)%nat -> (X i <= X j)%Q.
  Proof. intros Hij Hj. destruct (Nat.eq_dec i j) as [->|]; [lra|]. apply (Hx i j); [lia|apply X_at; lia..]. Qed.
  Lemma XP_le i j : (i <= j)%nat -> (j < P)%nat -> (XP i <= XP j)%Q.
  Proof. intros Hij Hj. destruct (Nat.eq_dec i j) as [->|]; [lra|]. apply (Hp i j); [lia|apply XP_at; lia..]. Qed.

  Let x0 := XP 0.
  Let xn := XP (P - 1).

  (** What has been written: [vals f lo hi v]: the elements lo <= i < hi are v i. *)
  Lemma fill_left_ok : forall fuel i f, (i + fuel = n)%nat -> length f = n ->
    (forall k, (k < i)%nat -> (X k <= x0)%Q /\ nth_error f k = Some lft) ->
    exists i' f', fill_left fuel i x xp lft f = Ok (i', f') /\ (i' <= n)%nat /\ length f' = n /\
      (forall k, (k < i')%nat -> (X k <= x0)%Q /\ nth_error f' k = Some lft) /\ ((i' < n)%nat -> (x0 < X i')%Q).
  Proof.
    induction fuel as [|fuel IH]; intros i f Hi Lo Hk.
    - exists i, f. cbn. split; [reflexivity|]. split; [lia|]. split; [exact Lo|]. split; [exact Hk|]. lia.
    - cbn [fill_left]. rewrite (rd_ok x i (X i)) by (apply X_at; lia). cbn [bind]. rewrite (rd_ok xp 0 x0) by (apply XP_at; apply P_pos). cbn [bind].
      destruct (qlt x0 (X i)) eqn:E.
      + exists i, f. split; [reflexivity|]. split; [lia|]. split; [exact Lo|]. split; [exact Hk|]. intros _. apply qlt_spec. exact E.
      + rewrite wr_ok by lia. cbn [bind]. apply IH; [lia|rewrite upd_length; exact Lo|]. intros k Hk'. apply qlt_false in E.
        destruct (Nat.eq_dec k i) as [->|Hne]; [split; [exact E|apply nth_error_upd_same; lia]|]. rewrite nth_error_upd_other by lia. apply Hk. lia.
  Qed.

  Lemma fill_right_ok : forall m f, (m <= n)%nat -> length f = n ->
    (forall k, (m <= k < n)%nat -> (xn <= X k)%Q /\ nth_error f k = Some rgt) ->
    exists m' f', fill_right m x xp rgt f = Ok (m', f') /\ (m' <= m)%nat /\ length f' = n /\
      (forall k, (k < m')%nat -> nth_error f' k = nth_error f k) /\
      (forall k, (m' <= k < n)%nat -> (xn <= X k)%Q /\ nth_error f' k = Some rgt) /\ ((0 < m')%nat -> (X (m' - 1) < xn)%Q).
  Proof.
    induction m as [|m IH]; intros f Hm Lo Hk.
    - exists O, f. cbn. repeat (split; [first [reflexivity|lia|assumption]|]). lia.
    - cbn [fill_right]. rewrite (rd_ok x m (X m)) by (apply X_at; lia). cbn [bind].
      rewrite (rdz_ok xp (Z.of_nat (length xp) - 1) xn).
      2: { fold P. pose proof P_pos. lia. }
      2: { fold P. replace (Z.to_nat (Z.of_nat P - 1)) with (P - 1)%nat by lia. apply XP_at. pose proof P_pos. lia. }
      cbn [bind]. destruct (qlt (X m) xn) eqn:E.
      + exists (S m), f. split; [reflexivity|]. split; [lia|]. split; [exact Lo|]. split; [reflexivity|]. split; [exact Hk|].
        intros _. cbn. rewrite Nat.sub_0_r. apply qlt_spec. exact E.
      + apply qlt_false in E. rewrite wr_ok by lia. cbn [bind]. destruct (IH (upd f m rgt)) as (m' & f' & E1 & E2 & E3 & E4 & E5 & E6).
        * lia.
        * rewrite upd_length. exact Lo.
        * intros k Hk'. destruct (Nat.eq_dec k m) as [->|Hne]; [split; [exact E|apply nth_error_upd_same; lia]|]. rewrite nth_error_upd_other by lia. apply Hk. lia.
        * exists m', f'. split; [exact E1|]. split; [lia|]. split; [exact E3|]. split; [|split; assumption].
          intros k Hk'. rewrite E4 by exact Hk'. apply nth_error_upd_other. lia.
  Qed.

  Lemma seek_ok xi : (xi < xn)%Q -> forall fuel ip, (ip + fuel >= P)%nat -> (ip < P)%nat ->
    exists ip', seek fuel ip xi xp = Ok ip' /\ (ip <= ip' < P)%nat /\ (xi <= XP ip')%Q /\ (forall k, (ip <= k < ip')%nat -> (XP k < xi)%Q).
  Proof.
    intros Hxi. induction fuel as [|fuel IH]; intros ip Hf Hip; [lia|]. cbn [seek]. rewrite (rd_ok xp ip (XP ip)) by (apply XP_at; lia). cbn [bind].
    destruct (qlt (XP ip) xi) eqn:E.
    - apply qlt_spec in E. assert (Hlt : (S ip < P)%nat).
      { destruct (Nat.eq_dec (S ip) P) as [Heq|]; [|lia]. exfalso. unfold xn in Hxi. replace (P - 1)%nat with ip in Hxi by lia. lra. }
      destruct (IH (S ip) ltac:(lia) Hlt) as (ip' & E1 & E2 & E3 & E4). exists ip'. split; [exact E1|]. split; [lia|]. split; [exact E3|].
      intros k Hk. destruct (Nat.eq_dec k ip) as [->|]; [exact E|]. apply E4. lia.
    - apply qlt_false in E. exists ip. split; [reflexivity|]. split; [lia|]. split; [exact E|]. intros; lia.
  Qed.

  (** The value between two data points. *)
  Definition between_points (xi y : Q) : Prop :=
    exists k, (S k < P)%nat /\ (XP k < xi)%Q /\ (xi <= XP (S k))%Q /\ (y == line (XP k) (FP k) (XP (S k)) (FP (S k)) xi)%Q.

  Lemma interp_ok junk : length junk = n ->
    exists f, interp junk x xp fp lft rgt = Ok f /\ length f = n /\
      forall i, (i < n)%nat -> exists y, nth_error f i = Some y /\
        ((xn <= X i)%Q -> y = rgt) /\ ((X i <= x0)%Q -> (X i < xn)%Q -> y = lft) /\ ((x0 < X i)%Q -> (X i < xn)%Q -> between_points (X i) y).
  Proof.
    intros Lj. unfold interp. fold n. destruct (fill_left_ok n 0 junk) as (i & f & E1 & Hi & L1 & H1 & H1'); [lia|exact Lj|lia|]. rewrite E1. cbn [bind].
    destruct (fill_right_ok n f) as (m & g & E2 & Hm & L2 & H2 & H2' & H2''); [lia|exact L1|lia|]. rewrite E2. cbn [bind].
    assert (Fin : forall g', length g' = n -> (forall k, (m <= k < n)%nat -> nth_error g' k = nth_error g k) ->
      (forall k, (k < i)%nat -> nth_error g' k = nth_error g k) ->
      (forall k, (i <= k < m)%nat -> exists y, nth_error g' k = Some y /\ between_points (X k) y) ->
      forall j, (j < n)%nat -> exists y, nth_error g' j = Some y /\
        ((xn <= X j)%Q -> y = rgt) /\ ((X j <= x0)%Q -> (X j < xn)%Q -> y = lft) /\ ((x0 < X j)%Q -> (X j < xn)%Q -> between_points (X j) y)).
    { intros g' Lg' G1 G2 G3 j Hj. destruct (Nat.lt_ge_cases j m) as [Hjm|Hjm].
      - assert (Hlt : (X j < xn)%Q). { specialize (H2'' ltac:(lia)). pose proof (X_le j (m - 1) ltac:(lia) ltac:(lia)). lra. }
        destruct (Nat.lt_ge_cases j i) as [Hji|Hji].
        + destruct (H1 j Hji) as [A1 A2]. exists lft. rewrite G2, H2 by assumption. split; [exact A2|]. split; [intros; lra|]. split; [reflexivity|intros; lra].
        + destruct (G3 j ltac:(lia)) as (y & Ey & By). exists y. split; [exact Ey|]. split; [intros; lra|]. split; [|intros; exact By].
          intros A _. exfalso. specialize (H1' ltac:(lia)). pose proof (X_le i j ltac:(lia) ltac:(lia)). lra.
      - destruct (H2' j ltac:(lia)) as [A1 A2]. exists rgt. rewrite G1 by lia. split; [exact A2|]. split; [reflexivity|]. split; intros; lra. }
    destruct m as [|m].
    - exists g. split; [reflexivity|]. split; [exact L2|]. apply Fin; auto. intros; lia.
    - destruct (Nat.le_gt_cases (S m) i) as [Him|Him].
      + replace (S m - i)%nat with O by lia. cbn [for_up bind]. exists g. split; [reflexivity|]. split; [exact L2|]. apply Fin; auto. intros; lia.
      + assert (P2 : (1 < P)%nat).
        { specialize (H1' ltac:(lia)). specialize (H2'' ltac:(lia)). cbn in H2''. rewrite Nat.sub_0_r in H2''. pose proof (X_le i m ltac:(lia) ltac:(lia)).
          destruct (Nat.eq_dec P 1) as [E|]; [|pose proof P_pos; lia]. exfalso. unfold xn, x0 in *. rewrite E in *. cbn in H2''. lra. }
        set (body := fun i '(ip, f) => _).
        destruct (for_up_inv (fun k '(ip, h) => (1 <= ip < P)%nat /\ (XP (ip - 1) < X i \/ exists j, (i <= j < k)%nat /\ XP (ip - 1) < X j)%Q /\ length h = n /\
            (forall q, (q < i)%nat \/ (k <= q < n)%nat -> nth_error h q = nth_error g q) /\
            (forall q, (i <= q < k)%nat -> exists y, nth_error h q = Some y /\ between_points (X q) y)) body i (S m - i) (1%nat, g)) as ([ip h] & E3 & J1 & J2 & J3 & J4 & J5).
        * split; [lia|]. split; [left; apply H1'; lia|]. split; [exact L2|]. split; [reflexivity|]. intros; lia.
        * intros k [ip h] Hk (J1 & J2 & J3 & J4 & J5). unfold body. rewrite (rd_ok x k (X k)) by (apply X_at; lia). cbn [bind].
          assert (Hlt : (X k < xn)%Q). { specialize (H2'' ltac:(lia)). cbn in H2''. rewrite Nat.sub_0_r in H2''. pose proof (X_le k m ltac:(lia) ltac:(lia)). lra. }
          fold P. destruct (seek_ok (X k) Hlt P ip ltac:(lia) ltac:(lia)) as (ip' & Es & S1 & S2 & S3). rewrite Es. cbn [bind].
          rewrite (rd_ok fp ip' (FP ip')) by (apply FP_at; lia). cbn [bind]. rewrite (rd_ok fp (ip' - 1) (FP (ip' - 1))) by (apply FP_at; lia). cbn [bind].
          rewrite (rd_ok xp ip' (XP ip')) by (apply XP_at; lia). cbn [bind]. rewrite (rd_ok xp (ip' - 1) (XP (ip' - 1))) by (apply XP_at; lia). cbn [bind].
          rewrite wr_ok by lia. cbn [bind]. eexists. split; [reflexivity|].
          assert (Hbelow : (XP (ip' - 1) < X k)%Q).
          { destruct (Nat.eq_dec ip' ip) as [->|Hne].
            - destruct J2 as [J2|(j & Hj & J2)]; [pose proof (X_le i k ltac:(lia) ltac:(lia)); lra|pose proof (X_le j k ltac:(lia) ltac:(lia)); lra].
            - apply S3. lia. }
          split; [lia|]. split; [right; exists k; split; [lia|exact Hbelow]|]. split; [rewrite upd_length; exact J3|]. split.
          -- intros q Hq. rewrite nth_error_upd_other by lia. apply J4. lia.
          -- intros q Hq. destruct (Nat.eq_dec q k) as [->|Hne]; [|rewrite nth_error_upd_other by lia; apply J5; lia].
             eexists. split; [apply nth_error_upd_same; lia|]. exists (ip' - 1)%nat. replace (S (ip' - 1)) with ip' by lia. split; [lia|]. split; [exact Hbelow|]. split; [exact S2|].
             unfold line. field. lra.
        * rewrite E3. cbn [bind]. exists h. split; [reflexivity|]. split; [exact J3|]. replace (i + (S m - i))%nat with (S m) in J4, J5 by lia.
          apply Fin; [exact J3|intros; apply J4; lia|intros; apply J4; lia|exact J5].
  Qed.

  (** With the values of the first and of the last point at the ends, it is the interpolant. *)
  Lemma default_ok junk : length junk = n -> strictly_increasing xp ->
    exists f, interp_default junk x xp fp = interp junk x xp fp (FP 0) (FP (P - 1)) /\ (lft = FP 0 -> rgt = FP (P - 1) ->
      interp junk x xp fp lft rgt = Ok f /\ length f = n /\
      forall i xi, nth_error x i = Some xi -> exists y, nth_error f i = Some y /\ interpolates xp fp xi y).
  Proof.
    intros Lj Hst. destruct (interp_ok junk Lj) as (f & E & L & H). exists f. split.
    { unfold interp_default. rewrite (rdz_ok fp 0 (FP 0)) by (try lia; apply FP_at; apply P_pos). cbn [bind]. rewrite Lf. fold P.
      rewrite (rdz_ok fp (Z.of_nat P - 1) (FP (P - 1))); [reflexivity|pose proof P_pos; lia|].
      replace (Z.to_nat (Z.of_nat P - 1)) with (P - 1)%nat by lia. apply FP_at. pose proof P_pos. lia. }
    intros El Er. split; [exact E|]. split; [exact L|]. intros i xi Exi.
    assert (Hi : (i < n)%nat) by (apply nth_error_Some; congruence). rewrite X_at in Exi by exact Hi. injection Exi as <-.
    destruct (H i Hi) as (y & Ey & C1 & C2 & C3). exists y. split; [exact Ey|].
    assert (XPlt : forall a b, (a < b)%nat -> (b < P)%nat -> (XP a < XP b)%Q) by (intros a b Hab Hb; apply (Hst a b); [exact Hab|apply XP_at; lia..]).
    assert (Xfirst : forall k, (k < P)%nat -> (x0 <= XP k)%Q) by (intros; apply XP_le; lia).
    assert (Xlast : forall k, (k < P)%nat -> (XP k <= xn)%Q) by (intros; apply XP_le; lia).
    pose proof P_pos as PP. pose proof (Xfirst (P - 1)%nat ltac:(lia)) as F0. fold xn in F0.
    split; [|split].
    - intros a b Ea Eb Ha. rewrite XP_at in Ea by lia. rewrite FP_at in Eb by lia. injection Ea as <-. injection Eb as <-. fold x0 in Ha.
      destruct (Qlt_le_dec (X i) xn) as [G|G]; [rewrite (C2 Ha G), El; reflexivity|]. rewrite (C1 G), Er.
      destruct (Nat.eq_dec P 1) as [E1|E1]; [rewrite E1; reflexivity|]. exfalso. pose proof (XPlt 0%nat (P - 1)%nat ltac:(lia) ltac:(lia)) as Q1. fold x0 xn in Q1. lra.
    - fold P. intros a b Ea Eb Ha. rewrite XP_at in Ea by lia. rewrite FP_at in Eb by lia. injection Ea as <-. injection Eb as <-. rewrite (C1 Ha), Er. reflexivity.
    - intros k a b c d Ea Eb Ec Ed Ha Hc. assert (Hk : (S k < P)%nat) by (apply nth_error_Some; congruence).
      rewrite XP_at in Ea by lia. rewrite FP_at in Eb by lia. rewrite XP_at in Ec by lia. rewrite FP_at in Ed by lia. injection Ea as <-. injection Eb as <-. injection Ec as <-. injection Ed as <-.
      pose proof (XPlt k (S k) ltac:(lia) Hk) as Hkk.
      destruct (Qlt_le_dec (X i) xn) as [G|G].
      + destruct (Qlt_le_dec x0 (X i)) as [G'|G'].
        * destruct (C3 G' G) as (k' & B1 & B2 & B3 & B4). rewrite B4. clear B4.
          destruct (lt_eq_lt_dec k k') as [[Hlt|Heq]|Hgt].
          -- destruct (Nat.eq_dec (S k) k') as [<-|Hne]; [lra|]. pose proof (XPlt (S k) k' ltac:(lia) ltac:(lia)). lra.
          -- subst k'. reflexivity.
          -- destruct (Nat.eq_dec (S k') k) as [<-|Hne].
             ++ assert (Eq : (X i == XP (S k'))%Q) by lra. unfold line. rewrite Eq. field. split; lra.
             ++ pose proof (XPlt (S k') k ltac:(lia) ltac:(lia)). lra.
        * assert (Ek : k = O) by (destruct k; [reflexivity|]; pose proof (XPlt 0%nat (S k) ltac:(lia) ltac:(lia)) as Q1; fold x0 in Q1; lra). subst k.
          rewrite (C2 G' G), El. assert (Eq : (X i == XP 0)%Q) by (unfold x0 in G'; lra). unfold line. rewrite Eq. field. lra.
      + assert (Ek : S k = (P - 1)%nat).
        { destruct (Nat.eq_dec (S k) (P - 1)) as [Ek|Ek]; [exact Ek|]. exfalso. pose proof (XPlt (S k) (P - 1)%nat ltac:(lia) ltac:(lia)) as Q1. fold xn in Q1. lra. }
        rewrite (C1 G), Er. assert (Eq : (X i == XP (S k))%Q) by (unfold xn in G; rewrite <- Ek in G; lra).
        rewrite <- Ek. unfold line. rewrite Eq. field. lra.
  Qed.
End Interp.

Lemma interp_lemma (junk x xp fp : list Q) (left right : Q) : increasing x -> increasing xp -> xp <> [] -> length fp = length xp -> length junk = length x ->
  exists f, interp junk x xp fp left right = Ok f /\ length f = length x /\
    forall i xi, nth_error x i = Some xi -> exists y, nth_error f i = Some y /\
      forall x0 xn, nth_error xp 0 = Some x0 -> nth_error xp (length xp - 1) = Some xn ->
        ((xn <= xi)%Q -> y = right) /\ ((xi <= x0)%Q -> (xi < xn)%Q -> y = left) /\
        ((x0 < xi)%Q -> (xi < xn)%Q -> exists k a b c d, nth_error xp k = Some a /\ nth_error fp k = Some b /\ nth_error xp (S k) = Some c /\ nth_error fp (S k) = Some d /\
          (a < xi)%Q /\ (xi <= c)%Q /\ (y == line a b c d xi)%Q).
Proof.
  intros Hx Hp Hn Lf Lj. destruct (interp_ok x xp fp left right Hx Hp Hn Lf junk Lj) as (f & E & L & H). exists f. split; [exact E|]. split; [exact L|].
  intros i xi Ei. assert (Hi : (i < length x)%nat) by (apply nth_error_Some; congruence). destruct (H i Hi) as (y & Ey & C1 & C2 & C3). exists y. split; [exact Ey|].
  apply (nth_error_nth x i 0%Q) in Ei. rewrite Ei in *. intros x0 xn E0 En. apply (nth_error_nth _ _ 0%Q) in E0, En. rewrite E0, En in *.
  split; [exact C1|]. split; [exact C2|]. intros A B. destruct (C3 A B) as (k & K1 & K2 & K3 & K4). exists k. do 4 eexists.
  split; [apply nth_error_nth'; lia|]. split; [apply nth_error_nth'; lia|]. split; [apply nth_error_nth'; lia|]. split; [apply nth_error_nth'; lia|].
  split; [exact K2|]. split; [exact K3|exact K4].
Qed.
Lemma default_lemma (junk x xp fp : list Q) : increasing x -> strictly_increasing xp -> xp <> [] -> length fp = length xp -> length junk = length x ->
  exists f, interp_default junk x xp fp = Ok f /\ length f = length x /\
    forall i xi, nth_error x i = Some xi -> exists y, nth_error f i = Some y /\ interpolates xp fp xi y.
Proof.
  intros Hx Hst Hn Lf Lj.
  assert (Hp : increasing xp) by (intros i j a b Hij Ea Eb; apply Qlt_le_weak; eapply Hst; eassumption).
  destruct (default_ok x xp fp (nth 0 fp 0%Q) (nth (length xp - 1) fp 0%Q) Hx Hp Hn Lf junk Lj Hst) as (f & E & H). destruct (H eq_refl eq_refl) as (E1 & E2 & E3).
  exists f. split; [congruence|]. split; [exact E2|exact E3].
Qed.

Lemma ends_lemma : exists (junk x xp fp f : list Q) (left right : Q), increasing x /\ strictly_increasing xp /\ length fp = length xp /\ length junk = length x /\
  x = [0; 1]%Q /\ xp = [0; 1]%Q /\ fp = [5; 6]%Q /\ left = (-1)%Q /\ right = (-2)%Q /\ interp junk x xp fp left right = Ok f /\ f = [left; right].
Proof.
  exists [9; 9]%Q, [0; 1]%Q, [0; 1]%Q, [5; 6]%Q. eexists. exists (-1)%Q, (-2)%Q.
  split; [|split; [|repeat (split; [reflexivity|]); split; vm_compute; reflexivity]].
  - intros [|[|i]] [|[|[|j]]] a b Hij Ea Eb; cbn in *; try lia; try discriminate. injection Ea as <-. injection Eb as <-. lra.
  - intros [|[|i]] [|[|[|j]]] a b Hij Ea Eb; cbn in *; try lia; try discriminate. injection Ea as <-. injection Eb as <-. lra.
Qed.

Lemma valid_flip_lemma : exists a v : list Z, length a = length v /\ convolve 1 a 1 v valid = Ok [7] /\ conv_at a v (length a - 1) = 5.
Proof. exists [1; 2], [1; 3]. split; [reflexivity|]. split; vm_compute; reflexivity. Qed.
