From Coq Require Import List ZArith Bool Lia Permutation Sorted QArith Qround Lqa.
From Verif Require Import Prelude PreludeFacts Strides_Model Access_Model Container_Model Slice_Model Manip_Model Sort_Model Sort_Spec Sort5_Proofs Hist_Model Hist_Spec Hist_Proofs Hist2_Proofs Hist3_Proofs Hist4_Proofs Hist5_Proofs.
Import ListNotations.
Open Scope Z_scope.

(** Edges with the same number of items in each bin *)
Definition q_ge (x y : Q) : bool := Qle_bool y x.

Lemma cumulate_nth (w : Q) : forall m k acc, (k < m)%nat -> exists c, nth_error (cumulate Qplus w acc m) k = Some c /\ (c == acc + inject_Z (Z.of_nat (S k)) * w)%Q.
Proof.
  induction m as [|m IH]; intros k acc Hk; [lia|]. destruct k as [|k]; cbn [cumulate nth_error].
  - eexists. split; [reflexivity|]. change (inject_Z (Z.of_nat 1)) with 1%Q. ring.
  - destruct (IH k (acc + w)%Q ltac:(lia)) as (c & E & H). exists c. split; [exact E|]. rewrite H, (Nat2Z.inj_succ (S k)). unfold Z.succ. rewrite inject_Z_plus. change (inject_Z 1) with 1%Q. ring.
Qed.
Lemma sum_ones : forall k acc, (fold_left Qplus (repeat 1%Q k) acc == acc + inject_Z (Z.of_nat k))%Q.
Proof.
  induction k as [|k IH]; intros acc; cbn [repeat fold_left]; [change (inject_Z (Z.of_nat 0)) with 0%Q; ring|].
  rewrite IH, Nat2Z.inj_succ. unfold Z.succ. rewrite inject_Z_plus. change (inject_Z 1) with 1%Q. ring.
Qed.

Section Uniform.
Context {A : arith} (T : vtype A) (a : algos) (data junk : list (val T)) (left right : val T) (bins : nat).
Notation lt := (v_lt T).
Notation n := (length data).
Hypothesis Ha : std_ok a.
Hypothesis Sw : strict_weak_order lt data.
Hypothesis Hb : (1 <= bins <= n)%nat.
Hypothesis Hj : length junk = S bins.

Definition cut (b : nat) : nat := Nat.div (b * n + (bins - 1)) bins.
Lemma cut_spec b i : (i < cut b <-> i * bins < b * n)%nat.
Proof.
  unfold cut. pose proof (Nat.div_mod (b * n + (bins - 1)) bins ltac:(lia)) as D. pose proof (Nat.mod_upper_bound (b * n + (bins - 1)) bins ltac:(lia)) as M.
  set (q := Nat.div _ _) in *. set (r := Nat.modulo _ _) in *. split; intros H; nia.
Qed.
Lemma cut_last : cut bins = n.
Proof.
  unfold cut. replace (bins * n + (bins - 1))%nat with ((bins - 1) + n * bins)%nat by lia. rewrite Nat.div_add by lia.
  rewrite Nat.div_small by lia. reflexivity.
Qed.
Lemma cut_next b : (cut b < cut (S b))%nat.
Proof.
  apply cut_spec. unfold cut. pose proof (Nat.div_mod (b * n + (bins - 1)) bins ltac:(lia)) as D.
  set (q := Nat.div _ _) in *. set (r := Nat.modulo _ _) in *. nia.
Qed.

Lemma uniform_lemma : exists edges ws,
  uniform_edges T 0%Q Qplus a Qdiv inject_Z q_ge junk data (repeat 1%Q n) left right bins = Ok edges /\
  length edges = S bins /\ Permutation ws data /\ sorted lt ws /\
  nth_error edges 0 = Some left /\ nth_error edges bins = Some right /\
  forall b, (0 < b < bins)%nat -> exists x, nth_error edges b = Some x /\ nth_error ws (cut b) = Some x.
Proof.
  unfold uniform_edges.
  assert (Li : length (iota n) = n) by (unfold iota; rewrite map_length, seq_length; reflexivity).
  destruct (argsort_iter_ok a lt false data (iota n) Ha) as (sorter & Es & Ls & (ws & (Pp & Fp) & Sp) & _).
  { lia. }
  { rewrite Li, firstn_all. exact Sw. }
  rewrite Li, firstn_all in Pp, Fp. rewrite Li in Ls. rewrite Es. cbn [bind]. cbv zeta.
  set (w := (fold_left Qplus (repeat 1%Q n) 0 / inject_Z (Z.of_nat bins))%Q).
  assert (Hbq : (1 <= inject_Z (Z.of_nat bins))%Q) by (change 1%Q with (inject_Z 1); rewrite <- Zle_Qle; lia).
  assert (Hw : (w * inject_Z (Z.of_nat bins) == inject_Z (Z.of_nat n))%Q).
  { unfold w. rewrite sum_ones. field. lra. }
  set (count := match bins with O => [] | S m => w :: cumulate Qplus w w m end).
  assert (Hcount : forall k, (k < bins)%nat -> exists c, nth_error count k = Some c /\ (c == inject_Z (Z.of_nat (S k)) * w)%Q).
  { intros k Hk. unfold count. destruct bins as [|m]; [lia|]. destruct k as [|k]; cbn [nth_error].
    - exists w. split; [reflexivity|]. change (inject_Z (Z.of_nat 1)) with 1%Q. ring.
    - destruct (cumulate_nth w m k w ltac:(lia)) as (c & E & H). exists c. split; [exact E|]. rewrite H, (Nat2Z.inj_succ (S k)). unfold Z.succ. rewrite inject_Z_plus. change (inject_Z 1) with 1%Q. ring. }
  rewrite wr_ok by lia. cbn [bind]. rewrite wr_ok by (rewrite upd_length; lia). cbn [bind].
  set (start := upd (upd junk 0 left) bins right).
  assert (Lst : length start = S bins) by (unfold start; rewrite !upd_length; exact Hj).
  pose (Inv := fun (i : nat) (s : list (val T) * Q * nat) => let '(edges, cum, ibin) := s in
    length edges = S bins /\ (cum == inject_Z (Z.of_nat i))%Q /\ (ibin < bins)%nat /\ (ibin = 0%nat \/ cut ibin < i)%nat /\ (i <= cut (S ibin))%nat /\
    nth_error edges 0 = Some left /\ nth_error edges bins = Some right /\
    forall b, (0 < b <= ibin)%nat -> exists x, nth_error edges b = Some x /\ nth_error ws (cut b) = Some x).
  rewrite repeat_length.
  match goal with |- exists edges ws', (bind (for_up ?f _ _ _) _) = _ /\ _ => destruct (for_up_inv Inv f 0 n (start, 0%Q, 0%nat)) as (s & E & Hs) end.
  - unfold Inv. split; [exact Lst|]. split; [reflexivity|]. split; [lia|]. split; [left; reflexivity|]. split; [lia|].
    unfold start. split; [rewrite nth_error_upd_other by lia; apply nth_error_upd_same; lia|]. split; [apply nth_error_upd_same; rewrite upd_length; lia|]. intros b Hb'. lia.
  - intros i [[edges cum] ibin] Hi (I1 & I2 & I3 & I4 & I5 & I6 & I7 & I8).
    destruct (Hcount ibin I3) as (c & Ec & Hc). rewrite (rd_ok _ _ _ Ec). cbn [bind].
    destruct (nth_error sorter i) as [s|] eqn:Ei; [|apply nth_error_None in Ei; lia]. rewrite (rd_ok _ _ _ Ei). cbn [bind].
    assert (Ews : exists x, nth_error ws i = Some x /\ nth_error data (Z.to_nat s) = Some x).
    { clear - Fp Ei. revert i Ei. induction Fp as [|s' x idx ws E F IH]; intros i Ei; [destruct i; discriminate|]. destruct i as [|i]; cbn in Ei; [injection Ei as <-; exists x; split; [reflexivity|exact E]|exact (IH i Ei)]. }
    destruct Ews as (x & Ex & Ed).
    assert (Hs0 : 0 <= s < Z.of_nat n).
    { pose proof (nth_error_In _ _ Ei) as Hin. apply (Permutation_in _ Pp) in Hin. apply in_map_iff in Hin. destruct Hin as (k & <- & Hk). apply in_seq in Hk. lia. }
    assert (Ew : rdz (repeat 1%Q n) s = Ok 1%Q) by (apply rdz_ok; [lia|]; apply nth_error_repeat; lia).
    assert (Hge : q_ge cum c = true <-> (cut (S ibin) <= i)%nat).
    { unfold q_ge. rewrite Qle_bool_iff, I2, Hc. rewrite Nat.le_ngt. rewrite cut_spec. rewrite Nat.nlt_ge.
      assert (Zm : (inject_Z (Z.of_nat (S ibin)) * w <= inject_Z (Z.of_nat i))%Q <-> (inject_Z (Z.of_nat (S ibin)) * inject_Z (Z.of_nat n) <= inject_Z (Z.of_nat i) * inject_Z (Z.of_nat bins))%Q) by (rewrite <- Hw; split; intros; nra).
      rewrite Zm, <- !inject_Z_mult, <- Zle_Qle. nia. }
    destruct (q_ge cum c) eqn:Eg.
    + assert (Ec' : i = cut (S ibin)) by (assert (cut (S ibin) <= i)%nat by (apply Hge; reflexivity); lia).
      assert (Hib : (S ibin < bins)%nat).
      { destruct (Nat.eq_dec (S ibin) bins) as [Eb|]; [|lia]. rewrite Eb, cut_last in Ec'. lia. }
      rewrite (rdz_ok data s x) by (try lia; exact Ed). cbn [bind]. rewrite wr_ok by lia. cbn [bind]. rewrite Ew. cbn [bind].
      eexists. split; [reflexivity|]. unfold Inv. split; [rewrite upd_length; exact I1|].
      split; [rewrite I2, Nat2Z.inj_succ; unfold Z.succ; rewrite inject_Z_plus; reflexivity|]. split; [lia|]. split; [right; rewrite Nat.add_1_r, <- Ec'; lia|].
      split; [rewrite Nat.add_1_r; pose proof (cut_next (S ibin)); lia|]. split; [rewrite nth_error_upd_other by lia; exact I6|]. split; [rewrite nth_error_upd_other by lia; exact I7|].
      intros b Hbb. destruct (Nat.eq_dec b (ibin + 1)) as [->|Hnb].
      * exists x. split; [apply nth_error_upd_same; lia|]. rewrite Nat.add_1_r, <- Ec'. exact Ex.
      * rewrite nth_error_upd_other by lia. apply I8. lia.
    + cbn [bind]. rewrite Ew. cbn [bind]. eexists. split; [reflexivity|]. unfold Inv. split; [exact I1|].
      split; [rewrite I2, Nat2Z.inj_succ; unfold Z.succ; rewrite inject_Z_plus; reflexivity|]. split; [exact I3|]. split; [destruct I4 as [I4|I4]; [left; exact I4|right; lia]|].
      split; [|split; [exact I6|split; [exact I7|exact I8]]]. assert (~ (cut (S ibin) <= i)%nat) by (intros HH; apply Hge in HH; discriminate). lia.
  - rewrite E. destruct s as [[edges cum] ibin]. destruct Hs as (I1 & I2 & I3 & I4 & I5 & I6 & I7 & I8). cbn [bind].
    exists edges, ws. split; [reflexivity|]. split; [exact I1|]. split; [exact (nth_perm data sorter ws Fp Pp)|]. split; [exact Sp|]. split; [exact I6|]. split; [exact I7|].
    intros b Hbb. apply I8. enough (S ibin = bins)%nat by lia.
    destruct (Nat.eq_dec (S ibin) bins) as [|Hnb]; [assumption|]. exfalso.
    assert (M : (cut (S ibin) < cut bins)%nat).
    { apply cut_spec. unfold cut. pose proof (Nat.div_mod (S ibin * n + (bins - 1)) bins ltac:(lia)) as D. set (q := Nat.div _ _) in *. set (r := Nat.modulo _ _) in *. nia. }
    rewrite cut_last in M. lia.
Qed.
End Uniform.
