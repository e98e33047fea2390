(** The complex numbers as pairs of real numbers *)
From Coq Require Import List ZArith Bool Lia Ring_theory Reals Lra.
From Verif Require Import Prelude Fft_Model Fft_Spec.
Import ListNotations.
Open Scope R_scope.

Definition angle (a b : Z) : R := PI * IZR a / IZR b.
Definition complex : arith (R * R) := mk_arith (0, 0)
  (fun x y => (fst x + fst y, snd x + snd y)) (fun x y => (fst x - fst y, snd x - snd y))
  (fun x y => (fst x * fst y - snd x * snd y, fst x * snd y + snd x * fst y))
  (fun x => (fst x, - snd x)) (fun x n => (fst x / IZR n, snd x / IZR n))
  (fun a b => (cos (angle a b), - sin (angle a b))).

Lemma numeral_real n : numeral complex (1, 0) n = (INR n, 0).
Proof. induction n as [|n IH]; [reflexivity|]. cbn [numeral]. rewrite IH, S_INR. cbn. f_equal; ring. Qed.
Lemma IZR_pos b : (0 < b)%Z -> IZR b <> 0.
Proof. intros H. apply not_0_IZR. lia. Qed.

Lemma complex_is_complex : complex_laws complex (1, 0) (fun x => (- fst x, - snd x)).
Proof.
  split.
  - split; intros; repeat match goal with x : (R * R)%type |- _ => destruct x end; cbn; f_equal; ring.
  - intros [a b] [c d] H. cbn in H. injection H as H1 H2. cbn.
    destruct (Req_dec (a * a + b * b) 0) as [E|E].
    + left. assert (a = 0 /\ b = 0) as [-> ->]; [|reflexivity]. split; nra.
    + right. assert (E1 : (a * a + b * b) * c = 0) by (replace ((a * a + b * b) * c) with (a * (a * c - b * d) + b * (a * d + b * c)) by ring; rewrite H1, H2; ring).
      assert (E2 : (a * a + b * b) * d = 0) by (replace ((a * a + b * b) * d) with (a * (a * d + b * c) - b * (a * c - b * d)) by ring; rewrite H1, H2; ring).
      apply Rmult_integral in E1. apply Rmult_integral in E2. destruct E1 as [E1|E1]; [contradiction|]. destruct E2 as [E2|E2]; [contradiction|]. subst. reflexivity.
  - intros [a b] n Hn. rewrite numeral_real. cbn. rewrite INR_IZR_INZ, Z2Nat.id by lia. pose proof (IZR_pos n Hn). f_equal; field; assumption.
  - intros [a b] [c d]. cbn. f_equal. ring.
  - intros [a b] [c d]. cbn. f_equal; ring.
  - intros [a b]. cbn. f_equal. ring.
  - intros a b. cbn. unfold angle. rewrite opp_IZR. replace (PI * - IZR a / IZR b) with (- (PI * IZR a / IZR b)) by (unfold Rdiv; ring). rewrite cos_neg, sin_neg. reflexivity.
  - intros a a' b Hb. cbn. unfold angle. rewrite plus_IZR. replace (PI * (IZR a + IZR a') / IZR b) with (PI * IZR a / IZR b + PI * IZR a' / IZR b) by (unfold Rdiv; ring).
    rewrite cos_plus, sin_plus. f_equal; ring.
  - intros a b c Hb Hc. cbn. unfold angle. rewrite !mult_IZR. pose proof (IZR_pos b Hb). pose proof (IZR_pos c Hc).
    replace (PI * (IZR c * IZR a) / (IZR c * IZR b)) with (PI * IZR a / IZR b) by (field; split; assumption). reflexivity.
  - cbn. unfold angle. replace (PI * 1 / 1) with PI by field. rewrite cos_PI, sin_PI. reflexivity.
  - intros a b Hb H. cbn in H. injection H as H1 _. set (x := angle a b) in *.
    assert (Hs : sin (x / 2) = 0).
    { replace x with (2 * (x / 2)) in H1 by field. rewrite cos_2a_sin in H1. nra. }
    apply sin_eq_0_0 in Hs. destruct Hs as (k & Hk). exists k. unfold x, angle in Hk. pose proof (IZR_pos b Hb) as Hb'. pose proof PI_neq0 as HP.
    assert (E : IZR a = IZR (k * (2 * b))).
    { rewrite !mult_IZR. apply (Rmult_eq_reg_l PI); [|exact HP]. transitivity (2 * IZR b * (PI * IZR a / IZR b / 2)); [field; exact Hb'|]. rewrite Hk. ring. }
    apply eq_IZR. exact E.
Qed.
