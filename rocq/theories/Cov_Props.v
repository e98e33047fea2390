(** C91: cov. *)
From Coq Require Import List ZArith QArith Bool Lia Lqa.
From Verif Require Import Unwrap_Model Cov_Model Cov_Spec Cov_Proofs.
Import ListNotations.
Open Scope Q_scope.

(** cov(x), x with k rows of n observations each: the entry at (r, c) is the sample covariance of rows r and c. Partial: at least two observations (see C91_one_refuted
    and C91_empty_refuted), and elements that are not integers (see C91_integer_refuted). *)
Theorem C91_cov_partial : forall k n x r c, (2 <= n)%nat -> (Z.of_nat n <= 2 ^ 64)%Z -> (r < k)%nat -> (c < k)%nat ->
  exists q, cov_rows false k n x r c = Some q /\ q == covariance n (x r) (x c).
Proof. exact cov_ok. Qed.
Print Assumptions C91_cov_partial.
(** cov of one-dimensional x, and of x and y *)
Theorem C91_vectors_partial : forall n x y, (2 <= n)%nat -> (Z.of_nat n <= 2 ^ 64)%Z ->
  (exists q, cov_vector false n x 0%nat 0%nat = Some q /\ q == covariance n x x) /\
  (exists q, cov_pair false n x y 0%nat 0%nat = Some q /\ q == covariance n x x) /\ (exists q, cov_pair false n x y 0%nat 1%nat = Some q /\ q == covariance n x y) /\
  (exists q, cov_pair false n x y 1%nat 0%nat = Some q /\ q == covariance n x y) /\ (exists q, cov_pair false n x y 1%nat 1%nat = Some q /\ q == covariance n y y).
Proof.
  intros n x y H1 H2. split; [exact (entry_ok n (fun _ => x) 0 0 H1 H2)|]. set (rows := fun r : nat => match r with O => x | _ => y end).
  split; [exact (cov_ok 2 n rows 0 0 H1 H2 ltac:(lia) ltac:(lia))|]. split; [exact (cov_ok 2 n rows 0 1 H1 H2 ltac:(lia) ltac:(lia))|].
  split; [|exact (cov_ok 2 n rows 1 1 H1 H2 ltac:(lia) ltac:(lia))].
  destruct (cov_ok 2 n rows 1 0 H1 H2 ltac:(lia) ltac:(lia)) as (q & E & Hq). exists q. split; [exact E|]. rewrite Hq. apply covariance_sym.
Qed.
Print Assumptions C91_vectors_partial.

(** The matrix is symmetric, also for integers and any number of observations. *)
Theorem C91_symmetric : forall integral k n x r c, (r < k)%nat -> (c < k)%nat ->
  match cov_rows integral k n x r c, cov_rows integral k n x c r with Some p, Some q => p == q | None, None => True | _, _ => False end.
Proof.
  intros integral k n x r c Hr Hc. destruct (cov_rows_eq integral k n x r c Hr Hc) as (v & -> & H). destruct (cov_rows_eq integral k n x c r Hc Hr) as (w & -> & G).
  rewrite Nat.min_comm, Nat.max_comm in G. destruct (entry integral n x (Nat.min r c) (Nat.max r c)) as [e|].
  - destruct H as (p & -> & Hp). destruct G as (q & -> & Hq). rewrite Hp, Hq. reflexivity.
  - subst v w. exact I.
Qed.
Print Assumptions C91_symmetric.

(** It is positive semidefinite; with one coefficient other than 0: variances are not negative. *)
Theorem C91_semidefinite_partial : forall k n x (m : nat -> nat -> Q) (a : nat -> Q), (2 <= n)%nat -> (Z.of_nat n <= 2 ^ 64)%Z ->
  (forall r c, (r < k)%nat -> (c < k)%nat -> cov_rows false k n x r c = Some (m r c)) ->
  0 <= total k (fun r => total k (fun c => a r * a c * m r c)).
Proof.
  intros k n x m a H1 H2 Hm.
  rewrite (total_ext k _ (fun r => total k (fun c => a r * a c * covariance n (x r) (x c)))); [exact (covariance_psd n k a x H1)|].
  intros r Hr. apply total_ext. intros c Hc. destruct (cov_ok k n x r c H1 H2 Hr Hc) as (q & E & Hq). rewrite (Hm r c Hr Hc) in E. injection E as ->. rewrite Hq. reflexivity.
Qed.
Print Assumptions C91_semidefinite_partial.

(** A change of the units and the origins of the rows *)
Theorem C91_affine_partial : forall k n x (a b : nat -> Q) r c, (2 <= n)%nat -> (Z.of_nat n <= 2 ^ 64)%Z -> (r < k)%nat -> (c < k)%nat ->
  exists p q, cov_rows false k n (fun i j => a i * x i j + b i) r c = Some p /\ cov_rows false k n x r c = Some q /\ p == a r * a c * q.
Proof.
  intros k n x a b r c H1 H2 Hr Hc. destruct (cov_ok k n (fun i j => a i * x i j + b i) r c H1 H2 Hr Hc) as (p & E & Hp).
  destruct (cov_ok k n x r c H1 H2 Hr Hc) as (q & F & Hq). exists p, q. split; [exact E|]. split; [exact F|]. rewrite Hp, Hq.
  rewrite covariance_affine by lia. rewrite covariance_sym, covariance_affine by lia. rewrite covariance_sym. ring.
Qed.
Print Assumptions C91_affine_partial.

(** Three rows of three observations *)
Example C91_case : let x := fun r c => inject_Z (nth c (nth r [[0; 1; 2]; [2; 1; 0]; [1; 5; 3]]%Z []) 0%Z) in
  map (fun r => map (fun c => option_map Qred (cov_rows false 3 3 x r c)) [0; 1; 2]%nat) [0; 1; 2]%nat =
  [[Some 1; Some (-1 # 1); Some 1]; [Some (-1 # 1); Some 1; Some (-1 # 1)]; [Some 1; Some (-1 # 1); Some 4]].
Proof. vm_compute. reflexivity. Qed.

(** One observation: no entry is a number. *)
Theorem C91_one_refuted : forall integral k x r c, (r < k)%nat -> (c < k)%nat -> cov_rows integral k 1 x r c = None /\ cov_vector integral 1 (x r) 0%nat 0%nat = None.
Proof.
  intros integral k x r c Hr Hc. split; [|reflexivity]. destruct (cov_rows_eq integral k 1 x r c Hr Hc) as (v & -> & H). exact H.
Qed.
Print Assumptions C91_one_refuted.
(** No observations: the divisor is the greatest integer of the index type, and the entries are 0. *)
Theorem C91_empty_refuted : forall k x r c, (r < k)%nat -> (c < k)%nat -> exists q, cov_rows false k 0 x r c = Some q /\ q == 0.
Proof.
  intros k x r c Hr Hc. destruct (cov_rows_eq false k 0 x r c Hr Hc) as (v & -> & H). unfold entry in H.
  change (Z.eqb (divisor 0) 0) with false in H. cbv iota in H. destruct H as (q & -> & Hq). exists q. split; [reflexivity|]. rewrite Hq. vm_compute. reflexivity.
Qed.
Print Assumptions C91_empty_refuted.
(** Integers: the entries are truncated. The variance of 0 and 1 is 1/2 and becomes 0. *)
Theorem C91_integer_refuted : exists x, exists q, cov_rows true 1 2 x 0%nat 0%nat = Some q /\ q == 0 /\ covariance 2 (x 0%nat) (x 0%nat) == 1 # 2.
Proof. exists (fun _ c => inject_Z (Z.of_nat c)). eexists. split; [vm_compute; reflexivity|]. split; vm_compute; reflexivity. Qed.
Print Assumptions C91_integer_refuted.
