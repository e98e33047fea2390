(** Proofs for C88: floating-point numbers, isclose, allclose. *)
From Coq Require Import List ZArith Lia Bool QArith Qcanon Qcabs.
From Verif Require Import Prelude PreludeFacts Strides_Model Strides_Spec Broadcast_Model Broadcast_Spec Broadcast2_Proofs Broadcast_Props Stepper_Model Stepper_Spec Container_Spec
  Reduce_Model Reduce_Spec Reduce13_Proofs Norm_Model Elem_Model Elem_Spec Elem_Proofs.
Import ListNotations.
Open Scope Z_scope.

Lemma qlt_iff a b : qlt a b = true <-> (a < b)%Qc.
Proof. unfold qlt. rewrite Qclt_alt. destruct (a ?= b)%Qc; split; congruence. Qed.
Lemma qlt_false a b : qlt a b = false <-> (b <= a)%Qc.
Proof.
  split; intros H.
  - apply Qcnot_lt_le. intros X. apply qlt_iff in X. congruence.
  - destruct (qlt a b) eqn:E; [|reflexivity]. apply qlt_iff in E. exfalso. exact (Qclt_not_le _ _ E H).
Qed.
Lemma fl_le_fin a b : fl_le (Fin a) (Fin b) = true <-> (a <= b)%Qc.
Proof.
  unfold fl_le. cbn [fl_lt fl_eq]. destruct (qlt a b) eqn:E1; cbn [negb orb andb].
  - apply qlt_iff in E1. split; [intros _; apply Qclt_le_weak; exact E1|reflexivity].
  - destruct (qlt b a) eqn:E2; cbn [negb]; split; intros H; try reflexivity; try discriminate.
    + apply qlt_iff in E2. exfalso. exact (Qclt_not_le _ _ E2 H).
    + apply qlt_false. exact E2.
Qed.
Lemma fl_eq_refl x : is_nan x = false -> fl_eq x x = true.
Proof. destruct x as [|s|q]; [discriminate|intros _; destruct s; reflexivity|intros _]. cbn. assert (qlt q q = false) as -> by (apply qlt_false, Qcle_refl). reflexivity. Qed.
Lemma fl_abs_fin a : fl_abs (Fin a) = Fin (Qcabs a).
Proof.
  cbn. f_equal. destruct (qlt a 0%Qc) eqn:E.
  - apply qlt_iff in E. symmetry. apply Qcabs_neg. apply Qclt_le_weak. exact E.
  - apply qlt_false in E. symmetry. apply Qcabs_pos. exact E.
Qed.
Lemma std_max_fin a b : std_max (Fin a) (Fin b) = Fin (if qlt a b then b else a).
Proof. unfold std_max. cbn [fl_lt]. destruct (qlt a b); reflexivity. Qed.
Lemma isclose_fin rtol atol nn a b : (0 <= rtol)%Qc ->
  isclose (Fin rtol) (Fin atol) nn (Fin a) (Fin b) = true <->
  (Qcabs (a - b) <= atol \/ Qcabs (a - b) <= rtol * Qcabs a \/ Qcabs (a - b) <= rtol * Qcabs b)%Qc.
Proof.
  intros Hr. unfold isclose. cbn [is_nan is_inf andb fl_sub]. rewrite !fl_abs_fin, std_max_fin. cbn [fl_mul]. rewrite orb_true_iff, !fl_le_fin.
  destruct (qlt (Qcabs a) (Qcabs b)) eqn:E.
  - apply qlt_iff in E. split; [tauto|]. intros [H|[H|H]]; [auto| |auto]. right. eapply Qcle_trans; [exact H|]. rewrite (Qcmult_comm rtol), (Qcmult_comm rtol).
    apply Qcmult_le_compat_r; [apply Qclt_le_weak; exact E|exact Hr].
  - apply qlt_false in E. split; [tauto|]. intros [H|[H|H]]; [auto|auto|]. right. eapply Qcle_trans; [exact H|]. rewrite (Qcmult_comm rtol), (Qcmult_comm rtol).
    apply Qcmult_le_compat_r; [exact E|exact Hr].
Qed.
Lemma fl_sub_sym a b : fl_abs (fl_sub a b) = fl_abs (fl_sub b a).
Proof.
  destruct a as [|s|a], b as [|t|b]; try reflexivity.
  - cbn. destruct s, t; reflexivity.
  - cbn [fl_sub]. rewrite !fl_abs_fin. f_equal. rewrite <- Qcabs_opp. f_equal. ring.
Qed.
Lemma std_max_sym a b : is_nan a = is_nan b -> std_max a b = std_max b a.
Proof.
  destruct a as [|s|a], b as [|t|b]; try discriminate; intros _; try reflexivity.
  - destruct s, t; reflexivity.
  - destruct s; reflexivity.
  - destruct t; reflexivity.
  - rewrite !std_max_fin. f_equal. destruct (qlt a b) eqn:E1, (qlt b a) eqn:E2; try reflexivity.
    + apply qlt_iff in E1, E2. exfalso. exact (Qclt_not_le _ _ E1 (Qclt_le_weak _ _ E2)).
    + apply qlt_false in E1, E2. apply Qcle_antisym; assumption.
Qed.
Lemma fl_eq_sym a b : fl_eq a b = fl_eq b a.
Proof. destruct a as [|s|a], b as [|t|b]; try reflexivity; cbn; [destruct s, t; reflexivity|apply andb_comm]. Qed.
Lemma nan_abs a : is_nan (fl_abs a) = is_nan a. Proof. destruct a; reflexivity. Qed.
Lemma isclose_sym rtol atol nn a b : isclose rtol atol nn a b = isclose rtol atol nn b a.
Proof.
  unfold isclose. rewrite (andb_comm (is_nan a)), (andb_comm (is_inf a)), (fl_eq_sym a b), (fl_sub_sym a b).
  destruct (is_nan b && is_nan a) eqn:E1; [reflexivity|]. destruct (is_inf b && is_inf a); [reflexivity|].
  destruct (Bool.eqb (is_nan a) (is_nan b)) eqn:E2.
  - apply Bool.eqb_prop in E2. rewrite (std_max_sym (fl_abs a) (fl_abs b)) by (rewrite !nan_abs; exact E2). reflexivity.
  - assert (D : fl_abs (fl_sub b a) = NaN) by (destruct a as [|s|a], b as [|t|b]; try reflexivity; discriminate E2). rewrite D. reflexivity.
Qed.
Lemma isclose_refl rtol atol nn a : (0 <= atol)%Qc -> isclose rtol (Fin atol) nn a a = match a with NaN => nn | _ => true end.
Proof.
  intros H. unfold isclose. destruct a as [|s|a]; [reflexivity|cbn; destruct s; reflexivity|]. cbn [is_nan is_inf andb fl_sub]. rewrite fl_abs_fin.
  assert (E : Qcabs (a - a) = 0%Qc) by (replace (a - a)%Qc with 0%Qc by ring; apply Qcabs_pos, Qcle_refl). rewrite E. apply orb_true_iff. left. apply fl_le_fin. exact H.
Qed.
Lemma isclose_nan rtol atol nn a : is_nan a = false -> isclose rtol atol nn NaN a = false /\ isclose rtol atol nn a NaN = false.
Proof.
  intros H. assert (X : isclose rtol atol nn NaN a = false) by (unfold isclose; cbn [is_nan andb]; rewrite H; cbn [is_inf andb fl_sub fl_abs]; reflexivity).
  split; [exact X|]. rewrite isclose_sym. exact X.
Qed.
Lemma isclose_inf_fin rtol atol nn s b : (0 < rtol)%Qc -> isclose (Fin rtol) (Fin atol) nn (Inf s) (Fin b) = true.
Proof.
  intros H. unfold isclose. cbn [is_nan is_inf andb fl_sub]. rewrite fl_abs_fin. cbn [fl_abs std_max fl_lt]. unfold std_max. cbn [fl_lt fl_mul].
  apply qlt_iff in H. assert (E : qlt rtol 0%Qc = false) by (apply qlt_false, Qclt_le_weak, qlt_iff; exact H). rewrite E, H. reflexivity.
Qed.

(** ** all, any *)
Lemma all_of_ok {I} (f : I -> res bool) (p : I -> bool) l : (forall x, In x l -> f x = Ok (p x)) -> all_of (map f l) = Ok (forallb p l).
Proof.
  induction l as [|x l IH]; intros H; [reflexivity|]. cbn [map all_of forallb]. rewrite (H x (or_introl eq_refl)). cbn [bind].
  destruct (p x); [apply IH; intros y Hy; apply H; right; exact Hy|reflexivity].
Qed.
Lemma any_of_ok {I} (f : I -> res bool) (p : I -> bool) l : (forall x, In x l -> f x = Ok (p x)) -> any_of (map f l) = Ok (existsb p l).
Proof.
  induction l as [|x l IH]; intros H; [reflexivity|]. cbn [map any_of existsb]. rewrite (H x (or_introl eq_refl)). cbn [bind].
  destruct (p x); [reflexivity|apply IH; intros y Hy; apply H; right; exact Hy].
Qed.

Lemma close_ok DT rtol atol s1 e1 v1 s2 e2 v2 : is_order DT -> real_shape s1 -> real_shape s2 ->
  (forall ix, in_bounds s1 ix -> e1 ix = Ok (v1 ix)) -> (forall ix, in_bounds s2 ix -> e2 ix = Ok (v2 ix)) ->
  (compatible [s1; s2] -> exists b sh, allclose DT rtol atol s1 e1 s2 e2 = Returned b /\ broadcast_of [s1; s2] sh /\
     (b = true <-> forall ix, in_bounds sh ix -> isclose rtol atol false (v1 (bc_index s1 ix)) (v2 (bc_index s2 ix)) = true)) /\
  (~ compatible [s1; s2] -> allclose DT rtol atol s1 e1 s2 e2 = Terminated).
Proof.
  intros HD R1 R2 H1 H2. unfold allclose. assert (Re : real_expr (EFun [ELeaf s1; ELeaf s2])) by (unfold real_expr; cbn; auto).
  destruct (C07_broadcast_shape _ Re) as [C N]. cbn [leaves flat_map app] in C, N. split.
  - intros K. destruct (C K) as (sh & t & E & B). rewrite E. cbn [bind]. unfold x_all.
    assert (Bx : forall s, In s [s1; s2] -> forall ix, in_bounds sh ix -> in_bounds s (bc_index s ix)).
    { intros s Hs ix Hix. destruct B as (L & _ & B). eapply bc_index_in_bounds; [apply L; exact Hs|exact Hix|]. intros k. apply B. exact Hs. }
    rewrite (all_of_ok _ (fun ix => isclose rtol atol false (v1 (bc_index s1 ix)) (v2 (bc_index s2 ix)))).
    2:{ intros ix Hix. apply indices_of_in in Hix; [|exact HD]. rewrite H1 by (apply Bx; [left; reflexivity|exact Hix]). cbn [bind].
        rewrite H2 by (apply Bx; [right; left; reflexivity|exact Hix]). reflexivity. }
    eexists _, sh. split; [reflexivity|]. split; [exact B|]. rewrite forallb_forall. split.
    + intros F ix Hix. apply F. apply indices_of_in; assumption.
    + intros F ix Hix. apply F. apply indices_of_in in Hix; assumption.
  - intros K. rewrite (N K). reflexivity.
Qed.
Lemma all_ok DT sh (e : list Z -> res bool) p : is_order DT -> (forall ix, in_bounds sh ix -> e ix = Ok (p ix)) ->
  (exists b, x_all DT sh e = Ok b /\ (b = true <-> forall ix, in_bounds sh ix -> p ix = true)) /\
  (exists b, x_any DT sh e = Ok b /\ (b = true <-> exists ix, in_bounds sh ix /\ p ix = true)).
Proof.
  intros HD H. unfold x_all, x_any. assert (In_ : forall ix, In ix (indices_of DT sh) <-> in_bounds sh ix) by (intros ix; apply indices_of_in; exact HD).
  rewrite (all_of_ok _ p), (any_of_ok _ p) by (intros ix Hix; apply H, In_; exact Hix).
  split; eexists; (split; [reflexivity|]).
  - rewrite forallb_forall. split; intros F ix Hix; apply F, In_; exact Hix.
  - rewrite existsb_exists. split; intros (ix & Hix & E); exists ix; (split; [apply In_; exact Hix|exact E]).
Qed.
