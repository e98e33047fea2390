(** Immediate reduction: the loop computes the reduced elements. *)
From Coq Require Import List ZArith Lia Bool.
From Verif Require Import Prelude PreludeFacts Strides_Model Strides_Spec Strides_Proofs Stepper_Proofs Assign4_Proofs
  Reduce_Model Reduce_Spec Reduce_Proofs Reduce4_Proofs Reduce5_Proofs Reduce8_Proofs Reduce9_Proofs.
Import ListNotations.
Open Scope Z_scope.

Lemma seq_grid (q : nat -> bool) inner b : (b < inner)%nat -> forall K (p : nat -> bool),
  (forall k b', (k < K)%nat -> (b' < inner)%nat -> p (k * inner + b')%nat = q k && (b' =? b)%nat) ->
  filter p (seq 0 (K * inner)) = map (fun k => (k * inner + b)%nat) (filter q (seq 0 K)).
Proof.
  intros Hb. induction K as [|K IH]; intros p Hp; [reflexivity|].
  rewrite seq_S, filter_app, map_app. replace (S K * inner)%nat with (K * inner + inner)%nat by lia.
  rewrite seq_app, filter_app, IH by (intros; apply Hp; lia). f_equal. cbn [Nat.add filter].
  replace inner with (b + (1 + (inner - b - 1)))%nat at 2 by lia. rewrite !seq_app, !filter_app. cbn [seq filter app].
  rewrite (filter_nothing p (seq (K * inner) b)).
  2:{ intros m Hm. apply in_seq in Hm. replace m with (K * inner + (m - K * inner))%nat by lia. rewrite Hp by lia.
      replace (m - K * inner =? b)%nat with false by (symmetry; apply Nat.eqb_neq; lia). apply andb_false_r. }
  rewrite (filter_nothing p (seq _ (inner - b - 1))).
  2:{ intros m Hm. apply in_seq in Hm. replace m with (K * inner + (m - K * inner))%nat by lia. rewrite Hp by lia.
      replace (m - K * inner =? b)%nat with false by (symmetry; apply Nat.eqb_neq; lia). apply andb_false_r. }
  rewrite Hp, Nat.eqb_refl, andb_true_r by lia. destruct (q K); reflexivity.
Qed.

Lemma nth_seq_id {A} (l : list A) d : l = map (fun m => nth m l d) (seq 0 (length l)).
Proof.
  induction l as [|a l IH]; [reflexivity|]. cbn [length seq map nth]. f_equal. rewrite <- seq_shift, map_map. exact IH.
Qed.

Lemma prod_ones n : prod (repeat 1 n) = 1.
Proof. induction n; [apply prod_nil|]. cbn [repeat]. rewrite prod_cons. lia. Qed.
Lemma app_len_inj {A} : forall (a c b d : list A), length a = length c -> a ++ b = c ++ d -> a = c /\ b = d.
Proof.
  induction a as [|x a IH]; intros [|y c] b d L E; try discriminate L; [auto|]. cbn in E, L. injection E as -> E.
  destruct (IH c b d ltac:(lia) E) as [ -> -> ]. auto.
Qed.
Lemma rix_zeros keep axes : forall sh k, rix keep axes k (repeat 0 (length sh)) = repeat 0 (length (rsh keep axes k sh)).
Proof.
  induction sh as [|d sh IH]; intros k; [rewrite rix_nil, rsh_nil; reflexivity|].
  cbn [length repeat]. rewrite rix_cons, rsh_cons. destruct (in_dec Z.eq_dec k axes), keep; cbn [length repeat]; rewrite ?IH; reflexivity.
Qed.

Section Core.
Context {T R : Type} (f : rfun T R) (keep : bool) (axes A M P : list Z).
Let esh := A ++ M ++ P.
Let k1 := Z.of_nat (length A).
Let k2 := Z.of_nat (length A) + Z.of_nat (length M).
Hypothesis HA : Forall (fun d => 0 < d) A.
Hypothesis HMp : Forall (fun d => 0 < d) M.
Hypothesis HPp : Forall (fun d => 0 < d) P.
Hypothesis HM : forall j, (j < length M)%nat -> In (k1 + Z.of_nat j) axes.
Hypothesis HP : forall j, (j < length P)%nat -> ~ In (k2 + Z.of_nat j) axes.
Hypothesis Hlaw : (forall j, (j < length A)%nat -> ~ In (Z.of_nat j) axes) \/ merge_law f.

Let RM := if keep then repeat 1 (length M) else [].
Let ZM := if keep then repeat 0 (length M) else [].
Lemma core_shape : red_shape keep axes esh = rsh keep axes 0 A ++ RM ++ P.
Proof.
  unfold red_shape, rsh, esh, RM. destruct keep.
  - rewrite !replaced_app, (replaced_all axes 1 M), (replaced_none axes 1 P); [reflexivity|exact HP|exact HM].
  - rewrite !without_app, (without_all axes M), (without_none axes P); [reflexivity|exact HP|exact HM].
Qed.
Lemma core_index a m p : length a = length A -> length m = length M -> length p = length P ->
  red_index keep axes (a ++ m ++ p) = rix keep axes 0 a ++ ZM ++ p.
Proof.
  intros La Lm Lp. unfold red_index, rix, ZM. destruct keep.
  - rewrite !replaced_app, La, Lm. rewrite (replaced_all axes 0 m), (replaced_none axes 0 p), Lm; [reflexivity|rewrite Lp; exact HP|rewrite Lm; exact HM].
  - rewrite !without_app, La, Lm. rewrite (without_all axes m), (without_none axes p); [reflexivity|rewrite Lp; exact HP|rewrite Lm; exact HM].
Qed.

Let inner := Z.to_nat (prod P).
Let outer := Z.to_nat (prod M).
Let C := Z.to_nat (prod A).
Let RA := rsh keep axes 0 A.
Let U := Z.to_nat (prod RA).
Let I n := nth n (row_indices A) [].
Let tau n := Z.to_nat (row_pos RA (rix keep axes 0 (I n))).

Lemma RM_prod : prod RM = 1.
Proof. unfold RM. destruct keep; [apply prod_ones|apply prod_nil]. Qed.
Lemma RM_pos : row_pos RM ZM = 0.
Proof. unfold RM, ZM. destruct keep; [apply row_pos_repeat0|reflexivity]. Qed.
Lemma RM_len : length ZM = length RM.
Proof. unfold RM, ZM. destruct keep; [rewrite !repeat_length|]; reflexivity. Qed.
Lemma RM_only x : in_bounds RM x -> x = ZM.
Proof.
  unfold RM, ZM. destruct keep; [|intros H; inversion H; reflexivity].
  generalize (length M). intros n. revert x. induction n; intros x H; inversion H; subst; cbn [repeat]; [reflexivity|].
  f_equal; [lia|]. apply IHn. assumption.
Qed.

Lemma PA : 0 < prod A. Proof. apply prod_pos, HA. Qed.
Lemma PM : 0 < prod M. Proof. apply prod_pos, HMp. Qed.
Lemma PP : 0 < prod P. Proof. apply prod_pos, HPp. Qed.
Lemma PR : 0 < prod RA. Proof. apply prod_pos, rsh_pos, HA. Qed.

Lemma I_ok n : (n < C)%nat -> in_bounds A (I n) /\ row_pos A (I n) = Z.of_nat n.
Proof. intros H. apply index_at; [exact HA|exact H]. Qed.
Lemma tau_ok n : (n < C)%nat -> in_bounds RA (rix keep axes 0 (I n)) /\ Z.of_nat (tau n) = row_pos RA (rix keep axes 0 (I n)).
Proof.
  intros H. assert (B : in_bounds RA (rix keep axes 0 (I n))) by (apply rix_bounds, I_ok, H). split; [exact B|].
  unfold tau. pose proof (row_pos_bound _ _ B). lia.
Qed.
Lemma tau_bound n : (n < C)%nat -> (tau n < U)%nat.
Proof. intros H. destruct (tau_ok n H) as [B E]. pose proof (row_pos_bound _ _ B). unfold U. lia. Qed.
Lemma tau_visit n : (n < C)%nat -> (forall i, (i < n)%nat -> (tau i < tau n)%nat) \/ (exists i, (i < n)%nat /\ tau i = tau n).
Proof.
  intros Hn. destruct (I_ok n Hn) as [B E]. destruct (list_eq_dec Z.eq_dec (replaced axes 0 0 (I n)) (I n)) as [Ec|Ec].
  - left. intros i Hi. destruct (I_ok i) as [B' E']; [lia|]. destruct (tau_ok n Hn) as [_ T1]. destruct (tau_ok i) as [_ T2]; [lia|].
    assert (X : row_pos RA (rix keep axes 0 (I i)) < row_pos RA (rix keep axes 0 (I n))).
    { apply clear_first; auto. lia. } lia.
  - right. set (z := replaced axes 0 0 (I n)) in *. assert (Bz : in_bounds A z) by (apply cleared_bounds, B).
    pose proof (cleared_le axes A 0 (I n) B) as Hle. fold z in Hle.
    assert (Hne : row_pos A z <> row_pos A (I n)) by (intros X; apply Ec; apply (row_pos_inj A); assumption).
    pose proof (row_pos_bound _ _ Bz). exists (Z.to_nat (row_pos A z)). split; [lia|].
    assert (Ez : I (Z.to_nat (row_pos A z)) = z) by (apply index_eq; [exact Bz|lia]).
    unfold tau. rewrite Ez. unfold z. rewrite cleared_same. reflexivity.
Qed.
Lemma tau_first : tau 0 = 0%nat.
Proof.
  assert (H : (0 < C)%nat) by (pose proof PA; unfold C; lia). destruct (tau_visit 0 H) as [_|(i & Hi & _)]; [|lia].
  destruct (I_ok 0 H) as [B E]. assert (I 0%nat = repeat 0 (length A)) as Ei.
  { apply (row_pos_inj A); [exact B|apply zeros_in_bounds, HA|]. rewrite E, row_pos_repeat0. reflexivity. }
  unfold tau. rewrite Ei, rix_zeros, row_pos_repeat0. reflexivity.
Qed.
Lemma tau_law : (forall i n, (i < n < C)%nat -> tau i <> tau n) \/ merge_law f.
Proof.
  destruct Hlaw as [H|H]; [left|right; exact H]. intros i n Hb E.
  assert (X : forall ix, length ix = length A -> rix keep axes 0 ix = ix).
  { intros ix L. unfold rix. destruct keep; [apply replaced_none|apply without_none]; intros j Hj; apply H; lia. }
  destruct (tau_ok i) as [B1 E1]; [lia|]. destruct (tau_ok n) as [B2 E2]; [lia|].
  destruct (I_ok i) as [C1 D1]; [lia|]. destruct (I_ok n) as [C2 D2]; [lia|].
  assert (F : rix keep axes 0 (I i) = rix keep axes 0 (I n)) by (apply (row_pos_inj RA); [assumption|assumption|lia]).
  rewrite !X in F by (apply in_bounds_length; assumption). rewrite F in D1. lia.
Qed.

Variables (data : list T) (ev : list Z -> T) (istr : list Z) (buf : list R).
Hypothesis Hdata : forall jx, in_bounds esh jx -> nth_error data (Z.to_nat (row_pos esh jx)) = Some (ev jx).
Hypothesis Hdlen : Z.of_nat (length data) = prod esh.
Hypothesis Hblen : Z.of_nat (length buf) = prod (red_shape keep axes esh).
Hypothesis Histr : forall ix, in_bounds A ix -> inner_product ix istr 0 = row_pos RA (rix keep axes 0 ix) * prod P.

Lemma esh_pos : Forall (fun d => 0 < d) esh.
Proof. unfold esh. apply Forall_app. split; [exact HA|]. apply Forall_app. split; assumption. Qed.
Lemma N_split : Z.to_nat (prod esh) = (C * outer * inner)%nat.
Proof. unfold esh. rewrite !prod_app. pose proof PA. pose proof PM. pose proof PP. unfold C, outer, inner. rewrite !Z2Nat.inj_mul by lia. lia. Qed.

Lemma core_lemma fuel : (C <= fuel)%nat ->
  exists d, reduce_loop f fuel data outer inner A istr (repeat 0 (length A)) 0 0 0 false buf = Ok d /\ length d = length buf /\
    forall rx, in_bounds (red_shape keep axes esh) rx ->
      nth_error d (Z.to_nat (row_pos (red_shape keep axes esh) rx)) =
      Some (fold_left (rf_reduce f) (map ev (filter (fun jx => eqb_idx (red_index keep axes jx) rx) (row_indices esh))) (rf_init f)).
Proof.
  intros Hf. pose proof PA as pa. pose proof PM as pm. pose proof PP as pp. pose proof PR as pr.
  set (D := fun m => ev (nth m (row_indices esh) [])).
  assert (HD : forall m, (m < length data)%nat -> nth_error data m = Some (D m)).
  { intros m Hm. destruct (index_at esh m esh_pos) as [B E]; [lia|]. unfold D. rewrite <- (Hdata _ B), E, Nat2Z.id. reflexivity. }
  assert (Hl : length data = (C * outer * inner)%nat) by (rewrite <- N_split; lia).
  destruct (loop_all f data D inner outer U C tau HD Hl) with (A := A) (istr := istr) (I := I) (fuel := fuel) (buf := buf) as (d & E & L & G).
  - unfold outer; lia.
  - unfold inner; lia.
  - exact tau_bound.
  - unfold C; lia.
  - intros n Hn. apply next_index; [exact HA|exact Hn].
  - apply last_index, HA.
  - intros n Hn. destruct (I_ok n Hn) as [B _]. rewrite Histr by exact B. destruct (tau_ok n Hn) as [_ E]. rewrite <- E. unfold inner. nia.
  - exact tau_first.
  - exact tau_visit.
  - exact tau_law.
  - exact Hf.
  - rewrite core_shape, !prod_app, RM_prod in Hblen. unfold U, inner. fold RA in Hblen. nia.
  - exists d. assert (E0 : I 0%nat = repeat 0 (length A)).
    { apply index_eq; [apply zeros_in_bounds, HA|apply row_pos_repeat0]. }
    rewrite E0 in E. split; [exact E|]. split.
    { rewrite core_shape, !prod_app, RM_prod in Hblen. fold RA in Hblen. rewrite L. unfold U, inner. nia. }
    intros rx Hrx. rewrite core_shape in *. fold RA in Hrx |- *.
    apply Forall2_app_inv_l in Hrx. destruct Hrx as (ra & r1 & Hra & Hr1 & ->). apply Forall2_app_inv_l in Hr1. destruct Hr1 as (rm & rp & Hrm & Hrp & ->).
    apply RM_only in Hrm. subst rm. change (in_bounds RA ra) in Hra. change (in_bounds P rp) in Hrp.
    rewrite row_pos_app by (apply in_bounds_length; exact Hra). rewrite row_pos_app by exact RM_len. rewrite RM_pos, prod_app, RM_prod.
    pose proof (row_pos_bound _ _ Hra) as Bra. pose proof (row_pos_bound _ _ Hrp) as Brp.
    set (u := Z.to_nat (row_pos RA ra)). set (b := Z.to_nat (row_pos P rp)).
    assert (Hu : (u < U)%nat) by (unfold u, U; lia). assert (Hb : (b < inner)%nat) by (unfold b, inner; lia).
    replace (Z.to_nat _) with (u * inner + b)%nat by (unfold u, b, inner; nia).
    rewrite (G u b Hu Hb).
    + f_equal. unfold val. rewrite (nth_seq_id (row_indices esh) []). rewrite filter_map, !map_map.
      replace (length (row_indices esh)) with (C * outer * inner)%nat.
      2:{ rewrite <- N_split, <- row_indices_length by (eapply Forall_impl; [|apply esh_pos]; cbn; lia). lia. }
      rewrite (seq_grid (fun k => tt outer tau k =? u)%nat inner b Hb (C * outer)).
      * rewrite map_map. reflexivity.
      * intros k b' Hk Hb'. set (n := (k / outer)%nat). assert (Ho : (0 < outer)%nat) by (unfold outer; lia).
        pose proof (Nat.div_mod k outer ltac:(lia)) as Hdm. pose proof (Nat.mod_upper_bound k outer ltac:(lia)) as Hmb.
        fold n in Hdm. assert (Hn : (n < C)%nat) by (apply Nat.div_lt_upper_bound; lia).
        destruct (I_ok n Hn) as [B1 E1]. destruct (index_at M (k mod outer)%nat HMp) as [B2 E2]; [exact Hmb|].
        destruct (index_at P b' HPp) as [B3 E3]; [exact Hb'|].
        set (m := nth (k mod outer) (row_indices M) []) in *. set (p := nth b' (row_indices P) []) in *.
        assert (En : nth (k * inner + b') (row_indices esh) [] = I n ++ m ++ p).
        { apply index_eq; [apply Forall2_app; [exact B1|apply Forall2_app; assumption]|].
          unfold esh. rewrite !row_pos_app by (apply in_bounds_length; assumption). rewrite E1, E2, E3, prod_app.
          assert (Z.of_nat outer = prod M) by (unfold outer; lia). assert (Z.of_nat inner = prod P) by (unfold inner; lia).
          rewrite <- H, <- H0. rewrite Nat2Z.inj_add, Nat2Z.inj_mul. assert (Z.of_nat k = Z.of_nat outer * Z.of_nat n + Z.of_nat (k mod outer)) by lia. nia. }
        rewrite En, core_index by (apply in_bounds_length; assumption).
        destruct (tau_ok n Hn) as [Bt Et].
        unfold eqb_idx, tt. fold n. destruct (list_eq_dec Z.eq_dec _ _) as [e|e]; symmetry.
        -- apply app_len_inj in e. 2:{ rewrite (in_bounds_length _ _ Bt), (in_bounds_length _ _ Hra). reflexivity. }
           destruct e as [e1 e2]. apply app_inv_head in e2. rewrite e1 in Et. rewrite e2 in E3.
           apply andb_true_iff. split; apply Nat.eqb_eq; unfold u, b; lia.
        -- apply andb_false_iff. destruct (Nat.eq_dec (tau n) u) as [X|X]; [|left; apply Nat.eqb_neq; exact X].
           right. apply Nat.eqb_neq. intros Y. apply e. f_equal; [|f_equal].
           ++ apply (row_pos_inj RA); [exact Bt|exact Hra|]. unfold u in X. lia.
           ++ apply (row_pos_inj P); [exact B3|exact Hrp|]. unfold b in Y. lia.
    + destruct (rix_onto keep axes A 0 ra HA Hra) as (ix & Bix & Eix). pose proof (row_pos_bound _ _ Bix) as Bp.
      set (n := Z.to_nat (row_pos A ix)). assert (Hn : (n < C)%nat) by (unfold n, C; lia).
      assert (Ei : I n = ix) by (apply index_eq; [exact Bix|unfold n; lia]).
      assert (Et : tau n = u) by (unfold tau; rewrite Ei, Eix; reflexivity).
      intros X. assert (In (n * outer)%nat (rows outer tau u (C * outer))) as Y.
      { apply (rows_in data inner outer C tau Hl); [unfold outer; lia|unfold inner; lia|]. split; [apply Nat.mul_lt_mono_pos_r; [unfold outer; lia|exact Hn]|]. rewrite <- (Nat.add_0_r (n * outer)).
        rewrite (tt_chunk data inner outer C tau Hl) by (unfold outer, inner; lia). exact Et. }
      rewrite X in Y. destruct Y.
Qed.
End Core.
