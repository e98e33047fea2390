(** Proofs about CSV, continued: writing. *)
From Coq Require Import List ZArith Lia Bool.
From Verif Require Import Prelude PreludeFacts Strides_Model Strides_Spec Strides_Proofs Broadcast_Spec Stepper_Model
  Stepper_Spec Stepper_Proofs Stepper2_Proofs Stepper3_Proofs Stepper4_Proofs Container_Model Container_Spec Npy_Model
  Csv_Model Csv_Spec Csv_Proofs.
Import ListNotations.
Open Scope Z_scope.

Lemma join_snoc d cs x : join d (cs ++ [x]) = concat (map (fun c => c ++ [d]) cs) ++ x.
Proof.
  induction cs as [|c cs IH]; [reflexivity|]. cbn [app map concat join]. destruct (cs ++ [x]) eqn:E; [destruct cs; discriminate|].
  rewrite IH, <- !app_assoc. reflexivity.
Qed.

(** A step along the first axis never fails, even past the end *)
Lemma step_first {V} sh (e : sexp V) n : sh <> [] -> operands_ok sh e -> forall ix st, x_at sh e ix st ->
  exists st', s_step (x_ops sh e) 0 n st = Ok st'.
Proof.
  intros Hsh. induction e as [v|c b|s f|f args IH] using sexp_ind'; intros Hok ix st Hat.
  - destruct st; try contradiction. eexists. reflexivity.
  - destruct st as [|p| |]; try contradiction. destruct Hok as [[Hf _] (L1 & _)]. cbn [x_ops ptr_ops s_step ptr_op xs_ops]. unfold xs_step.
    destruct (Nat.leb_spec (k_offset c sh) 0) as [Ho|Ho]; [|eexists; reflexivity].
    unfold k_offset in *. assert (Ls : (0 < length sh)%nat) by (destruct sh; [contradiction|cbn; lia]). destruct (k_strides c) as [|z zs]; [cbn in L1; lia|]. rewrite Nat.sub_0_l. cbn. eexists. reflexivity.
  - destruct st as [| |m|]; try contradiction. destruct Hok as [[Hf _] _]. cbn [x_ops idx_ops s_step idx_op ix_ops]. unfold ix_step.
    destruct (Nat.leb_spec (length sh - length s) 0) as [Ho|Ho]; [|eexists; reflexivity].
    destruct Hat as (L & _). assert (Ls : (0 < length sh)%nat) by (destruct sh; [contradiction|cbn; lia]). destruct m; [cbn in L; lia|]. rewrite Nat.sub_0_l. cbn. eexists. reflexivity.
  - apply at_fun in Hat. destruct Hat as (ss & -> & Hat). unfold operands_ok in Hok. apply all_leaves_fun in Hok.
    destruct (node_ok (fun o => s_step o 0 n) (fun a s => x_at sh a ix s) (fun a s => True) sh args) with (ss := ss) as (ss' & E & _); auto.
    { eapply Forall_imp2; [exact IH|exact Hok|]. cbn. intros a H1 H2 s Hs. destruct (H1 H2 ix s Hs) as (s' & Es). eauto. }
    exists (TNode ss'). exact E.
Qed.

Section Write.
Context {V : Type}.
Variable show : V -> bytes.
Variables (r c : Z) (e : sexp V) (v : Z -> Z -> V).
Notation sh := [r; c].
Hypothesis Hr : 0 <= r.
Hypothesis Hc : 0 <= c.
Hypothesis Hok : operands_ok sh e.
Hypothesis Hv : forall i j, 0 <= i < r -> 0 <= j < c -> x_value [i; j] e = Ok (v i j).

Notation at_ := (x_at sh e).
Let L : laws (x_ops sh e) row_major sh at_ (x_endst sh row_major e) := x_laws row_major sh (or_introl eq_refl) e Hok.

Definition line_of (i : nat) : bytes := join 44 (map show (row_of v c i)) ++ [10].

Lemma in2 i j : 0 <= i < r -> 0 <= j < c -> in_bounds sh [i; j].
Proof. intros H1 H2. repeat constructor; lia. Qed.

Lemma row_dump i pre st : (i < Z.to_nat r)%nat -> 0 < c -> at_ [Z.of_nat i; 0] st ->
  exists st', for_up (dump_cell show sh e c) 0 (Z.to_nat c) (pre, st) = Ok (pre ++ line_of i, st') /\
    ((S i < Z.to_nat r)%nat -> at_ [Z.of_nat (S i); 0] st').
Proof.
  intros Hi Hc0 Hst. set (cell := fun j => show (v (Z.of_nat i) (Z.of_nat j))).
  destruct (for_up_inv (fun k '(out, st) =>
      ((k < Z.to_nat c)%nat -> out = pre ++ concat (map (fun j => cell j ++ [44]) (seq 0 k)) /\ at_ [Z.of_nat i; Z.of_nat k] st) /\
      (k = Z.to_nat c -> out = pre ++ line_of i /\ ((S i < Z.to_nat r)%nat -> at_ [Z.of_nat (S i); 0] st)))
    (dump_cell show sh e c) 0 (Z.to_nat c) (pre, st)) as ([out st'] & E & H1 & H2).
  - split; [intros _; rewrite app_nil_r; split; [reflexivity|exact Hst]|lia].
  - intros k [out s] [_ Hk] [H1 _]. simpl in Hk. destruct (H1 ltac:(lia)) as [ -> Hs]. clear H1. unfold dump_cell.
    assert (IB : in_bounds sh [Z.of_nat i; Z.of_nat k]) by (apply in2; lia).
    rewrite (x_deref_ok sh e Hok _ _ IB Hs), Hv by lia. cbn [bind]. destruct (Z.eqb_spec (Z.of_nat k) (c - 1)) as [E|E]; cbn [negb].
    + destruct (l_reset _ _ _ _ _ L [Z.of_nat i] (Z.of_nat k) [] c s eq_refl IB E Hs) as (s1 & E1 & A1). cbn [length] in E1. rewrite E1. cbn [bind].
      destruct (step_first sh e 1 ltac:(discriminate) Hok _ _ A1) as (s2 & E2). rewrite E2. cbn [bind]. eexists. split; [reflexivity|]. split; [lia|].
      intros _. split.
      * unfold line_of. rewrite <- !app_assoc. f_equal. unfold row_of. replace (Z.to_nat c) with (S k) by lia. rewrite seq_S, !map_app. cbn [map].
        rewrite join_snoc, <- app_assoc. rewrite !map_map. reflexivity.
      * intros Hi2. cbn [app] in A1.
        destruct (l_step _ _ _ _ _ L [] (Z.of_nat i) [0] 1 r s1 eq_refl ltac:(apply in2; lia) ltac:(lia) ltac:(lia) A1) as (s3 & E3 & A3).
        cbn [length] in E3. rewrite E3 in E2. injection E2 as ->. cbn [app] in A3. replace (Z.of_nat (S i)) with (Z.of_nat i + 1) by lia. exact A3.
    + destruct (l_step _ _ _ _ _ L [Z.of_nat i] (Z.of_nat k) [] 1 c s eq_refl IB ltac:(lia) ltac:(lia) Hs) as (s1 & E1 & A1). cbn [length] in E1.
      rewrite E1. cbn [bind]. eexists. split; [reflexivity|]. split; [|lia]. intros _. split.
      * rewrite seq_S, map_app, concat_app. cbn [map concat]. rewrite app_nil_r, <- !app_assoc. reflexivity.
      * cbn [app] in A1. replace (Z.of_nat (S k)) with (Z.of_nat k + 1) by lia. exact A1.
  - exists st'. destruct (H2 ltac:(lia)) as [H4 H3]. split; [etransitivity; [exact E|]; rewrite H4; reflexivity|exact H3].
Qed.

Lemma dump_ok : dump_csv show sh e = Ok (if c =? 0 then [] else terminated (map (fun row => join 44 (map show row)) (matrix v r c))).
Proof.
  unfold dump_csv. destruct (Z.eqb_spec c 0) as [E|E].
  - destruct (for_up_inv (fun _ (s : bytes * sstate) => s = ([], x_begin e)) (fun _ s => for_up (dump_cell show sh e c) 0 (Z.to_nat c) s) 0 (Z.to_nat r) ([], x_begin e)) as (s & Es & Hs).
    + reflexivity.
    + intros k s _ ->. eexists. split; [|reflexivity]. replace (Z.to_nat c) with 0%nat by lia. reflexivity.
    + rewrite Es. subst s. reflexivity.
  - destruct (for_up_inv (fun k '(out, st) => out = terminated (map (fun row => join 44 (map show row)) (map (row_of v c) (seq 0 k))) /\
      ((k < Z.to_nat r)%nat -> at_ [Z.of_nat k; 0] st))
      (fun _ s => for_up (dump_cell show sh e c) 0 (Z.to_nat c) s) 0 (Z.to_nat r) ([], x_begin e)) as ([out st] & Es & H1 & _).
    + split; [reflexivity|]. intros _. apply (x_begin_at sh e Hok).
    + intros k [out st] [_ Hk] [ -> Hst]. destruct (row_dump k (terminated (map (fun row => join 44 (map show row)) (map (row_of v c) (seq 0 k)))) st Hk ltac:(lia) (Hst Hk)) as (st' & -> & Hst').
      eexists. split; [reflexivity|]. split; [|exact Hst']. rewrite seq_S, !map_app. unfold terminated. rewrite map_app, concat_app. cbn [map concat].
      rewrite app_nil_r. reflexivity.
    + rewrite Es. cbn [bind]. rewrite H1. reflexivity.
Qed.
End Write.
