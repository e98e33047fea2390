(** Execution of loads and stores by interleaved threads. *)
From Coq Require Import List ZArith Bool Lia Permutation.
From Verif Require Import Prelude PreludeFacts Strides_Model Strides_Spec Strides_Proofs Broadcast_Spec
  Stepper_Model Stepper_Spec Stepper_Proofs Stepper2_Proofs Stepper3_Proofs Stepper4_Proofs Assign_Model Assign_Spec.
Import ListNotations.
Open Scope Z_scope.

Section Exec.
Context {V : Type} (e : aexp V) (mem0 : list V) (lanes : list lane).
Hypothesis Hnd : NoDup (map fst lanes).
Hypothesis Hin : Forall (fun l => 0 <= fst l < Z.of_nat (length mem0)) lanes.
(** The value of a lane only depends on its own position among the written ones. *)
Hypothesis Hval : forall l mem, In l lanes -> length mem = length mem0 ->
  (forall p, (forall l', In l' lanes -> l' <> l -> p <> fst l') -> rdz mem p = rdz mem0 p) ->
  x_deref (inst mem e) (snd l) = x_deref (inst mem0 e) (snd l).
Hypothesis Hok : forall l, In l lanes -> exists v, x_deref (inst mem0 e) (snd l) = Ok v.
Definition val (l : lane) (v : V) : Prop := x_deref (inst mem0 e) (snd l) = Ok v.

(** Lanes [D] have been stored. *)
Definition mem_inv (D : list lane) (mem : list V) : Prop :=
  length mem = length mem0 /\
  (forall l, In l D -> exists v, val l v /\ rdz mem (fst l) = Ok v) /\
  (forall p, ~ In p (map fst D) -> rdz mem p = rdz mem0 p).

(** A thread that has loaded A, still has to load B in its current task and has
    the tasks T to come. *)
Definition thr_inv (A B : list lane) (T : list task) (t : thread V) : Prop :=
  fst t = map (fun l => OLoad (snd l)) B ++ map (fun l => OStore (fst l)) (A ++ B) ++ concat (map task_ops T) /\
  Forall2 val A (snd t).
Definition pend (t : list lane * list lane * list task) : list lane := let '(A, B, T) := t in A ++ B ++ concat T.

Definition ths_inv (R D : list lane) (ps : list (list lane * list lane * list task)) (ths : list (thread V)) : Prop :=
  Forall2 (fun p t => let '(A, B, T) := p in thr_inv A B T t) ps ths /\
  Permutation (D ++ concat (map pend ps) ++ R) lanes.

Lemma lane_inj l l' : In l lanes -> In l' lanes -> fst l = fst l' -> l = l'.
Proof.
  clear Hin Hval Hok. revert Hnd. induction lanes as [|a ls IH]; intros Hnd H1 H2 E; [contradiction|].
  destruct H1 as [H1|H1], H2 as [H2|H2].
  - congruence.
  - subst a. cbn in Hnd. inversion Hnd as [|? ? Hn _]; subst. exfalso. apply Hn. rewrite E. apply in_map. assumption.
  - subst a. cbn in Hnd. inversion Hnd as [|? ? Hn _]; subst. exfalso. apply Hn. rewrite <- E. apply in_map. assumption.
  - cbn in Hnd. inversion Hnd; subst. apply IH; auto.
Qed.

Lemma rdz_upd_same {A} (mem : list A) p v : 0 <= p < Z.of_nat (length mem) -> rdz (upd mem (Z.to_nat p) v) p = Ok v.
Proof. intros H. apply rdz_ok; [lia|]. apply nth_error_upd_same. lia. Qed.
Lemma rdz_upd_other {A} (mem : list A) p q v : 0 <= p -> q <> p -> rdz (upd mem (Z.to_nat p) v) q = rdz mem q.
Proof.
  intros Hp H. unfold rdz. destruct (q <? 0) eqn:E; [reflexivity|]. apply Z.ltb_ge in E.
  unfold rd. rewrite nth_error_upd_other by lia. reflexivity.
Qed.

Lemma mem_inv_val D mem l : mem_inv D mem -> incl D lanes -> In l lanes -> ~ In l D ->
  exists v, x_deref (inst mem e) (snd l) = Ok v /\ val l v.
Proof.
  intros (H1 & H2 & H3) Hi Hl Hn. destruct (Hok l Hl) as (v & Hv). exists v. split; [|exact Hv]. rewrite <- Hv.
  apply Hval; auto. intros p Hp. apply H3. intros Hc.
  apply in_map_iff in Hc. destruct Hc as (l' & <- & Hl'). apply (Hp l'); auto. intros ->. contradiction.
Qed.

Lemma mem_inv_store D mem l v : mem_inv D mem -> incl D lanes -> In l lanes -> ~ In l D -> val l v ->
  exists mem', wrz mem (fst l) v = Ok mem' /\ mem_inv (D ++ [l]) mem'.
Proof.
  intros (H1 & H2 & H3) Hi Hl Hn Hv. rewrite Forall_forall in Hin. pose proof (Hin l Hl) as Hb.
  exists (upd mem (Z.to_nat (fst l)) v). split; [apply wrz_ok; lia|]. split; [rewrite upd_length; assumption|]. split.
  - intros l' Hl'. apply in_app_iff in Hl'. destruct Hl' as [Hl'|[ <- |[]]].
    + rewrite rdz_upd_other; [apply H2; assumption|lia|]. intros E. apply Hn. rewrite (lane_inj l l'); auto.
    + exists v. split; [assumption|]. apply rdz_upd_same. lia.
  - intros p Hp. rewrite map_app, in_app_iff in Hp. rewrite rdz_upd_other; [apply H3; tauto|lia|]. cbn in Hp. intros ->. tauto.
Qed.

Lemma thr_norm A B T t : thr_inv A B T t -> fst t <> [] ->
  exists A' B' T', thr_inv A' B' T' t /\ pend (A', B', T') = pend (A, B, T) /\ (B' <> [] \/ (B' = [] /\ A' <> [])).
Proof.
  intros H Hne. destruct B as [|b B]; [|exists A, (b :: B), T; split; [assumption|split; [reflexivity|left; discriminate]]].
  destruct A as [|a A]; [|exists (a :: A), [], T; split; [assumption|split; [reflexivity|right; split; [reflexivity|discriminate]]]].
  induction T as [|t0 T IH].
  - destruct H as [H _]. cbn in H. contradiction.
  - destruct t0 as [|l t0].
    + apply IH. destruct H as [H H']. cbn in H, H'. split; assumption.
    + exists [], (l :: t0), T. split; [|split; [reflexivity|left; discriminate]].
      destruct H as [H H']. split; [|assumption]. rewrite H. cbn [map concat app]. unfold task_ops at 1.
      rewrite <- !app_assoc. reflexivity.
Qed.

Lemma upd_split {A} (l1 : list A) x l2 y : upd (l1 ++ x :: l2) (length l1) y = l1 ++ y :: l2.
Proof. induction l1; cbn; [reflexivity|]. f_equal. assumption. Qed.

Lemma step_ok R D ps ths mem i t : mem_inv D mem -> ths_inv R D ps ths -> nth_error ths i = Some t ->
  exists D' ps' mem' t', thread_step e mem t = Ok (mem', t') /\ mem_inv D' mem' /\ ths_inv R D' ps' (upd ths i t').
Proof.
  intros HM [HF HP] Hi. apply nth_error_split in Hi. destruct Hi as (th1 & th2 & -> & <-).
  apply Forall2_app_inv_r in HF. destruct HF as (ps1 & ps2 & HF1 & HF2 & ->).
  inversion HF2 as [|[[A B] T] ? ps2' ? Ht HF2' ]; subst.
  assert (fst t = [] \/ fst t <> []) as [E|E] by (destruct (fst t); [left; reflexivity|right; discriminate]).
  { exists D, (ps1 ++ (A, B, T) :: ps2'), mem, t. unfold thread_step. destruct t as [ops regs]. cbn in E. subst ops.
    split; [reflexivity|]. split; [assumption|]. rewrite upd_split. split; [|assumption].
    apply Forall2_app; [assumption|]. constructor; assumption. }
  destruct (thr_norm A B T t Ht E) as (A' & B' & T' & Ht' & Hpend & Hcase).
  rewrite map_app, concat_app in HP. cbn [map concat] in HP. rewrite <- Hpend in HP. clear Hpend Ht A B T E HF2.
  assert (HinD : incl D lanes).
  { intros x Hx. eapply Permutation_in; [exact HP|]. apply in_app_iff. auto. }
  assert (Hnd' : NoDup (D ++ (concat (map pend ps1) ++ pend (A', B', T') ++ concat (map pend ps2')) ++ R)).
  { apply (Permutation_NoDup (Permutation_sym HP)). eapply NoDup_map_inv. exact Hnd. }
  destruct Ht' as [Ho Hr]. destruct t as [ops regs]. cbn [fst snd] in Ho, Hr. subst ops.
  destruct B' as [|b B'].
  - destruct Hcase as [Hc|[_ Hc]]; [contradiction|]. destruct A' as [|a A']; [contradiction|]. cbn [map app thread_step].
    inversion Hr as [|? v ? regs' Hv Hr']; subst.
    assert (Hal : In a lanes /\ ~ In a D).
    { split.
      - eapply Permutation_in; [exact HP|]. cbn [pend]. rewrite !in_app_iff. cbn. tauto.
      - intros Hd. apply in_split in Hd. destruct Hd as (d1 & d2 & ->).
        rewrite <- app_assoc in Hnd'. cbn [app] in Hnd'. apply NoDup_remove_2 in Hnd'. apply Hnd'.
        cbn [pend]. rewrite !in_app_iff. cbn. tauto. }
    destruct Hal as [Hal Hnal].
    destruct (mem_inv_store D mem a v HM HinD Hal Hnal Hv) as (mem' & Ew & HM').
    exists (D ++ [a]), (ps1 ++ (A', [], T') :: ps2'), mem', (map (fun l => OStore (fst l)) (A' ++ []) ++ concat (map task_ops T'), regs').
    rewrite Ew. cbn [bind]. split; [reflexivity|]. split; [assumption|]. rewrite upd_split. split.
    + apply Forall2_app; [assumption|]. constructor; [|assumption]. split; [reflexivity|assumption].
    + rewrite map_app, concat_app. cbn [map concat]. etransitivity; [|exact HP].
      cbn [pend]. rewrite <- !app_assoc. apply Permutation_app_head. cbn [app].
      rewrite !app_assoc. rewrite <- (app_assoc _ _ R). rewrite <- !app_assoc.
      apply Permutation_middle.
  - assert (Hbl : In b lanes /\ ~ In b D).
    { split.
      - eapply Permutation_in; [exact HP|]. cbn [pend]. rewrite !in_app_iff. cbn. tauto.
      - intros Hd. apply in_split in Hd. destruct Hd as (d1 & d2 & ->).
        rewrite <- app_assoc in Hnd'. cbn [app] in Hnd'. apply NoDup_remove_2 in Hnd'. apply Hnd'.
        cbn [pend]. rewrite !in_app_iff. cbn. tauto. }
    destruct Hbl as [Hbl Hnbl]. destruct (mem_inv_val D mem b HM HinD Hbl Hnbl) as (v & Ev & Hv).
    exists D, (ps1 ++ (A' ++ [b], B', T') :: ps2'), mem,
      (map (fun l => OLoad (snd l)) B' ++ map (fun l => OStore (fst l)) (A' ++ b :: B') ++ concat (map task_ops T'), regs ++ [v]).
    cbn [map app thread_step]. rewrite Ev. cbn [bind].
    split; [reflexivity|]. split; [assumption|]. rewrite upd_split. split.
    + apply Forall2_app; [assumption|]. constructor; [|assumption]. split; cbn [fst snd].
      * rewrite <- (app_assoc A'). reflexivity.
      * apply Forall2_app; [assumption|]. constructor; [assumption|constructor].
    + rewrite map_app, concat_app. cbn [map concat]. etransitivity; [|exact HP].
      cbn [pend]. rewrite <- !app_assoc. reflexivity.
Qed.

Lemma run_schedule_ok R : forall sched D ps ths mem, mem_inv D mem -> ths_inv R D ps ths ->
  exists D' ps' mem' ths', run_schedule e sched mem ths = Ok (mem', ths') /\ mem_inv D' mem' /\ ths_inv R D' ps' ths'.
Proof.
  induction sched as [|i sched IH]; intros D ps ths mem HM HT; cbn [run_schedule].
  - exists D, ps, mem, ths. auto.
  - destruct (nth_error ths i) as [t|] eqn:E; [|eapply IH; eassumption].
    destruct (step_ok R D ps ths mem i t HM HT E) as (D1 & ps1 & mem1 & t1 & Es & HM1 & HT1).
    rewrite Es. cbn [bind]. eapply IH; eassumption.
Qed.

Lemma start_inv R D ph : Permutation (D ++ concat (concat ph) ++ R) lanes ->
  ths_inv R D (map (fun ts => ([], [], ts)) ph) (map (@start V) ph).
Proof.
  intros HP. split.
  - clear HP. induction ph; cbn; constructor; auto. split; [reflexivity|constructor].
  - rewrite map_map. cbn [pend app].
    replace (concat (map (fun ts => concat ts) ph)) with (concat (concat ph)); [assumption|].
    clear. induction ph; cbn; [reflexivity|]. rewrite concat_app, IHph. reflexivity.
Qed.

(** When all threads are done, all their lanes have been stored. *)
Lemma done_inv R D ps ths : ths_inv R D ps ths -> Forall (fun t => fst t = []) ths -> Permutation (D ++ R) lanes.
Proof.
  intros [HF HP] Hd. replace (concat (map pend ps)) with (@nil lane) in HP; [assumption|].
  clear HP. revert Hd. induction HF as [|[[A B] T] t ps ths H _ IH]; intros Hd; [reflexivity|].
  inversion Hd as [|? ? Hd1 Hd2]; subst. cbn [map concat]. rewrite <- (IH Hd2), app_nil_r.
  destruct H as [H _]. rewrite Hd1 in H. symmetry in H. apply app_eq_nil in H. destruct H as [HB H].
  apply app_eq_nil in H. destruct H as [HA HT]. apply map_eq_nil in HB, HA. apply app_eq_nil in HA. destruct HA as [-> ->].
  cbn [pend app]. clear - HT. induction T as [|t T IH]; [reflexivity|]. cbn [map concat] in *. apply app_eq_nil in HT.
  destruct HT as [H1 H2]. rewrite <- (IH H2), app_nil_r. unfold task_ops in H1. apply app_eq_nil in H1. destruct H1 as [H1 _].
  apply map_eq_nil in H1. auto.
Qed.

(** Some schedule finishes: run the threads one after the other. *)
Fixpoint total_ops (ths : list (thread V)) : nat :=
  match ths with [] => O | t :: r => (length (fst t) + total_ops r)%nat end.
Lemma total_upd ths i t t' : nth_error ths i = Some t -> (length (fst t') < length (fst t))%nat ->
  (total_ops (upd ths i t') < total_ops ths)%nat.
Proof. revert i. induction ths as [|a ths IH]; intros [|i] H Hl; cbn in *; try discriminate. - injection H as ->. lia. - specialize (IH i H Hl). lia. Qed.
Lemma some_pending (ths : list (thread V)) : Forall (fun t => fst t = []) ths \/
  exists i t, nth_error ths i = Some t /\ fst t <> [].
Proof.
  induction ths as [|t ths [IH|(i & t' & H & Hn)]].
  - left. constructor.
  - destruct (fst t) eqn:E; [left; constructor; assumption|right; exists O, t; split; [reflexivity|rewrite E; discriminate]].
  - right. exists (S i), t'. auto.
Qed.
Lemma thread_step_len mem mem' (t t' : thread V) : fst t <> [] -> thread_step e mem t = Ok (mem', t') ->
  (length (fst t') < length (fst t))%nat.
Proof.
  destruct t as [[|[s|p] ops] regs]; cbn [fst]; intros Hn H; [contradiction| |]; cbn [thread_step] in H.
  - apply bind_ok in H. destruct H as (v & _ & H). injection H as <- <-. cbn. lia.
  - destruct regs as [|v regs]; [discriminate|]. apply bind_ok in H. destruct H as (m & _ & H). injection H as <- <-. cbn. lia.
Qed.
Lemma finishing R : forall n ths D ps mem, (total_ops ths <= n)%nat -> mem_inv D mem -> ths_inv R D ps ths ->
  exists sched mem' ths', run_schedule e sched mem ths = Ok (mem', ths') /\ Forall (fun t => fst t = []) ths'.
Proof.
  induction n as [|n IH]; intros ths D ps mem Hn HM HT; destruct (some_pending ths) as [Hd|(i & t & Hi & Ht)].
  - exists [], mem, ths. auto.
  - exfalso. destruct t as [[|o ops] regs]; [contradiction|]. clear - Hi Hn. revert i Hi.
    induction ths as [|a ths IH]; intros [|i] Hi; cbn in *; try discriminate.
    + injection Hi as ->. cbn in Hn. lia.
    + apply (IH ltac:(lia) i Hi).
  - exists [], mem, ths. auto.
  - destruct (step_ok R D ps ths mem i t HM HT Hi) as (D1 & ps1 & mem1 & t1 & Es & HM1 & HT1).
    pose proof (thread_step_len _ _ _ _ Ht Es) as Hl. pose proof (total_upd ths i t t1 Hi Hl) as Ht'.
    destruct (IH (upd ths i t1) D1 ps1 mem1 (proj1 (Nat.lt_succ_r _ _) (Nat.lt_le_trans _ _ _ Ht' Hn)) HM1 HT1) as (sched & mem' & ths' & E & Hf).
    exists (i :: sched), mem', ths'. cbn [run_schedule]. rewrite Hi, Es. cbn [bind]. auto.
Qed.

Lemma mem_inv_perm D D' mem : Permutation D D' -> mem_inv D mem -> mem_inv D' mem.
Proof.
  intros HP (H1 & H2 & H3). split; [assumption|]. split.
  - intros l Hl. apply H2. eapply Permutation_in; [apply Permutation_sym; exact HP|exact Hl].
  - intros p Hp. apply H3. intros Hc. apply Hp. eapply Permutation_in; [apply Permutation_map; exact HP|exact Hc].
Qed.

Lemma outcome_ok : forall phs D mem, mem_inv D mem -> Permutation (D ++ concat (concat (concat phs))) lanes ->
  (exists r, outcome e phs mem r) /\ (forall r, outcome e phs mem r -> exists mem', r = Ok mem' /\ mem_inv lanes mem').
Proof.
  induction phs as [|ph phs IH]; intros D mem HM HP; cbn [concat] in HP.
  - rewrite app_nil_r in HP. split; [exists (Ok mem); constructor|]. intros r H. inversion H; subst. exists mem. split; [reflexivity|].
    eapply mem_inv_perm; eassumption.
  - rewrite !concat_app in HP.
    pose proof (start_inv _ D ph HP) as HT.
    assert (Hdone : forall sched mem1 ths, run_schedule e sched mem (map start ph) = Ok (mem1, ths) ->
              Forall (fun t => fst t = []) ths -> exists D1, mem_inv D1 mem1 /\ Permutation (D1 ++ concat (concat (concat phs))) lanes).
    { intros sched mem1 ths Hr Hf. destruct (run_schedule_ok _ sched D _ _ mem HM HT) as (D' & ps' & mem' & ths' & Er & HM' & HT').
      rewrite Hr in Er. injection Er as <- <-. exists D'. split; [assumption|]. eapply done_inv; eassumption. }
    split.
    + destruct (finishing _ _ _ D _ mem (le_n _) HM HT) as (sched & mem' & ths' & Er & Hf).
      destruct (Hdone _ _ _ Er Hf) as (D1 & HM1 & HP1). destruct (IH D1 mem' HM1 HP1) as [(r & Hr) _].
      exists r. eapply out_phase; eassumption.
    + intros r Hr. inversion Hr as [|? ? sched ? mem1 ths ? Er Hf Hr'|? ? sched ? x Er|? ? sched ? Er]; subst.
      * destruct (Hdone _ _ _ Er Hf) as (D1 & HM1 & HP1). destruct (IH D1 mem1 HM1 HP1) as [_ H]. apply H. assumption.
      * destruct (run_schedule_ok _ sched D _ _ mem HM HT) as (? & ? & ? & ? & E & _). congruence.
      * destruct (run_schedule_ok _ sched D _ _ mem HM HT) as (? & ? & ? & ? & E & _). congruence.
Qed.
End Exec.
