(** Every program on vectors. *)
From Coq Require Import List Bool Arith Lia.
From Verif Require Import Prelude PreludeFacts Storage_Model Storage_Spec Storage_Proofs
  Storage2_Proofs.
Import ListNotations.
Set Implicit Arguments.

Section Vectors.
Context {V : Type}.
Variable T : elem V.

Lemma fits_some env (val : values V) (h : heap V) i u :
  uv_ok env val h -> env i = Some u ->
  exists c, val i = Some c /\ u_size u = length c /\ (u_begin u = None -> c = []).
Proof.
  intros U e. pose proof (proj2 U i) as F. rewrite e in F. unfold fits in F.
  destruct (val i); [|contradiction]. eauto.
Qed.

Lemma fits_none env (val : values V) (h : heap V) i :
  uv_ok env val h -> env i = None -> val i = None.
Proof.
  intros U e. pose proof (proj2 U i) as F. rewrite e in F. unfold fits in F.
  destruct (val i); [contradiction|reflexivity].
Qed.

Lemma done_ok env' (val : values V) (h h' : heap V) o :
  (quiet h -> quiet h') -> fst (uv_means T val o) = Done ->
  uv_ok env' (snd (uv_means T val o)) h' ->
  step_ok T val h o (Some (Done, (env', h'))).
Proof.
  intros Q D U. exists Done, env', h'. split; [reflexivity|]. split; [exact Q|]. left. auto.
Qed.

Lemma same_ok env (val : values V) (h : heap V) o a :
  uv_ok env val h -> uv_means T val o = (a, val) ->
  step_ok T val h o (Some (a, (env, h))).
Proof.
  intros U E. exists a, env, h. split; [reflexivity|]. split; [auto|]. left. rewrite E. auto.
Qed.

Lemma put_same (val : values V) i c k : val i = Some c -> put val i (Some c) k = val k.
Proof.
  intros v. unfold put. destruct (k =? i) eqn:e; [|reflexivity].
  apply Nat.eqb_eq in e. congruence.
Qed.

Lemma uv_step_ok env (val : values V) (h : heap V) o :
  uv_ok env val h -> step_ok T val h o (uv_step T (env, h) o).
Proof.
  intros U. destruct o; cbn [uv_step].
  - (* ONew *) destruct (env i) eqn:e.
    + destruct (fits_some i U e) as (c & v & _). apply skip_ok; auto. cbn. rewrite v. reflexivity.
    + pose proof (fits_none i U e) as v. eapply into_ok with (c := []) (needs := false); auto.
      * left. exists uv_empty, h. split; [reflexivity|]. split; [|auto].
        apply empty_ok; auto using none_own.
      * cbn. rewrite v. reflexivity.
  - (* OCount *) destruct (env i) eqn:e.
    + destruct (fits_some i U e) as (c & v & _). apply skip_ok; auto. cbn. rewrite v. reflexivity.
    + pose proof (fits_none i U e) as v. eapply into_ok; [exact U|apply count_ok; auto| |];
        cbn; rewrite v; reflexivity.
  - (* OFill *) destruct (env i) eqn:e.
    + destruct (fits_some i U e) as (c & w & _). apply skip_ok; auto. cbn. rewrite w. reflexivity.
    + pose proof (fits_none i U e) as w. eapply into_ok; [exact U|apply fill_ok; auto| |];
        cbn; rewrite w; reflexivity.
  - (* OList *) destruct (env i) eqn:e.
    + destruct (fits_some i U e) as (c & v & _). apply skip_ok; auto. cbn. rewrite v. reflexivity.
    + pose proof (fits_none i U e) as v.
      eapply into_ok; [exact U|apply init_data_ok; auto| |];
        cbn; rewrite v; [|rewrite map_length]; reflexivity.
  - (* OCopy *) destruct (env i) eqn:e.
    + destruct (fits_some i U e) as (c & v & _). apply skip_ok; auto. cbn. rewrite v. reflexivity.
    + pose proof (fits_none i U e) as v. destruct (env j) as [r|] eqn:f.
      * destruct (fits_some j U f) as (c & w & s & b). unfold uv_copy.
        assert (oj : uown env j = u_begin r) by (unfold uown; rewrite f; reflexivity).
        rewrite (@load_ok V _ _ _ j _ _ c (proj1 U) oj w s b). cbn [bnd].
        eapply into_ok; [exact U|apply init_data_ok; auto| |]; cbn; rewrite v, w; reflexivity.
      * pose proof (fits_none j U f) as w. apply skip_ok; auto. cbn. rewrite v, w. reflexivity.
  - (* OMove *) destruct (env i) eqn:e.
    + destruct (fits_some i U e) as (c & v & _). apply skip_ok; auto. cbn. rewrite v. reflexivity.
    + pose proof (fits_none i U e) as v. destruct (env j) as [r|] eqn:f.
      * destruct (fits_some j U f) as (c & w & s & b). cbn [uv_move].
        apply done_ok; auto; cbn; rewrite v, w; cbn; [reflexivity|].
        apply pass_ok; auto using none_own. congruence.
      * pose proof (fits_none j U f) as w. apply skip_ok; auto. cbn. rewrite v, w. reflexivity.
  - (* OAssign *) destruct (env i) as [u|] eqn:e.
    2:{ pose proof (fits_none i U e) as v. apply skip_ok; auto. cbn. rewrite v. reflexivity. }
    destruct (fits_some i U e) as (c & v & su & bu). destruct (env j) as [r|] eqn:f.
    2:{ pose proof (fits_none j U f) as w. apply skip_ok; auto. cbn. rewrite v, w. reflexivity. }
    destruct (fits_some j U f) as (d & w & s & b). destruct (i =? j) eqn:ij.
    + apply Nat.eqb_eq in ij. subst j. apply done_ok; auto; cbn; rewrite v; cbn; [reflexivity|].
      eapply uv_ok_ext; [exact U|reflexivity|]. intros k. apply put_same. exact v.
    + apply Nat.eqb_neq in ij.
      eapply into_ok; [exact U|eapply assign_ok; eauto| |]; cbn; rewrite v, w; reflexivity.
  - (* OMoveAssign *) destruct (env i) as [u|] eqn:e.
    2:{ pose proof (fits_none i U e) as v. apply skip_ok; auto. cbn. rewrite v. reflexivity. }
    destruct (fits_some i U e) as (c & v & su & bu). destruct (env j) as [r|] eqn:f.
    2:{ pose proof (fits_none j U f) as w. apply skip_ok; auto. cbn. rewrite v, w. reflexivity. }
    destruct (fits_some j U f) as (d & w & s & b). cbn [uv_move u_begin u_size].
    destruct (Nat.eq_dec i j) as [ <- |ij].
    + rewrite set_same. cbn [u_begin u_size uv_destroy safe_destroy_deallocate ends].
      apply done_ok; auto; cbn; rewrite v; cbn; [reflexivity|].
      eapply uv_ok_ext; [exact U| |].
      * intros k. unfold set. destruct (k =? i) eqn:ki; [|reflexivity].
        apply Nat.eqb_eq in ki. subst. rewrite e. assert (u = r) by congruence. subst r.
        destruct u; reflexivity.
      * intros k. unfold put. destruct (k =? i) eqn:ki; [|reflexivity].
        apply Nat.eqb_eq in ki. congruence.
    + assert (E : set env j (Some (mk_uvec None 0)) i = Some u).
      { unfold set. rewrite (proj2 (Nat.eqb_neq i j) ij). exact e. }
      rewrite E. destruct (destroy_ok i U e v) as (h' & D & Q & _ & U').
      assert (D' : uv_destroy (mk_uvec (u_begin u) (u_size u)) h = Ret tt h').
      { destruct u. exact D. }
      rewrite D'. cbn [ends]. apply done_ok; auto; cbn; rewrite v, w; cbn; [reflexivity|].
      assert (P : uv_ok
        (set (set (set env i (Some uv_empty)) j (Some uv_empty)) i
             (Some (mk_uvec (u_begin r) (u_size r))))
        (put (put (put val i (Some [])) j (Some [])) i (Some d)) h').
      { apply pass_ok; auto.
        - rewrite uown_set, Nat.eqb_refl. reflexivity.
        - unfold set. rewrite (proj2 (Nat.eqb_neq j i)) by auto. exact f.
        - unfold put. rewrite (proj2 (Nat.eqb_neq j i)) by auto. exact w. }
      eapply uv_ok_ext; [exact P| |].
      * intros k. unfold set. destruct (k =? i); reflexivity.
      * intros k. unfold put. destruct (k =? i); reflexivity.
  - (* OResize *) destruct (env i) as [u|] eqn:e.
    2:{ pose proof (fits_none i U e) as v. apply skip_ok; auto. cbn. rewrite v. reflexivity. }
    destruct (fits_some i U e) as (c & v & su & bu).
    eapply into_ok; [exact U|eapply resize_ok; eauto| |]; cbn; rewrite v; reflexivity.
  - (* OClear *) destruct (env i) as [u|] eqn:e.
    2:{ pose proof (fits_none i U e) as v. apply skip_ok; auto. cbn. rewrite v. reflexivity. }
    destruct (fits_some i U e) as (c & v & su & bu).
    eapply into_ok; [exact U|eapply resize_ok; eauto| |].
    + unfold uv_means. rewrite v. unfold resized.
      destruct c; reflexivity.
    + unfold uv_needs. rewrite v. reflexivity.
  - (* OSwap *) destruct (env i) as [u|] eqn:e.
    2:{ pose proof (fits_none i U e) as v. apply skip_ok; auto. cbn. rewrite v. reflexivity. }
    destruct (fits_some i U e) as (c & v & su & bu). destruct (env j) as [r|] eqn:f.
    2:{ pose proof (fits_none j U f) as w. apply skip_ok; auto. cbn. rewrite v, w. reflexivity. }
    destruct (fits_some j U f) as (d & w & s & b).
    apply done_ok; auto; cbn; rewrite v, w; cbn; [reflexivity|]. split.
    + pose proof (heap_ok_swap i j (proj1 U)) as S1. rewrite v, w in S1.
      eapply heap_ok_ext; [exact S1| |reflexivity].
      intros k. cbn beta. rewrite !uown_set. unfold uown at 2 3. rewrite e, f. reflexivity.
    + apply fits_set; [apply fits_set; [apply U|]|]; cbn; auto.
  - (* OWrite *) destruct (env i) as [u|] eqn:e.
    2:{ pose proof (fits_none i U e) as w. apply skip_ok; auto. cbn. rewrite w. reflexivity. }
    destruct (fits_some i U e) as (c & w & su & bu). rewrite su.
    destruct (k <? length c) eqn:kc.
    2:{ apply skip_ok; auto. unfold uv_means. rewrite w, kc. reflexivity. }
    apply Nat.ltb_lt in kc. unfold uv_write. destruct (u_begin u) as [q|] eqn:ub.
    2:{ rewrite bu in kc by reflexivity. cbn in kc. lia. }
    assert (o : uown env i = Some q) by (unfold uown; rewrite e; exact ub).
    destruct (hk_live (proj1 U) _ o) as (d & y & z). rewrite y.
    assert (d = c) by congruence. subst d. rewrite (proj2 (Nat.ltb_lt _ _) kc). cbn [ends].
    apply done_ok; auto; unfold uv_means; rewrite w, (proj2 (Nat.ltb_lt _ _) kc); cbn [fst snd];
      [reflexivity|].
    rewrite <- (upd_split c (Some v)) by exact kc. split.
    + apply heap_ok_write; [apply U|exact o].
    + intros m. unfold put. destruct (m =? i) eqn:mi; [|apply U].
      apply Nat.eqb_eq in mi. subst m. rewrite e. cbn. rewrite upd_length. split; [exact su|].
      congruence.
  - (* ORead *) destruct (env i) as [u|] eqn:e.
    2:{ pose proof (fits_none i U e) as w. apply skip_ok; auto. cbn. rewrite w. reflexivity. }
    destruct (fits_some i U e) as (c & w & su & bu). rewrite su.
    destruct (k <? length c) eqn:kc.
    + apply Nat.ltb_lt in kc. destruct (nth_error c k) as [x|] eqn:n.
      2:{ apply nth_error_None in n. lia. }
      rewrite (read_ok i k U e w n). cbn [asks]. apply same_ok; auto.
      cbn. rewrite w, n. reflexivity.
    + apply Nat.ltb_ge in kc. apply skip_ok; auto. cbn. rewrite w.
      apply nth_error_None in kc. rewrite kc. reflexivity.
  - (* OAt *) destruct (env i) as [u|] eqn:e.
    2:{ pose proof (fits_none i U e) as w. apply skip_ok; auto. cbn. rewrite w. reflexivity. }
    destruct (fits_some i U e) as (c & w & su & bu). unfold uv_at. rewrite su.
    destruct (length c <=? k) eqn:kc.
    + apply Nat.leb_le in kc. apply nth_error_None in kc. cbn [asks].
      apply same_ok; auto. cbn. rewrite w, kc. reflexivity.
    + apply Nat.leb_gt in kc. destruct (nth_error c k) as [x|] eqn:n.
      2:{ apply nth_error_None in n. lia. }
      rewrite (read_ok i k U e w n). cbn [asks]. apply same_ok; auto.
      cbn. rewrite w, n. reflexivity.
  - (* OSize *) destruct (env i) as [u|] eqn:e.
    2:{ pose proof (fits_none i U e) as w. apply skip_ok; auto. cbn. rewrite w. reflexivity. }
    destruct (fits_some i U e) as (c & w & su & bu). apply same_ok; auto.
    cbn. rewrite w, su. reflexivity.
  - (* ODestroy *) destruct (env i) as [u|] eqn:e.
    2:{ pose proof (fits_none i U e) as w. apply skip_ok; auto. cbn. rewrite w. reflexivity. }
    destruct (fits_some i U e) as (c & w & su & bu).
    destruct (destroy_ok i U e w) as (h' & D & Q & U' & _). rewrite D. cbn [ends].
    apply done_ok; auto; cbn; rewrite w; cbn; [reflexivity|]. exact U'.
Qed.

(** A whole program, from any state in which the blocks are owned. *)
Lemma uv_run_ok p : forall env (val : values V) (h : heap V),
  uv_ok env val h ->
  exists l env' h' val',
    uv_run T (env, h) p = Some (l, (env', h')) /\
    uv_history T val p l val' /\ uv_ok env' val' h' /\
    (quiet h -> uv_answers T val p = (l, val')).
Proof.
  induction p as [|o p IH]; intros env val h U.
  - exists [], env, h, val. split; [reflexivity|]. split; [constructor|]. auto.
  - destruct (uv_step_ok o U) as (a & env1 & h1 & e & Q & C). cbn [uv_run]. rewrite e.
    destruct C as [[ -> U1] | (n & -> & U1 & q)].
    + destruct (IH env1 _ h1 U1) as (l & env' & h' & val' & r & H & U' & S1).
      rewrite r. exists (fst (uv_means T val o) :: l), env', h', val'.
      split; [reflexivity|]. split; [constructor; exact H|]. split; [exact U'|].
      intros q. cbn [uv_answers]. rewrite S1 by auto. reflexivity.
    + destruct (IH env1 _ h1 U1) as (l & env' & h' & val' & r & H & U' & S1).
      rewrite r. exists (Thrown bad_alloc :: l), env', h', val'.
      split; [reflexivity|]. split; [apply uh_fails; auto|]. split; [exact U'|].
      intros q'. elim (q q').
Qed.

Lemma fresh_ok mem : uv_ok (@nothing uvec) (fun _ => None) (fresh mem [] : heap V).
Proof.
  split; [|intros i; exact I]. constructor; try discriminate; auto.
Qed.

Lemma vectors_ok (mem : list bool) (p : list (op V)) :
  exists l env h val,
    uv_run T (@nothing uvec, fresh mem []) p = Some (l, (env, h)) /\
    uv_history T (fun _ => None) p l val /\
    (forall i, env i = None <-> val i = None) /\
    (forall b, live h b -> exists i, uv_owns env i b /\ forall j, uv_owns env j b -> j = i) /\
    (forall i b, uv_owns env i b -> live h b).
Proof.
  destruct (uv_run_ok p (fresh_ok mem)) as (l & env & h & val & r & H & U & _).
  exists l, env, h, val. split; [exact r|]. split; [exact H|]. split; [|split].
  - intros i. pose proof (proj2 U i) as F. unfold fits in F.
    destruct (env i), (val i); split; intros; try discriminate; try contradiction; reflexivity.
  - intros b L. unfold live in L. destruct (h_block h b) as [c|] eqn:B; [|congruence].
    destruct (hk_owned (proj1 U) _ B) as [i o]. unfold uown in o.
    destruct (env i) as [u|] eqn:e; [|discriminate]. exists i. split.
    + exists u. auto.
    + intros j (w & ej & bj). eapply (hk_once (proj1 U)); unfold uown.
      * rewrite ej. exact bj.
      * rewrite e. exact o.
  - intros i b (u & e & o). unfold live.
    destruct (hk_live (proj1 U) i (b := b)) as (c & B & _).
    + unfold uown. rewrite e. exact o.
    + rewrite B. discriminate.
Qed.

(** Nothing is left when nothing exists any more. *)
Lemma vectors_no_leak (mem : list bool) (p : list (op V)) l env h :
  uv_run T (@nothing uvec, fresh mem []) p = Some (l, (env, h)) ->
  (forall i, env i = None) -> forall b, ~ live h b.
Proof.
  intros r n b L. destruct (vectors_ok mem p) as (l' & env' & h' & val & r' & _ & _ & X & _).
  rewrite r in r'. injection r' as <- <- <-.
  destruct (X b L) as (i & (u & e & _) & _). rewrite n in e. discriminate.
Qed.

Lemma vectors_quiet (mem : list bool) (p : list (op V)) :
  (forall x, In x mem -> x = false) ->
  exists env h, uv_run T (@nothing uvec, fresh mem []) p =
    Some (fst (uv_answers T (fun _ => None) p), (env, h)).
Proof.
  intros q. destruct (uv_run_ok p (fresh_ok mem)) as (l & env & h & val & r & _ & _ & A).
  exists env, h. rewrite (A q). exact r.
Qed.

End Vectors.
