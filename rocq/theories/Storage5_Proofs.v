(** Every careful program on owning buffer adaptors. *)
From Coq Require Import List Bool Arith Lia.
From Verif Require Import Prelude PreludeFacts Storage_Model Storage_Spec Storage_Proofs
  Storage2_Proofs Storage3_Proofs Storage4_Proofs.
Import ListNotations.
Set Implicit Arguments.

Section Buffers.
Context {V : Type}.
Variable T : elem V.

Lemma bmove_ok m env (val : values V) (h : heap V) i j r c :
  ob_ok m env val h -> env i = None -> env j = Some r -> val j = Some c ->
  ob_ok (moved_after m (BMove i j : bop V))
    (set (set env j (Some (mk_obuf (o_data r) 0 true))) i
         (Some (mk_obuf (o_data r) (o_size r) (o_moved r))))
    (put (put val j (Some [])) i (Some c)) h.
Proof.
  intros U e f w.
  assert (ij : i <> j) by congruence.
  destruct (bfits_some j U f) as (c' & w' & s & mj & Lj).
  assert (c' = c) by congruence. subst c'. clear w'.
  assert (oi : bown env i = None) by (unfold bown; rewrite e; reflexivity).
  split.
  - pose proof (heap_ok_pass (Some []) (proj1 U) oi ij) as P. rewrite w in P.
    eapply heap_ok_ext; [exact P| |reflexivity].
    intros k. cbn beta. rewrite !bown_set. cbn [own1 o_moved o_data].
    destruct (k =? i); [|reflexivity]. unfold bown, own1. rewrite f. reflexivity.
  - assert (grow : forall k, among m k = true -> among (moved_after m (BMove i j : bop V)) k = true).
    { intros k I. apply among_in in I. apply among_in. cbn [moved_after].
      destruct (existsb (Nat.eqb j) m); right; exact I. }
    apply bfits_set with (m := moved_after m (BMove i j : bop V)); auto.
    + apply bfits_set with (m := m); auto; [apply U|]. cbn [bfits o_size o_moved length].
      split; [reflexivity|]. split; [reflexivity|]. apply among_in. cbn [moved_after].
      destruct (existsb (Nat.eqb j) m) eqn:x.
      * right. apply (among_in m j). exact x.
      * left. reflexivity.
    + cbn [bfits o_size o_moved o_data]. split; [exact s|]. destruct (o_moved r) eqn:om.
      * destruct (mj eq_refl) as [cn I]. split; [exact cn|]. apply among_in. cbn [moved_after].
        apply (among_in m j) in I. unfold among in I. rewrite I. left. reflexivity.
      * destruct (Lj eq_refl) as (b & db & _). congruence.
Qed.

Lemma bswap_ok m env (val : values V) (h : heap V) i j u r c d :
  ob_ok m env val h -> i <> j -> env i = Some u -> val i = Some c ->
  env j = Some r -> val j = Some d -> ~ In i m -> ~ In j m ->
  ob_ok m (set (set env i (Some (mk_obuf (o_data r) (o_size r) (o_moved u)))) j
               (Some (mk_obuf (o_data u) (o_size u) (o_moved r))))
        (put (put val i (Some d)) j (Some c)) h.
Proof.
  intros U ij e v f w ni nj.
  pose proof (not_moved i U e ni) as mi. pose proof (not_moved j U f nj) as mj.
  destruct (bfits_some i U e) as (c' & v' & si & _ & Li).
  assert (c' = c) by congruence. subst c'. clear v'.
  destruct (bfits_some j U f) as (d' & w' & sj & _ & Lj).
  assert (d' = d) by congruence. subst d'. clear w'.
  destruct (Li mi) as (b & db & ob & _). destruct (Lj mj) as (q & dq & oq & _).
  rewrite mi, mj. split.
  - pose proof (heap_ok_swap i j (proj1 U)) as S1. rewrite v, w in S1.
    eapply heap_ok_ext; [exact S1| |reflexivity].
    intros k. cbn beta. rewrite !bown_set. cbn [own1 o_moved o_data].
    rewrite ob, oq, db, dq. reflexivity.
  - apply bfits_set with (m := m); auto.
    + apply bfits_set with (m := m); auto; [apply U|]. cbn. split; [exact sj|congruence].
    + cbn. split; [exact si|congruence].
Qed.

Lemma bdestroy_ok m env (val : values V) (h : heap V) i u c :
  ob_ok m env val h -> env i = Some u -> val i = Some c ->
  exists h', ob_destroy u h = Ret tt h' /\ (quiet h -> quiet h') /\
    ob_ok (moved_after m (BDestroy i : bop V)) (set env i None) (put val i None) h'.
Proof.
  intros U e v. destruct (bfits_some i U e) as (c' & v' & s & mi & Li).
  assert (c' = c) by congruence. subst c'. clear v'.
  assert (keep : forall k, k <> i -> among m k = true ->
                 among (moved_after m (BDestroy i : bop V)) k = true).
  { intros k n I. apply among_in in I. apply among_in. cbn [moved_after]. apply filter_In.
    split; [exact I|]. apply (proj2 (Nat.eqb_neq _ _)) in n. rewrite n. reflexivity. }
  unfold ob_destroy. destruct (o_moved u) eqn:om.
  - exists h. split; [reflexivity|]. split; [auto|]. split.
    + assert (o : bown env i = None) by (unfold bown, own1; rewrite e, om; reflexivity).
      eapply heap_ok_ext; [exact (heap_ok_put_none i None (proj1 U) o)| |reflexivity].
      intros k. rewrite bown_set. cbn [own1]. destruct (k =? i) eqn:ki; [|reflexivity].
      apply Nat.eqb_eq in ki. congruence.
    + apply bfits_set with (m := m); auto; [apply U|exact I].
  - destruct (Li eq_refl) as (b & db & o & B). rewrite db. cbn [safe_destroy_deallocate].
    unfold deallocate. rewrite B, s, Nat.eqb_refl. eexists. split; [reflexivity|].
    split; [auto|]. split.
    + eapply heap_ok_ext; [exact (heap_ok_release i None (proj1 U) o)| |reflexivity].
      intros k. rewrite bown_set. reflexivity.
    + apply bfits_set with (m := m); auto; [apply U|exact I].
Qed.

Ltac dead U i e v := pose proof (bfits_none i U e) as v.

Lemma ob_step_ok m env (val : values V) (h : heap V) o :
  ob_ok m env val h -> (forall i, In i (overwritten o) -> ~ In i m) ->
  bstep_ok T m val h o (ob_step T (env, h) o).
Proof.
  intros U ca. destruct o; cbn [ob_step]; cbn [overwritten] in ca.
  - (* BAdopt *) destruct (env i) eqn:e.
    + destruct (bfits_some i U e) as (c & v & _). apply bsame_ok; auto. cbn. rewrite v. reflexivity.
    + pose proof (bfits_none i U e) as v.
      eapply binto_ok with (c := map Some l) (needs := true);
        [exact U| |reflexivity|cbn; rewrite v; reflexivity|cbn; rewrite v; reflexivity].
      destruct (user_buffer_ok l h) as [(h' & k & A) | (h' & k & A)]; rewrite k; cbn [bnd];
        [left | right; eauto].
      eexists _, _. split; [reflexivity|]. split; [|apply A].
      apply ob_ok_set; cbn [ob_make o_data o_size o_moved]; auto; try discriminate.
      * apply U.
      * eapply heap_ok_new; eauto; [apply U|]. unfold bown. rewrite e. reflexivity.
      * rewrite map_length. reflexivity.
  - (* BReset *) destruct (env i) as [u|] eqn:e.
    2:{ pose proof (bfits_none i U e) as v. apply bsame_ok; auto. cbn. rewrite v. reflexivity. }
    destruct (bfits_some i U e) as (c & v & _).
    eapply binto_ok; [exact U|eapply breset_ok; eauto; apply ca; cbn; auto|reflexivity| |];
      cbn; rewrite v; reflexivity.
  - (* BFrom *) destruct (env i) as [u|] eqn:e.
    2:{ pose proof (bfits_none i U e) as v. apply bsame_ok; auto. cbn. rewrite v. reflexivity. }
    destruct (bfits_some i U e) as (c & v & _).
    eapply binto_ok; [exact U|eapply bfrom_ok; eauto; apply ca; cbn; auto|reflexivity| |];
      cbn; rewrite v; [|rewrite map_length]; reflexivity.
  - (* BMove *)
    assert (grow : forall k, In k m -> In k (moved_after m (BMove i j : bop V))).
    { intros k I. cbn [moved_after]. destruct (existsb (Nat.eqb j) m); right; exact I. }
    destruct (env i) eqn:e.
    + destruct (bfits_some i U e) as (c & v & _). apply bsame_ok; auto.
      cbn. rewrite v. reflexivity.
    + pose proof (bfits_none i U e) as v. destruct (env j) as [r|] eqn:f.
      * destruct (bfits_some j U f) as (c & w & _). cbn [ob_move].
        apply bdone_ok; auto; cbn [ob_means]; rewrite v, w; cbn [fst snd]; [reflexivity|].
        apply bmove_ok; auto.
      * pose proof (bfits_none j U f) as w. apply bsame_ok; auto.
        cbn. rewrite v, w. reflexivity.
  - (* BAssign *) destruct (env i) as [u|] eqn:e.
    2:{ pose proof (bfits_none i U e) as v. apply bsame_ok; auto. cbn. rewrite v. reflexivity. }
    destruct (bfits_some i U e) as (c & v & _). destruct (env j) as [r|] eqn:f.
    2:{ pose proof (bfits_none j U f) as w. apply bsame_ok; auto. cbn. rewrite v, w. reflexivity. }
    destruct (bfits_some j U f) as (d & w & _). destruct (i =? j) eqn:ij.
    + apply Nat.eqb_eq in ij. subst j. apply bdone_ok; auto; cbn; rewrite v; cbn; [reflexivity|].
      eapply ob_ok_ext; [exact U|reflexivity|]. intros k. apply put_same. exact v.
    + pose proof ij as ij'. apply Nat.eqb_neq in ij.
      eapply binto_ok;
        [exact U|eapply bassign_ok; eauto; apply ca; cbn; auto|reflexivity| |];
        cbn; rewrite v, w, ?ij'; reflexivity.
  - (* BMoveAssign *) destruct (env i) as [u|] eqn:e.
    2:{ pose proof (bfits_none i U e) as v. apply bsame_ok; auto. cbn. rewrite v. reflexivity. }
    destruct (bfits_some i U e) as (c & v & _). destruct (env j) as [r|] eqn:f.
    2:{ pose proof (bfits_none j U f) as w. apply bsame_ok; auto. cbn. rewrite v, w. reflexivity. }
    destruct (bfits_some j U f) as (d & w & _). destruct (i =? j) eqn:ij.
    + apply Nat.eqb_eq in ij. subst j. apply bdone_ok; auto; cbn; rewrite v; cbn; [reflexivity|].
      eapply ob_ok_ext; [exact U|reflexivity|]. intros k. rewrite put_put. apply put_same. exact v.
    + apply Nat.eqb_neq in ij. cbn [ob_swap].
      apply bdone_ok; auto; cbn; rewrite v, w; cbn; [reflexivity|].
      apply bswap_ok; auto; apply ca; cbn; auto.
  - (* BSwap *) destruct (env i) as [u|] eqn:e.
    2:{ pose proof (bfits_none i U e) as v. apply bsame_ok; auto. cbn. rewrite v. reflexivity. }
    destruct (bfits_some i U e) as (c & v & _). destruct (env j) as [r|] eqn:f.
    2:{ pose proof (bfits_none j U f) as w. apply bsame_ok; auto. cbn. rewrite v, w. reflexivity. }
    destruct (bfits_some j U f) as (d & w & _). destruct (i =? j) eqn:ij.
    + apply Nat.eqb_eq in ij. subst j. apply bdone_ok; auto; cbn; rewrite v; cbn; [reflexivity|].
      eapply ob_ok_ext; [exact U|reflexivity|]. intros k. rewrite put_put. apply put_same. exact v.
    + apply Nat.eqb_neq in ij. cbn [ob_swap].
      apply bdone_ok; auto; cbn; rewrite v, w; cbn; [reflexivity|].
      apply bswap_ok; auto; apply ca; cbn; auto.
  - (* BResize *) destruct (env i) as [u|] eqn:e.
    2:{ pose proof (bfits_none i U e) as v. apply bsame_ok; auto. cbn. rewrite v. reflexivity. }
    destruct (bfits_some i U e) as (c & v & _).
    eapply binto_ok; [exact U|eapply bresize_ok; eauto; apply ca; cbn; auto|reflexivity| |];
      cbn; rewrite v; reflexivity.
  - (* BWrite *) destruct (env i) as [u|] eqn:e.
    2:{ pose proof (bfits_none i U e) as w. apply bsame_ok; auto. cbn. rewrite w. reflexivity. }
    destruct (bfits_some i U e) as (c & w & su & mi & Li). rewrite su.
    destruct (k <? length c) eqn:kc.
    2:{ apply bsame_ok; auto. unfold ob_means. rewrite w, kc. reflexivity. }
    apply Nat.ltb_lt in kc. destruct (o_moved u) eqn:om.
    { destruct (mi eq_refl) as [-> _]. cbn in kc. lia. }
    destruct (Li eq_refl) as (q & dq & o & B).
    unfold uv_write. cbn [u_begin]. rewrite dq, B, (proj2 (Nat.ltb_lt _ _) kc). cbn [ends].
    apply bdone_ok; auto; unfold ob_means; rewrite w, (proj2 (Nat.ltb_lt _ _) kc); cbn [fst snd];
      [reflexivity|].
    rewrite <- (upd_split c (Some v)) by exact kc. split.
    + apply heap_ok_write; [apply U|exact o].
    + intros n. unfold put. destruct (n =? i) eqn:ni; [|apply U].
      apply Nat.eqb_eq in ni. subst n. rewrite e. cbn. rewrite upd_length, om.
      split; [exact su|congruence].
  - (* BRead *) destruct (env i) as [u|] eqn:e.
    2:{ pose proof (bfits_none i U e) as w. apply bsame_ok; auto. cbn. rewrite w. reflexivity. }
    destruct (bfits_some i U e) as (c & w & su & mi & Li). rewrite su.
    destruct (k <? length c) eqn:kc.
    + apply Nat.ltb_lt in kc. destruct (nth_error c k) as [x|] eqn:n.
      2:{ apply nth_error_None in n. lia. }
      destruct (o_moved u) eqn:om.
      { destruct (mi eq_refl) as [-> _]. cbn in kc. lia. }
      destruct (Li eq_refl) as (q & dq & o & B).
      unfold uv_read. cbn [u_begin]. rewrite dq, B, n. cbn [asks]. apply bsame_ok; auto.
      cbn. rewrite w, n. reflexivity.
    + apply Nat.ltb_ge in kc. apply bsame_ok; auto. cbn. rewrite w.
      apply nth_error_None in kc. rewrite kc. reflexivity.
  - (* BSize *) destruct (env i) as [u|] eqn:e.
    2:{ pose proof (bfits_none i U e) as w. apply bsame_ok; auto. cbn. rewrite w. reflexivity. }
    destruct (bfits_some i U e) as (c & w & su & _). apply bsame_ok; auto.
    cbn. rewrite w, su. reflexivity.
  - (* BDestroy *) destruct (env i) as [u|] eqn:e.
    2:{ pose proof (bfits_none i U e) as w. apply bsame_ok; auto; [|cbn; rewrite w; reflexivity].
        intros k u f I. cbn [moved_after]. apply filter_In. split; [exact I|].
        destruct (k =? i) eqn:ki; [|reflexivity]. apply Nat.eqb_eq in ki. congruence. }
    destruct (bfits_some i U e) as (c & w & _).
    destruct (bdestroy_ok i U e w) as (h' & D & Q & U'). rewrite D. cbn [ends].
    apply bdone_ok; auto; cbn [ob_means]; rewrite w; cbn [fst snd]; [reflexivity|]. exact U'.
Qed.

Lemma ob_run_ok p : forall m env (val : values V) (h : heap V),
  ob_ok m env val h -> careful m p ->
  exists l env' h' val' m',
    ob_run T (env, h) p = Some (l, (env', h')) /\
    ob_history T val p l val' /\ ob_ok m' env' val' h'.
Proof.
  induction p as [|o p IH]; intros m env val h U ca.
  - exists [], env, h, val, m. split; [reflexivity|]. split; [constructor|]. auto.
  - destruct ca as [c1 c2]. destruct (ob_step_ok o U c1) as (a & env1 & h1 & e & Q & C).
    cbn [ob_run]. rewrite e.
    destruct C as [[ -> U1] | (n & -> & U1 & q)].
    + destruct (IH _ env1 _ h1 U1 c2) as (l & env' & h' & val' & m' & r & H & U').
      rewrite r. exists (fst (ob_means T val o) :: l), env', h', val', m'.
      split; [reflexivity|]. split; [constructor; exact H|]. exact U'.
    + destruct (IH _ env1 _ h1 U1 c2) as (l & env' & h' & val' & m' & r & H & U').
      rewrite r. exists (Thrown bad_alloc :: l), env', h', val', m'.
      split; [reflexivity|]. split; [apply oh_fails; auto|]. exact U'.
Qed.

Lemma bfresh_ok mem : ob_ok [] (@nothing obuf) (fun _ => None) (fresh mem [] : heap V).
Proof.
  split; [|intros i; exact I]. constructor; try discriminate; auto.
Qed.

Lemma buffers_ok (mem : list bool) (p : list (bop V)) :
  careful [] p ->
  exists l env h val,
    ob_run T (@nothing obuf, fresh mem []) p = Some (l, (env, h)) /\
    ob_history T (fun _ => None) p l val /\
    (forall i, env i = None <-> val i = None) /\
    (forall b, live h b -> exists i, ob_owns env i b /\ forall j, ob_owns env j b -> j = i) /\
    (forall i b, ob_owns env i b -> live h b).
Proof.
  intros ca.
  destruct (ob_run_ok p (bfresh_ok mem) ca) as (l & env & h & val & m & r & H & U).
  exists l, env, h, val. split; [exact r|]. split; [exact H|].
  assert (X : forall i b, bown env i = Some b <-> ob_owns env i b).
  { intros i b. unfold bown, own1, ob_owns. destruct (env i) as [u|]; split.
    - destruct (o_moved u) eqn:om; [discriminate|]. eauto.
    - intros (o & e & om & d). injection e as ->. rewrite om. exact d.
    - discriminate.
    - intros (o & e & _). discriminate. }
  split; [|split].
  - intros i. pose proof (proj2 U i) as F. unfold bfits in F.
    destruct (env i), (val i); split; intros; try discriminate; try contradiction; reflexivity.
  - intros b L. unfold live in L. destruct (h_block h b) as [c|] eqn:B; [|congruence].
    destruct (hk_owned (proj1 U) _ B) as [i o]. exists i. split; [apply X; exact o|].
    intros j oj. apply X in oj. eapply (hk_once (proj1 U)); eauto.
  - intros i b o. apply X in o. unfold live.
    destruct (hk_live (proj1 U) _ o) as (c & B & _). rewrite B. discriminate.
Qed.

End Buffers.

(** ** Comparisons *)

Section Compare.
Context {V : Type}.
Variables (lt : V -> V -> Prop) (ltb : V -> V -> bool).
Hypothesis ord : total_order lt ltb.

Lemma ltb_false x y : ltb x y = false <-> ~ lt x y.
Proof.
  destruct ord as [d _]. split.
  - intros e l. apply d in l. congruence.
  - intros n. destruct (ltb x y) eqn:e; [|reflexivity]. elim n. apply d. exact e.
Qed.

Lemma lexi_ok a : forall b, lexicographical_compare ltb a b = true <-> lexi lt a b.
Proof.
  pose proof ord as (d & irr & tr & tot).
  induction a as [|x a IH]; intros [|y b]; cbn; try (split; [discriminate|tauto]); try tauto.
  destruct (ltb x y) eqn:xy.
  - apply d in xy. tauto.
  - apply ltb_false in xy. destruct (ltb y x) eqn:yx.
    + apply d in yx. split; [discriminate|]. intros [l | [ -> _]]; [tauto|]. elim (irr _ yx).
    + apply ltb_false in yx. rewrite IH. destruct (tot x y) as [l | [e | l]]; try tauto.
Qed.

Lemma lexi_irrefl a : ~ lexi lt a a.
Proof.
  destruct ord as (d & irr & tr & tot). induction a as [|x a IH]; cbn; [tauto|].
  intros [l | [_ l]]; [elim (irr _ l)|auto].
Qed.

Lemma lexi_total a : forall b, lexi lt a b \/ a = b \/ lexi lt b a.
Proof.
  destruct ord as (d & irr & tr & tot).
  induction a as [|x a IH]; intros [|y b]; cbn; try tauto.
  destruct (tot x y) as [l | [ -> | l]]; try tauto.
  destruct (IH b) as [l | [ -> | l]]; tauto.
Qed.

Lemma lexi_trans a : forall b c, lexi lt a b -> lexi lt b c -> lexi lt a c.
Proof.
  destruct ord as (d & irr & tr & tot).
  induction a as [|x a IH]; intros [|y b] [|z c]; cbn; try tauto.
  intros [l | [ -> l]] [k | [ <- k]]; eauto.
Qed.

Lemma not_lexi a b : ~ lexi lt b a <-> (lexi lt a b \/ a = b).
Proof.
  split.
  - intros n. destruct (lexi_total a b) as [l | [e | l]]; tauto.
  - intros [l | ->] k; [|exact (lexi_irrefl _ k)]. exact (lexi_irrefl _ (lexi_trans _ _ _ l k)).
Qed.

Lemma uv_order a b :
  (uv_lt ltb a b = true <-> lexi lt a b) /\
  (uv_gt ltb a b = true <-> lexi lt b a) /\
  (uv_le ltb a b = true <-> lexi lt a b \/ a = b) /\
  (uv_ge ltb a b = true <-> lexi lt b a \/ a = b).
Proof.
  unfold uv_le, uv_ge, uv_gt, uv_lt.
  split; [apply lexi_ok|]. split; [apply lexi_ok|]. split.
  - rewrite negb_true_iff, <- not_true_iff_false, lexi_ok. apply not_lexi.
  - rewrite negb_true_iff, <- not_true_iff_false, lexi_ok, not_lexi. intuition.
Qed.

(** Of equal lengths, "greater" reads right. *)
Lemma ba_gt_same a : forall b, length a = length b -> ba_gt ltb a b = ba_lt ltb b a.
Proof.
  unfold ba_gt, ba_lt. induction a as [|x a IH]; intros [|y b]; cbn; try discriminate; auto.
  intros l. destruct (ltb y x) eqn:e; [reflexivity|]. destruct (ltb x y); [reflexivity|].
  apply IH. lia.
Qed.

(** The first elements decide alone for "at most" and "at least". *)
Lemma ba_le_first x y a b : ba_le ltb (x :: a) (y :: b) = negb (ltb y x).
Proof.
  pose proof ord as (d & irr & tr & tot). unfold ba_le. cbn.
  destruct (ltb y x) eqn:e; cbn; [|reflexivity].
  assert (n : ltb x y = false).
  { apply ltb_false. intros l. apply d in e. exact (irr _ (tr _ _ _ l e)). }
  rewrite n. reflexivity.
Qed.

Lemma ba_ge_first x y a b : ba_ge ltb (x :: a) (y :: b) = negb (ltb x y).
Proof.
  pose proof ord as (d & irr & tr & tot). unfold ba_ge. cbn.
  destruct (ltb x y) eqn:e; cbn; [|reflexivity].
  assert (n : ltb y x = false).
  { apply ltb_false. intros l. apply d in e. exact (irr _ (tr _ _ _ l e)). }
  rewrite n. reflexivity.
Qed.

End Compare.

Section Equality.
Context {V : Type}.
Variable eqb : V -> V -> bool.
Hypothesis dec : forall x y, eqb x y = true <-> x = y.

Lemma st_eq_ok a : forall b, st_eq eqb a b = true <-> a = b.
Proof.
  unfold st_eq. induction a as [|x a IH]; intros [|y b]; cbn; try (split; [discriminate|discriminate]).
  - tauto.
  - specialize (IH b). rewrite andb_true_iff in *. destruct (eqb x y) eqn:e.
    + apply dec in e. subst y. rewrite IH. split; [intros ->; reflexivity|]. intros [=]; auto.
    + split; [intros [_ k]; discriminate|]. intros [= -> _].
      assert (eqb y y = true) by (apply dec; reflexivity). congruence.
Qed.
End Equality.
