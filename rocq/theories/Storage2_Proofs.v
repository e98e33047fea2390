(** Programs on vectors. *)
From Coq Require Import List Bool Arith Lia.
From Verif Require Import Prelude PreludeFacts Storage_Model Storage_Spec Storage_Proofs.
Import ListNotations.
Set Implicit Arguments.

Section Vectors.
Context {V : Type}.
Variable T : elem V.

Definition uown (env : nat -> option uvec) (i : nat) : option nat :=
  match env i with Some u => u_begin u | None => None end.

Definition fits (x : option uvec) (y : option (list (option V))) : Prop :=
  match x, y with
  | None, None => True
  | Some u, Some c => u_size u = length c /\ (u_begin u = None -> c = [])
  | _, _ => False
  end.

Definition uv_ok (env : nat -> option uvec) (val : values V) (h : heap V) : Prop :=
  heap_ok (uown env) val h /\ forall i, fits (env i) (val i).

Lemma set_same O (env : nat -> option O) i x : set env i x i = x.
Proof. unfold set. rewrite Nat.eqb_refl. reflexivity. Qed.

Lemma uown_set env i x k :
  uown (set env i x) k = if k =? i then match x with Some u => u_begin u | None => None end
                         else uown env k.
Proof. unfold uown, set. destruct (k =? i); reflexivity. Qed.

Lemma fits_set env (val : values V) i x y :
  (forall k, fits (env k) (val k)) -> fits x y -> forall k, fits (set env i x k) (put val i y k).
Proof. intros f g k. unfold set, put. destruct (k =? i); auto. Qed.

(** A new value for a variable. *)
Lemma uv_ok_set env val h' i u c :
  (forall k, fits (env k) (val k)) ->
  heap_ok (fun k => if k =? i then u_begin u else uown env k) (put val i (Some c)) h' ->
  u_size u = length c -> (u_begin u = None -> c = []) ->
  uv_ok (set env i (Some u)) (put val i (Some c)) (h' : heap V).
Proof.
  intros f H s n. split.
  - eapply heap_ok_ext; [exact H| |reflexivity]. intros k. apply uown_set.
  - apply fits_set; [exact f|]. cbn. auto.
Qed.

Lemma heap_ok_put_none own val (h : heap V) i x :
  heap_ok own val h -> own i = None -> heap_ok own (put val i x) h.
Proof.
  intros H o. eapply heap_ok_ext; [exact H|reflexivity|].
  intros k b ob. unfold put. destruct (k =? i) eqn:ki; [|reflexivity].
  apply Nat.eqb_eq in ki. congruence.
Qed.

(** The three outcomes of making a value for variable [i]. *)
Definition outcome (env : nat -> option uvec) (val : values V) (h : heap V) (i : nat)
    (m : out V uvec) (c : list (option V)) (needs : bool) : Prop :=
  (exists u h', m = Ret u h' /\ uv_ok (set env i (Some u)) (put val i (Some c)) h' /\
                (quiet h -> quiet h')) \/
  (needs = true /\ exists h', m = Exc bad_alloc h' /\ after_fail h h').

(** Making an object where there was none. *)
Lemma make_ok env val h i p c h' :
  uv_ok env val h -> env i = None -> p = h_next h -> after_alloc h h' c ->
  uv_ok (set env i (Some (mk_uvec (Some p) (length c)))) (put val i (Some c)) h'.
Proof.
  intros [H f] n -> A. apply uv_ok_set; cbn [u_begin u_size]; auto; try discriminate.
  apply heap_ok_new with (h := h); auto. unfold uown. rewrite n. reflexivity.
Qed.

Lemma empty_ok env val h i :
  uv_ok env val h -> uown env i = None ->
  uv_ok (set env i (Some uv_empty)) (put val i (Some [])) h.
Proof.
  intros [H f] n. apply uv_ok_set; cbn [u_begin u_size uv_empty]; auto.
  eapply heap_ok_ext; [apply (heap_ok_put_none i (Some []) H n)| |reflexivity].
  intros k. cbn. destruct (k =? i) eqn:e; [|reflexivity]. apply Nat.eqb_eq in e. congruence.
Qed.

Lemma none_own env i : env i = None -> uown env i = None.
Proof. unfold uown. intros ->. reflexivity. Qed.

Lemma init_data_ok env val h i c :
  uv_ok env val h -> env i = None ->
  outcome env val h i (init_data T c h) c (negb (length c =? 0)).
Proof.
  intros U n. unfold outcome, init_data. destruct (length c =? 0) eqn:z.
  - left. exists uv_empty, h. apply Nat.eqb_eq in z. destruct c; [|discriminate].
    split; [reflexivity|]. split; [|auto]. apply empty_ok; auto using none_own.
  - destruct (alloc_fill T h c (hk_elem (proj1 U))) as [(h' & e & A) | (h' & e & A)].
    + left. exists (mk_uvec (Some (h_next h)) (length c)), h'.
      split.
      * destruct (allocate (length c) h); cbn [bnd] in *; try discriminate.
        destruct (constructing T h0); cbn [bnd] in *; try discriminate.
        destruct (store n0 c h1); cbn [bnd] in *; try discriminate. congruence.
      * split; [eapply make_ok; eauto|]. apply A.
    + right. split; [reflexivity|]. exists h'. split; [|exact A].
      destruct (allocate (length c) h); cbn [bnd] in *; try congruence.
      destruct (constructing T h0); cbn [bnd] in *; try congruence.
      destruct (store n0 c h1); cbn [bnd] in *; try congruence.
Qed.

Lemma count_ok env val h i n :
  uv_ok env val h -> env i = None ->
  outcome env val h i (uv_count T n h) (blank T n) (negb (n =? 0)).
Proof.
  intros U e. unfold outcome, uv_count. destruct (n =? 0) eqn:z.
  - left. exists uv_empty, h. apply Nat.eqb_eq in z. subst n.
    split; [reflexivity|]. split; [|auto]. apply empty_ok; auto using none_own.
  - destruct (init_allocate_ok T n h (hk_elem (proj1 U))) as [(h' & k & A) | (h' & k & A)];
      rewrite k; cbn [bnd].
    + left. eexists _, h'. split; [reflexivity|]. split; [|apply A].
      pose proof (make_ok i U e eq_refl A) as M. unfold blank in M at 1.
      rewrite repeat_length in M. exact M.
    + right. eauto.
Qed.

Lemma fill_ok env val h i n v :
  uv_ok env val h -> env i = None ->
  outcome env val h i (uv_fill T n v h) (repeat (Some v) n) (negb (n =? 0)).
Proof.
  intros U e. pose proof (init_data_ok i (repeat (Some v) n) U e) as O.
  unfold init_data in O. rewrite repeat_length in O. exact O.
Qed.

Lemma resize_ok env val h i u c n :
  uv_ok env val h -> env i = Some u -> val i = Some c ->
  outcome env val h i (uv_resize T u n h) (resized T c n) (negb (n =? length c)).
Proof.
  intros U e v. pose proof (proj2 U i) as F. rewrite e, v in F. destruct F as [s b].
  unfold outcome, uv_resize, resized. rewrite s. destruct (n =? length c) eqn:z.
  - left. exists u, h. split; [reflexivity|]. split; [|auto]. split.
    + eapply heap_ok_ext; [exact (proj1 U)| |].
      * intros k. rewrite uown_set. unfold uown. destruct (k =? i) eqn:ki; [|reflexivity].
        apply Nat.eqb_eq in ki. subst. rewrite e. reflexivity.
      * intros k x _. unfold put. destruct (k =? i) eqn:ki; [|reflexivity].
        apply Nat.eqb_eq in ki. congruence.
    + apply fits_set; [apply U|]. cbn. auto.
  - destruct (init_allocate_ok T n h (hk_elem (proj1 U))) as [(h' & k & A) | (h' & k & A)];
      rewrite k; cbn [bnd]; [left | right; eauto].
    unfold safe_destroy_deallocate. destruct (u_begin u) as [q|] eqn:ub.
    + assert (o : uown env i = Some q) by (unfold uown; rewrite e; exact ub).
      destruct (hk_live (proj1 U) _ o) as (d & y & w).
      assert (d = c) by congruence. subst d.
      assert (qn : q <> h_next h).
      { intros ->. rewrite (hk_next (proj1 U)) in y by lia. discriminate. }
      unfold deallocate. rewrite (proj1 (proj2 A)).
      rewrite (proj2 (Nat.eqb_neq _ _) qn), y, Nat.eqb_refl. cbn [bnd].
      eexists _, _. split; [reflexivity|]. split.
      * apply uv_ok_set; cbn [u_begin u_size].
        -- apply U.
        -- eapply heap_ok_replace; eauto. apply U.
        -- unfold blank. rewrite repeat_length. reflexivity.
        -- discriminate.
      * intros Q x I. apply (proj2 (proj2 (proj2 A)) Q x I).
    + cbn [bnd]. eexists _, _. split; [reflexivity|]. split; [|apply A].
      apply uv_ok_set; cbn [u_begin u_size].
      * apply U.
      * eapply heap_ok_new; eauto; [apply U|]. unfold uown. rewrite e. exact ub.
      * unfold blank. rewrite repeat_length. reflexivity.
      * discriminate.
Qed.

Lemma put_put (val : values V) i x y k : put (put val i x) i y k = put val i y k.
Proof. unfold put. destruct (k =? i); reflexivity. Qed.

Lemma assign_ok env val h i j u r c d :
  uv_ok env val h -> i <> j -> env i = Some u -> val i = Some c ->
  env j = Some r -> val j = Some d ->
  outcome env val h i (uv_assign T u r h) d (negb (length d =? length c)).
Proof.
  intros U ij eu vc er vd. unfold uv_assign.
  pose proof (proj2 U j) as F. rewrite er, vd in F. destruct F as [s b].
  rewrite s. destruct (resize_ok i (length d) U eu vc) as [(w & h1 & k & U1 & Q) | (z & h1 & k & A)];
    rewrite k; cbn [bnd].
  2:{ right. eauto. }
  left.
  assert (oj : uown (set env i (Some w)) j = u_begin r).
  { rewrite uown_set. rewrite (proj2 (Nat.eqb_neq j i)) by auto. unfold uown. rewrite er.
    reflexivity. }
  assert (vj : put val i (Some (resized T c (length d))) j = Some d).
  { unfold put. rewrite (proj2 (Nat.eqb_neq j i)) by auto. exact vd. }
  rewrite (@load_ok V _ _ _ j _ _ d (proj1 U1) oj vj) by auto. cbn [bnd].
  assert (len : length (resized T c (length d)) = length d).
  { unfold resized. destruct (length d =? length c) eqn:e; [apply Nat.eqb_eq in e; auto|].
    unfold blank. apply repeat_length. }
  pose proof (proj2 U1 i) as F. rewrite set_same in F. unfold put in F at 1.
  rewrite Nat.eqb_refl in F. destruct F as [s1 b1]. rewrite len in s1.
  unfold store_at. destruct d as [|x d].
  - cbn [bnd]. exists w, h1. split; [reflexivity|]. split; [|exact Q].
    destruct (resized T c (length (@nil (option V)))) eqn:rr; [exact U1|discriminate].
  - destruct (u_begin w) as [q|] eqn:qb.
    2:{ rewrite b1 in len by reflexivity. discriminate. }
    assert (oi : uown (set env i (Some w)) i = Some q).
    { rewrite uown_set, Nat.eqb_refl. exact qb. }
    destruct (hk_live (proj1 U1) _ oi) as (e & y & z).
    unfold put in z at 1. rewrite Nat.eqb_refl in z. injection z as <-.
    rewrite (@store_ok V _ _ _ _ y) by auto. cbn [bnd].
    eexists w, _. split; [reflexivity|]. split.
    + pose proof (heap_ok_write i (x :: d) (proj1 U1) oi) as W.
      split.
      * eapply heap_ok_ext; [exact W|reflexivity|]. intros k' b' _. symmetry. apply put_put.
      * apply fits_set; [apply U|]. cbn. split; [exact s1|congruence].
    + exact Q.
Qed.

(** ** One instruction *)

Definition step_ok (val : values V) (h : heap V) (o : op V)
    (r : option (answer V * state uvec)) : Prop :=
  exists a env' h', r = Some (a, (env', h')) /\ (quiet h -> quiet h') /\
    ((a = fst (uv_means T val o) /\ uv_ok env' (snd (uv_means T val o)) h') \/
     (uv_needs val o = true /\ a = Thrown bad_alloc /\ uv_ok env' val h' /\ ~ quiet h)).

Lemma into_ok env val h o i m c needs :
  uv_ok env val h -> outcome env val h i m c needs ->
  uv_means T val o = (Done, put val i (Some c)) -> uv_needs val o = needs ->
  step_ok val h o (into env i m).
Proof.
  intros U [(u & h' & -> & U' & Q) | (n & h' & -> & A)] E N.
  - exists Done, (set env i (Some u)), h'. split; [reflexivity|]. split; [exact Q|].
    left. rewrite E. auto.
  - exists (Thrown bad_alloc), env, h'. split; [reflexivity|]. split.
    + intros q. elim (proj2 (proj2 (proj2 A)) q).
    + right. rewrite N, n. split; [reflexivity|]. split; [reflexivity|]. split; [|apply A].
      split; [|apply U]. eapply heap_ok_fail; [apply U|exact A].
Qed.

Lemma skip_ok env val h o :
  uv_ok env val h -> uv_means T val o = (Skip, val) ->
  step_ok val h o (Some (Skip, (env, h))).
Proof.
  intros U E. exists Skip, env, h. split; [reflexivity|]. split; [auto|]. left. rewrite E. auto.
Qed.

(** No block, no size: an object that owns nothing holds nothing. *)
Lemma read_ok env val h i u c k x :
  uv_ok env val h -> env i = Some u -> val i = Some c -> nth_error c k = Some x ->
  uv_read u k h = Ret x h.
Proof.
  intros U e v n. pose proof (proj2 U i) as F. rewrite e, v in F. destruct F as [s b].
  unfold uv_read. destruct (u_begin u) as [q|] eqn:ub.
  - assert (o : uown env i = Some q) by (unfold uown; rewrite e; exact ub).
    destruct (hk_live (proj1 U) _ o) as (d & y & w).
    rewrite y. assert (d = c) by congruence. subst d. rewrite n. reflexivity.
  - rewrite b in n by reflexivity. destruct k; discriminate.
Qed.

Ltac fitting U i e v :=
  let F := fresh "F" in
  pose proof (proj2 U i) as F; rewrite e in F;
  match type of F with fits _ (?val i) => destruct (val i) eqn:v; cbn [fits] in F end.

Lemma destroy_release env val h i u c q :
  uv_ok env val h -> env i = Some u -> val i = Some c -> u_begin u = Some q ->
  uv_destroy u h = Ret tt (set_block h q None).
Proof.
  intros U e v b. pose proof (proj2 U i) as F. rewrite e, v in F. destruct F as [s _].
  unfold uv_destroy, safe_destroy_deallocate. rewrite b. unfold deallocate.
  assert (o : uown env i = Some q) by (unfold uown; rewrite e; exact b).
  destruct (hk_live (proj1 U) _ o) as (d & y & w). rewrite y.
  assert (d = c) by congruence. subst d. rewrite s, Nat.eqb_refl. reflexivity.
Qed.

Lemma destroy_ok env val h i u c :
  uv_ok env val h -> env i = Some u -> val i = Some c ->
  exists h', uv_destroy u h = Ret tt h' /\ (quiet h -> quiet h') /\
    uv_ok (set env i None) (put val i None) h' /\
    uv_ok (set env i (Some uv_empty)) (put val i (Some [])) h'.
Proof.
  intros U e v. destruct (u_begin u) as [q|] eqn:b.
  - assert (o : uown env i = Some q) by (unfold uown; rewrite e; exact b).
    exists (set_block h q None). split; [eapply destroy_release; eauto|]. split; [auto|].
    split; split; try (apply fits_set; [apply U|cbn; auto]).
    + eapply heap_ok_ext; [exact (heap_ok_release i None (proj1 U) o)| |reflexivity].
      intros k. apply uown_set.
    + eapply heap_ok_ext; [exact (heap_ok_release i (Some []) (proj1 U) o)| |reflexivity].
      intros k. apply uown_set.
  - assert (o : uown env i = None) by (unfold uown; rewrite e; exact b).
    exists h. split; [unfold uv_destroy, safe_destroy_deallocate; rewrite b; reflexivity|].
    split; [auto|]. split; [|apply empty_ok; auto].
    split; [|apply fits_set; [apply U|cbn; auto]].
    eapply heap_ok_ext; [exact (heap_ok_put_none i None (proj1 U) o)| |reflexivity].
    intros k. rewrite uown_set. destruct (k =? i) eqn:ki; [|reflexivity].
    apply Nat.eqb_eq in ki. congruence.
Qed.

(** Moving into a variable that owns nothing. *)
Lemma pass_ok env val h i j r c :
  uv_ok env val h -> uown env i = None -> i <> j -> env j = Some r -> val j = Some c ->
  uv_ok (set (set env j (Some uv_empty)) i (Some (mk_uvec (u_begin r) (u_size r))))
        (put (put val j (Some [])) i (Some c)) h.
Proof.
  intros U o ij e v. split.
  - pose proof (heap_ok_pass (Some []) (proj1 U) o ij) as P. rewrite v in P.
    eapply heap_ok_ext; [exact P| |reflexivity].
    intros k. rewrite !uown_set. cbn [u_begin uv_empty].
    destruct (k =? i); [unfold uown; rewrite e; reflexivity|reflexivity].
  - apply fits_set; [apply fits_set; [apply U|cbn; auto]|].
    pose proof (proj2 U j) as F. rewrite e, v in F. exact F.
Qed.

(** Equal values, equal meaning. *)
Lemma uv_ok_ext env env' val val' h :
  uv_ok env val h -> (forall i, env' i = env i) -> (forall i, val' i = val i) ->
  uv_ok env' val' (h : heap V).
Proof.
  intros [H f] a b. split.
  - eapply heap_ok_ext; [exact H| |].
    + intros i. unfold uown. rewrite a. reflexivity.
    + intros i k _. apply b.
  - intros i. rewrite a, b. apply f.
Qed.

End Vectors.
