(** Programs on buffer adaptors that own their buffer. *)
From Coq Require Import List Bool Arith Lia.
From Verif Require Import Prelude PreludeFacts Storage_Model Storage_Spec Storage_Proofs
  Storage2_Proofs Storage3_Proofs.
Import ListNotations.
Set Implicit Arguments.

Section Buffers.
Context {V : Type}.
Variable T : elem V.

Definition own1 (x : option obuf) : option nat :=
  match x with Some o => if o_moved o then None else o_data o | None => None end.

Definition bown (env : nat -> option obuf) (i : nat) : option nat := own1 (env i).

Definition bfits (moved : bool) (x : option obuf) (y : option (list (option V))) : Prop :=
  match x, y with
  | None, None => True
  | Some o, Some c =>
      o_size o = length c /\
      if o_moved o then c = [] /\ moved = true else o_data o <> None
  | _, _ => False
  end.

Definition among (m : list nat) (i : nat) : bool := existsb (Nat.eqb i) m.

Lemma among_in m i : among m i = true <-> In i m.
Proof.
  unfold among. rewrite existsb_exists. split.
  - intros (x & I & e). apply Nat.eqb_eq in e. congruence.
  - intros I. exists i. rewrite Nat.eqb_refl. auto.
Qed.

Definition ob_ok (m : list nat) (env : nat -> option obuf) (val : values V) (h : heap V) : Prop :=
  heap_ok (bown env) val h /\ forall i, bfits (among m i) (env i) (val i).

Lemma bown_set env i x k : bown (set env i x) k = if k =? i then own1 x else bown env k.
Proof. unfold bown, set. destruct (k =? i); reflexivity. Qed.

Lemma bfits_mono a b x y : bfits a x y -> (a = true -> b = true) -> bfits b x y.
Proof.
  unfold bfits. destruct x, y; auto. destruct (o_moved o); intuition.
Qed.

Lemma bfits_set m m' env (val : values V) i x y :
  (forall k, bfits (among m k) (env k) (val k)) ->
  (forall k, k <> i -> among m k = true -> among m' k = true) ->
  bfits (among m' i) x y ->
  forall k, bfits (among m' k) (set env i x k) (put val i y k).
Proof.
  intros f g b k. unfold set, put. destruct (k =? i) eqn:e.
  - apply Nat.eqb_eq in e. subst. exact b.
  - apply Nat.eqb_neq in e. eapply bfits_mono; eauto.
Qed.

Lemma ob_ok_set m env val h' i u c :
  (forall k, bfits (among m k) (env k) (val k)) ->
  heap_ok (fun k => if k =? i then o_data u else bown env k) (put val i (Some c)) h' ->
  o_moved u = false -> o_size u = length c -> o_data u <> None ->
  ob_ok m (set env i (Some u)) (put val i (Some c)) (h' : heap V).
Proof.
  intros f H mv s n. split.
  - eapply heap_ok_ext; [exact H| |reflexivity]. intros k. cbn beta.
    rewrite bown_set. cbn [own1]. rewrite mv. reflexivity.
  - apply bfits_set with (m := m); auto. cbn. rewrite mv. auto.
Qed.

Definition boutcome (m : list nat) (env : nat -> option obuf) (val : values V) (h : heap V)
    (i : nat) (r : out V obuf) (c : list (option V)) (needs : bool) : Prop :=
  (exists u h', r = Ret u h' /\ ob_ok m (set env i (Some u)) (put val i (Some c)) h' /\
                (quiet h -> quiet h')) \/
  (needs = true /\ exists h', r = Exc bad_alloc h' /\ after_fail h h').

(** What is known of an object that has not been moved from. *)
Lemma bfits_some m env (val : values V) (h : heap V) i u :
  ob_ok m env val h -> env i = Some u ->
  exists c, val i = Some c /\ o_size u = length c /\
    (o_moved u = true -> c = [] /\ In i m) /\
    (o_moved u = false -> exists b, o_data u = Some b /\ bown env i = Some b /\
                                    h_block h b = Some c).
Proof.
  intros U e. pose proof (proj2 U i) as F. rewrite e in F. unfold bfits in F.
  destruct (val i) as [c|] eqn:v; [|contradiction]. destruct F as [s F].
  exists c. split; [reflexivity|]. split; [exact s|]. split.
  - intros x. rewrite x in F. destruct F as [a b]. apply among_in in b. auto.
  - intros x. rewrite x in F. destruct (o_data u) as [b|] eqn:d; [|congruence].
    exists b. split; [reflexivity|].
    assert (o : bown env i = Some b) by (unfold bown, own1; rewrite e, x; exact d).
    split; [exact o|]. destruct (hk_live (proj1 U) _ o) as (c' & y & z). congruence.
Qed.

Lemma bfits_none m env (val : values V) (h : heap V) i :
  ob_ok m env val h -> env i = None -> val i = None.
Proof.
  intros U e. pose proof (proj2 U i) as F. rewrite e in F. unfold bfits in F.
  destruct (val i); [contradiction|reflexivity].
Qed.

Lemma not_moved m env (val : values V) (h : heap V) i u :
  ob_ok m env val h -> env i = Some u -> ~ In i m -> o_moved u = false.
Proof.
  intros U e n. destruct (bfits_some i U e) as (c & _ & _ & mv & _).
  destruct (o_moved u); [|reflexivity]. elim n. apply mv. reflexivity.
Qed.

Lemma user_buffer_ok l (h : heap V) :
  (exists h', user_buffer l h = Ret (h_next h) h' /\ after_alloc h h' (map Some l)) \/
  (exists h', user_buffer l h = Exc bad_alloc h' /\ after_fail h h').
Proof.
  unfold user_buffer. destruct (allocate_ok (length l) h) as [(h1 & a & A) | (h1 & a & A)];
    rewrite a; cbn [bnd]; [left|right; eauto].
  rewrite (@store_ok V _ _ (repeat None (length l))).
  - cbn [bnd]. eexists. split; [reflexivity|]. eapply after_alloc_store. exact A.
  - rewrite (proj1 (proj2 A)), Nat.eqb_refl. reflexivity.
  - rewrite map_length, repeat_length. reflexivity.
Qed.

(** Giving a block back. *)
Lemma dealloc_ok m env (val : values V) (h h1 : heap V) i u b c d :
  ob_ok m env val h -> env i = Some u -> o_data u = Some b -> o_size u = length c ->
  h_block h b = Some c -> after_alloc h h1 d ->
  safe_destroy_deallocate (o_data u) (o_size u) h1 = Ret tt (set_block h1 b None).
Proof.
  intros U e db s B A. rewrite db. cbn [safe_destroy_deallocate]. unfold deallocate.
  assert (bn : b <> h_next h).
  { intros ->. rewrite (hk_next (proj1 U)) in B by lia. discriminate. }
  rewrite (proj1 (proj2 A)). rewrite (proj2 (Nat.eqb_neq _ _) bn), B, s, Nat.eqb_refl.
  reflexivity.
Qed.

(** A variable that is not moved from gets a new block in place of its own. *)
Lemma replace_ok m env (val : values V) (h h1 : heap V) i u c b d :
  ob_ok m env val h -> env i = Some u -> o_moved u = false ->
  val i = Some c -> bown env i = Some b -> after_alloc h h1 d ->
  ob_ok m (set env i (Some (mk_obuf (Some (h_next h)) (length d) (o_moved u))))
     (put val i (Some d)) (set_block h1 b None).
Proof.
  intros U e mv v o A. apply ob_ok_set; cbn [o_data o_size o_moved]; auto; try discriminate.
  - apply U.
  - eapply heap_ok_replace; eauto. apply U.
Qed.

Lemma same_value_ok m env (val : values V) (h : heap V) i u c :
  ob_ok m env val h -> env i = Some u -> val i = Some c ->
  ob_ok m (set env i (Some u)) (put val i (Some c)) h.
Proof.
  intros U e v. split.
  - eapply heap_ok_ext; [exact (proj1 U)| |].
    + intros k. rewrite bown_set. unfold bown. destruct (k =? i) eqn:ki; [|reflexivity].
      apply Nat.eqb_eq in ki. subst. rewrite e. reflexivity.
    + intros k x _. apply put_same. exact v.
  - apply bfits_set with (m := m); auto; [apply U|].
    pose proof (proj2 U i) as F. rewrite e, v in F. exact F.
Qed.

Lemma bresize_ok m env (val : values V) (h : heap V) i u c n :
  ob_ok m env val h -> env i = Some u -> val i = Some c -> ~ In i m ->
  boutcome m env val h i (ob_resize T u n h) (resized T c n) (negb (n =? length c)).
Proof.
  intros U e v nm. pose proof (not_moved i U e nm) as mv.
  destruct (bfits_some i U e) as (c' & v' & s & _ & L). assert (c' = c) by congruence. subst c'.
  destruct (L mv) as (b & db & o & B).
  unfold boutcome, ob_resize, resized. rewrite s. destruct (n =? length c) eqn:z.
  - left. exists u, h. split; [reflexivity|]. split; [|auto]. apply same_value_ok; auto.
  - destruct (init_allocate_ok T n h (hk_elem (proj1 U))) as [(h' & k & A) | (h' & k & A)];
      rewrite k; cbn [bnd]; [left | right; eauto].
    rewrite <- s. rewrite (dealloc_ok i U e db s B A). cbn [bnd].
    eexists _, _. split; [reflexivity|]. split.
    + pose proof (replace_ok i U e mv v o A) as R. unfold blank in R at 1.
      rewrite repeat_length in R. exact R.
    + intros Q x I. apply (proj2 (proj2 (proj2 A)) Q x I).
Qed.

Lemma breset_ok m env (val : values V) (h : heap V) i u c l :
  ob_ok m env val h -> env i = Some u -> val i = Some c -> ~ In i m ->
  boutcome m env val h i
    (bnd (user_buffer l h) (fun p h => ob_reset u (Some p) (length l) h)) (map Some l) true.
Proof.
  intros U e v nm. pose proof (not_moved i U e nm) as mv.
  destruct (bfits_some i U e) as (c' & v' & s & _ & L). assert (c' = c) by congruence. subst c'.
  destruct (L mv) as (b & db & o & B).
  destruct (user_buffer_ok l h) as [(h' & k & A) | (h' & k & A)]; rewrite k; cbn [bnd];
    [left | right; eauto].
  unfold ob_reset, ob_make, ob_swap, ob_destroy. cbn [o_data o_size o_moved].
  rewrite (dealloc_ok i U e db s B A). cbn [bnd].
  eexists _, _. split; [reflexivity|]. split.
  - pose proof (replace_ok i U e mv v o A) as R. rewrite map_length in R. exact R.
  - intros Q x I. apply (proj2 (proj2 (proj2 A)) Q x I).
Qed.

Lemma resized_len (c : list (option V)) n : length (resized T c n) = n.
Proof.
  unfold resized. destruct (n =? length c) eqn:e; [apply Nat.eqb_eq in e; auto|].
  unfold blank. apply repeat_length.
Qed.

Lemma bfrom_ok m env (val : values V) (h : heap V) i u c (l : list (option V)) :
  ob_ok m env val h -> env i = Some u -> val i = Some c -> ~ In i m ->
  boutcome m env val h i (ob_from T u l h) l (negb (length l =? length c)).
Proof.
  intros U e v nm. unfold ob_from.
  destruct (bresize_ok i (length l) U e v nm) as [(w & h1 & k & U1 & Q) | (z & h1 & k & A)];
    rewrite k; cbn [bnd]; [left|right; eauto].
  assert (E1 : set env i (Some w) i = Some w) by apply set_same.
  destruct (bfits_some i U1 E1) as (c1 & v1 & s1 & _ & L).
  assert (V1 : c1 = resized T c (length l)).
  { unfold put in v1. rewrite Nat.eqb_refl in v1. congruence. }
  pose proof (not_moved i U1 E1 nm) as mv. destruct (L mv) as (b & db & o & B).
  assert (len : length c1 = length l) by (subst c1; apply resized_len).
  unfold store_at. destruct l as [|x l].
  - cbn [bnd]. exists w, h1. split; [reflexivity|]. split; [|exact Q].
    destruct c1; [|discriminate]. rewrite <- V1 in U1. exact U1.
  - rewrite db. rewrite (@store_ok V _ _ _ _ B) by auto. cbn [bnd].
    eexists w, _. split; [reflexivity|]. split; [|exact Q].
    pose proof (heap_ok_write i (x :: l) (proj1 U1) o) as W.
    apply ob_ok_set; auto.
    + apply U.
    + eapply heap_ok_ext; [exact W| |].
      * intros k'. cbn beta. rewrite bown_set. cbn [own1]. rewrite mv. reflexivity.
      * intros k' b' _. symmetry. apply put_put.
    + congruence.
    + congruence.
Qed.

Lemma after_alloc_store2 (h h1 : heap V) a d :
  after_alloc h h1 a -> length a = length d ->
  exists h2, store_at (Some (h_next h)) d h1 = Ret tt h2 /\ after_alloc h h2 d.
Proof.
  intros A len. unfold store_at. destruct d as [|x d].
  - exists h1. split; [reflexivity|]. destruct a; [exact A|discriminate].
  - erewrite (@store_ok V).
    + eexists. split; [reflexivity|]. eapply after_alloc_store. exact A.
    + rewrite (proj1 (proj2 A)), Nat.eqb_refl. reflexivity.
    + auto.
Qed.

Lemma bassign_ok m env (val : values V) (h : heap V) i j u r c d :
  ob_ok m env val h -> i <> j -> env i = Some u -> val i = Some c -> ~ In i m ->
  env j = Some r -> val j = Some d ->
  boutcome m env val h i (ob_assign T u r h) d true.
Proof.
  intros U ij e v nm f w. pose proof (not_moved i U e nm) as mv.
  destruct (bfits_some i U e) as (c' & v' & s & _ & L). assert (c' = c) by congruence. subst c'.
  destruct (L mv) as (b & db & o & B). clear v'.
  destruct (bfits_some j U f) as (d' & w' & sj & mj & Lj).
  assert (d' = d) by congruence. subst d'. clear w'.
  unfold ob_assign. rewrite sj.
  destruct (init_allocate_ok T (length d) h (hk_elem (proj1 U))) as [(h1 & k & A) | (h1 & k & A)];
    rewrite k; cbn [bnd]; [left | right; eauto].
  assert (ld : load (o_data r) (length d) h1 = Ret d h1).
  { unfold load. destruct (length d) eqn:l0; [destruct d; [reflexivity|discriminate]|].
    destruct (o_moved r) eqn:om.
    - destruct (mj eq_refl) as [-> _]. discriminate.
    - destruct (Lj eq_refl) as (q & dq & oq & Bq). rewrite dq.
      rewrite (proj1 (proj2 A)).
      assert (qn : q <> h_next h).
      { intros ->. rewrite (hk_next (proj1 U)) in Bq by lia. discriminate. }
      rewrite (proj2 (Nat.eqb_neq _ _) qn), Bq, <- l0, Nat.leb_refl, firstn_all. reflexivity. }
  rewrite ld. cbn [bnd].
  destruct (after_alloc_store2 d A) as (h2 & k2 & A2).
  { unfold blank. apply repeat_length. }
  rewrite k2. cbn [bnd].
  rewrite (dealloc_ok i U e db s B A2). cbn [bnd].
  eexists _, _. split; [reflexivity|]. split.
  - exact (replace_ok i U e mv v o A2).
  - intros Q x I. apply (proj2 (proj2 (proj2 A2)) Q x I).
Qed.

(** ** One instruction *)

Definition bstep_ok (m : list nat) (val : values V) (h : heap V) (o : bop V)
    (r : option (answer V * state obuf)) : Prop :=
  exists a env' h', r = Some (a, (env', h')) /\ (quiet h -> quiet h') /\
    ((a = fst (ob_means T val o) /\ ob_ok (moved_after m o) env' (snd (ob_means T val o)) h') \/
     (ob_needs val o = true /\ a = Thrown bad_alloc /\
      ob_ok (moved_after m o) env' val h' /\ ~ quiet h)).

Lemma binto_ok m env (val : values V) (h : heap V) o i r c needs :
  ob_ok m env val h -> boutcome m env val h i r c needs -> moved_after m o = m ->
  ob_means T val o = (Done, put val i (Some c)) -> ob_needs val o = needs ->
  bstep_ok m val h o (into env i r).
Proof.
  intros U [(u & h' & -> & U' & Q) | (n & h' & -> & A)] M E N; unfold bstep_ok; rewrite M.
  - exists Done, (set env i (Some u)), h'. split; [reflexivity|]. split; [exact Q|].
    left. rewrite E. auto.
  - exists (Thrown bad_alloc), env, h'. split; [reflexivity|]. split.
    + intros q. elim (proj2 (proj2 (proj2 A)) q).
    + right. rewrite N, n. split; [reflexivity|]. split; [reflexivity|]. split; [|apply A].
      split; [|apply U]. eapply heap_ok_fail; [apply U|exact A].
Qed.

Lemma ob_ok_more m m' env (val : values V) (h : heap V) :
  ob_ok m env val h -> (forall k u, env k = Some u -> In k m -> In k m') -> ob_ok m' env val h.
Proof.
  intros [H f] g. split; [exact H|]. intros i. specialize (f i). unfold bfits in *.
  destruct (env i) as [u|] eqn:e; [|exact f]. destruct (val i); [|exact f].
  destruct f as [s f]. split; [exact s|]. destruct (o_moved u); [|exact f].
  destruct f as [a b]. split; [exact a|]. apply among_in. apply among_in in b. eauto.
Qed.

Lemma bsame_ok m env (val : values V) (h : heap V) o a :
  ob_ok m env val h -> (forall k u, env k = Some u -> In k m -> In k (moved_after m o)) ->
  ob_means T val o = (a, val) ->
  bstep_ok m val h o (Some (a, (env, h))).
Proof.
  intros U g E. exists a, env, h. split; [reflexivity|]. split; [auto|]. left. rewrite E.
  split; [reflexivity|]. eapply ob_ok_more; eauto.
Qed.

Lemma bdone_ok m env' (val : values V) (h h' : heap V) o :
  (quiet h -> quiet h') -> fst (ob_means T val o) = Done ->
  ob_ok (moved_after m o) env' (snd (ob_means T val o)) h' ->
  bstep_ok m val h o (Some (Done, (env', h'))).
Proof.
  intros Q D U. exists Done, env', h'. split; [reflexivity|]. split; [exact Q|]. left. auto.
Qed.

Lemma ob_ok_ext m env env' val val' (h : heap V) :
  ob_ok m env val h -> (forall i, env' i = env i) -> (forall i, val' i = val i) ->
  ob_ok m env' val' h.
Proof.
  intros [H f] a b. split.
  - eapply heap_ok_ext; [exact H| |].
    + intros i. unfold bown. rewrite a. reflexivity.
    + intros i k _. apply b.
  - intros i. rewrite a, b. apply f.
Qed.

End Buffers.
