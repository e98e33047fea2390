(** The heap and who owns its blocks. *)
From Coq Require Import List Bool Arith Lia.
From Verif Require Import Prelude PreludeFacts Storage_Model Storage_Spec.
Import ListNotations.
Set Implicit Arguments.

Section Heap.
Context {V : Type}.

(** [own i]: the block variable [i] is responsible for; [val i]: what it holds. *)
Record heap_ok (own : nat -> option nat) (val : values V) (h : heap V) : Prop := mk_hok {
  hk_live : forall i b, own i = Some b -> exists c, h_block h b = Some c /\ val i = Some c;
  hk_once : forall i j b, own i = Some b -> own j = Some b -> i = j;
  hk_owned : forall b c, h_block h b = Some c -> exists i, own i = Some b;
  hk_next : forall b, h_next h <= b -> h_block h b = None;
  hk_elem : h_elem h = []
}.

(** Nothing fails any more. *)
Definition quiet (h : heap V) : Prop := forall x, In x (h_mem h) -> x = false.

(** What an allocation leads to. *)
Definition after_alloc (h h' : heap V) (c : list (option V)) : Prop :=
  h_next h' = S (h_next h) /\
  (forall k, h_block h' k = if k =? h_next h then Some c else h_block h k) /\
  h_elem h' = h_elem h /\ (quiet h -> quiet h').

Definition after_fail (h h' : heap V) : Prop :=
  h_next h' = h_next h /\ (forall k, h_block h' k = h_block h k) /\
  h_elem h' = h_elem h /\ ~ quiet h.

Lemma allocate_ok n (h : heap V) :
  (exists h', allocate n h = Ret (h_next h) h' /\ after_alloc h h' (repeat None n)) \/
  (exists h', allocate n h = Exc bad_alloc h' /\ after_fail h h').
Proof.
  unfold allocate. destruct h as [nx bl mem el]; cbn [h_next h_block h_mem h_elem].
  destruct mem as [|[] mem].
  - left. eexists. split; [reflexivity|]. repeat split; cbn; tauto.
  - right. eexists. split; [reflexivity|]. repeat split; cbn.
    intros q. specialize (q true). cbn in q. discriminate q; auto.
  - left. eexists. split; [reflexivity|]. repeat split; cbn; auto.
    intros q x I. apply q. cbn. auto.
Qed.

Lemma skipn_full (A : Type) (a b : list A) : length a = length b -> skipn (length a) b = [].
Proof. intros ->. apply skipn_all. Qed.

Lemma store_ok b (c old : list (option V)) (h : heap V) :
  h_block h b = Some old -> length c = length old ->
  store b c h = Ret tt (set_block h b (Some c)).
Proof.
  intros e l. unfold store. rewrite e. rewrite (proj2 (Nat.leb_le _ _)) by lia.
  rewrite skipn_full by exact l. rewrite app_nil_r. reflexivity.
Qed.

Lemma after_alloc_store h h' c d :
  after_alloc h h' c ->
  after_alloc h (set_block h' (h_next h) (Some d)) d.
Proof.
  intros (n & b & e & q). repeat split; cbn; auto.
  intros k. rewrite b. destruct (k =? h_next h); reflexivity.
Qed.

Lemma constructing_ok T (h : heap V) :
  h_elem h = [] ->
  exists h', constructing T h = Ret tt h' /\
    h_next h' = h_next h /\ (forall k, h_block h' k = h_block h k) /\
    h_elem h' = [] /\ h_mem h' = h_mem h.
Proof.
  intros e. unfold constructing. destruct (e_trivial T).
  - exists h. auto.
  - rewrite e. eexists. split; [reflexivity|]. cbn. auto.
Qed.

(** Allocating and filling with the values [c]. *)
Lemma alloc_fill T (h : heap V) (c : list (option V)) :
  h_elem h = [] ->
  (exists h', bnd (allocate (length c) h) (fun p h =>
       bnd (constructing T h) (fun _ h =>
       bnd (store p c h) (fun _ h => Ret p h))) = Ret (h_next h) h' /\ after_alloc h h' c) \/
  (exists h', bnd (allocate (length c) h) (fun p h =>
       bnd (constructing T h) (fun _ h =>
       bnd (store p c h) (fun _ h => Ret p h))) = Exc bad_alloc h' /\ after_fail h h').
Proof.
  intros e. destruct (allocate_ok (length c) h) as [(h1 & a & A) | (h1 & a & A)].
  - left. rewrite a. cbn [bnd].
    destruct A as (n1 & b1 & e1 & q1).
    destruct (constructing_ok T h1 (eq_trans e1 e)) as (h2 & k & n2 & b2 & e2 & m2).
    rewrite k. cbn [bnd].
    rewrite (@store_ok _ _ (repeat None (length c))).
    2:{ rewrite b2, b1, Nat.eqb_refl. reflexivity. }
    2:{ rewrite repeat_length. reflexivity. }
    cbn [bnd]. eexists. split; [reflexivity|].
    repeat split; cbn.
    + lia.
    + intros k'. rewrite b2, b1. destruct (k' =? h_next h); reflexivity.
    + congruence.
    + intros q x. cbn. rewrite m2. apply q1. exact q.
  - right. rewrite a. cbn [bnd]. exists h1. auto.
Qed.

(** safe_init_allocate makes a blank block. *)
Lemma init_allocate_ok T n (h : heap V) :
  h_elem h = [] ->
  (exists h', safe_init_allocate T n h = Ret (h_next h) h' /\ after_alloc h h' (blank T n)) \/
  (exists h', safe_init_allocate T n h = Exc bad_alloc h' /\ after_fail h h').
Proof.
  intros e. unfold safe_init_allocate, blank.
  destruct (allocate_ok n h) as [(h1 & a & A) | (h1 & a & A)]; rewrite a; cbn [bnd].
  2:{ right. exists h1. auto. }
  left. destruct (e_trivial T) eqn:t.
  { exists h1. auto. }
  destruct A as (n1 & b1 & e1 & q1).
  destruct (constructing_ok T h1 (eq_trans e1 e)) as (h2 & k & n2 & b2 & e2 & m2).
  rewrite k. cbn [bnd].
  rewrite (@store_ok _ _ (repeat None n)).
  2:{ rewrite b2, b1, Nat.eqb_refl. reflexivity. }
  2:{ rewrite !repeat_length. reflexivity. }
  cbn [bnd]. eexists. split; [reflexivity|].
  repeat split; cbn.
  + lia.
  + intros k'. rewrite b2, b1. destruct (k' =? h_next h); reflexivity.
  + congruence.
  + intros q x. cbn. rewrite m2. apply q1. exact q.
Qed.

(** ** What happens to the invariant *)

Lemma heap_ok_fail own val h h' : heap_ok own val h -> after_fail h h' -> heap_ok own val h'.
Proof.
  intros [] (n & b & e & _). constructor.
  - intros i k o. rewrite b. eauto.
  - eauto.
  - intros k c. rewrite b. eauto.
  - intros k. rewrite n, b. eauto.
  - congruence.
Qed.

Lemma heap_ok_ext own own' val val' (h : heap V) :
  heap_ok own val h -> (forall i, own' i = own i) -> (forall i b, own i = Some b -> val' i = val i) ->
  heap_ok own' val' h.
Proof.
  intros [] oe ve. constructor.
  - intros i b. rewrite oe. intros o. rewrite (ve _ _ o). eauto.
  - intros i j b. rewrite !oe. eauto.
  - intros b c s. destruct (hk_owned0 _ _ s) as [i o]. exists i. rewrite oe. exact o.
  - eauto.
  - eauto.
Qed.

(** A variable that owns nothing gets a new block. *)
Lemma heap_ok_new own val h h' c i :
  heap_ok own val h -> after_alloc h h' c -> own i = None ->
  heap_ok (fun k => if k =? i then Some (h_next h) else own k) (put val i (Some c)) h'.
Proof.
  intros [] (n & b & e & _) oi.
  assert (fr : forall k, own k <> Some (h_next h)).
  { intros k o. destruct (hk_live0 _ _ o) as (d & x & _).
    rewrite hk_next0 in x by lia. discriminate. }
  constructor.
  - intros k x. unfold put. destruct (k =? i) eqn:ki.
    + intros [= <-]. exists c. rewrite b, Nat.eqb_refl. auto.
    + intros o. destruct (hk_live0 _ _ o) as (d & y & v). exists d. split; [|exact v].
      rewrite b. destruct (x =? h_next h) eqn:xn; [|exact y].
      apply Nat.eqb_eq in xn. subst x. elim (fr _ o).
  - intros k l x. destruct (k =? i) eqn:ki, (l =? i) eqn:li.
    + apply Nat.eqb_eq in ki, li. congruence.
    + intros [= <-] o. elim (fr _ o).
    + intros o [= <-]. elim (fr _ o).
    + eauto.
  - intros x d. rewrite b. destruct (x =? h_next h) eqn:xn.
    + intros _. exists i. rewrite Nat.eqb_refl. apply Nat.eqb_eq in xn. congruence.
    + intros y. destruct (hk_owned0 _ _ y) as [k o]. exists k.
      destruct (k =? i) eqn:ki; [|exact o]. apply Nat.eqb_eq in ki. congruence.
  - intros x. rewrite n, b. intros l. destruct (x =? h_next h) eqn:xn.
    + apply Nat.eqb_eq in xn. lia.
    + apply hk_next0. lia.
  - congruence.
Qed.

(** A variable gives its block back. *)
Lemma heap_ok_release own val h i b x :
  heap_ok own val h -> own i = Some b ->
  heap_ok (fun k => if k =? i then None else own k) (put val i x) (set_block h b None).
Proof.
  intros [] oi. constructor; cbn.
  - intros k y. unfold put. destruct (k =? i) eqn:ki; [discriminate|].
    intros o. destruct (hk_live0 _ _ o) as (d & z & v). exists d. split; [|exact v].
    destruct (y =? b) eqn:yb; [|exact z]. apply Nat.eqb_eq in yb. subst y.
    apply Nat.eqb_neq in ki. elim ki. eapply hk_once0; eauto.
  - intros k l y. destruct (k =? i), (l =? i); try discriminate. eauto.
  - intros y d. destruct (y =? b) eqn:yb; [discriminate|]. intros z.
    destruct (hk_owned0 _ _ z) as [k o]. exists k.
    destruct (k =? i) eqn:ki; [|exact o]. apply Nat.eqb_eq in ki. subst k.
    rewrite oi in o. apply Nat.eqb_neq in yb. congruence.
  - intros y l. destruct (y =? b); auto.
  - auto.
Qed.

(** A variable writes into its block. *)
Lemma heap_ok_write own val h i b c :
  heap_ok own val h -> own i = Some b ->
  heap_ok own (put val i (Some c)) (set_block h b (Some c)).
Proof.
  intros [] oi. constructor; cbn.
  - intros k y o. unfold put. destruct (k =? i) eqn:ki.
    + apply Nat.eqb_eq in ki. subst k. assert (y = b) by congruence. subst y.
      rewrite Nat.eqb_refl. eauto.
    + destruct (hk_live0 _ _ o) as (d & z & v). exists d. split; [|exact v].
      destruct (y =? b) eqn:yb; [|exact z]. apply Nat.eqb_eq in yb. subst y.
      apply Nat.eqb_neq in ki. elim ki. eapply hk_once0; eauto.
  - eauto.
  - intros y d. destruct (y =? b) eqn:yb.
    + apply Nat.eqb_eq in yb. subst y. eauto.
    + eauto.
  - intros y l. destruct (y =? b) eqn:yb; auto. apply Nat.eqb_eq in yb. subst y.
    destruct (hk_live0 _ _ oi) as (d & z & _). rewrite hk_next0 in z by exact l. discriminate.
  - auto.
Qed.

(** The block passes from one variable to another that owns nothing. *)
Lemma heap_ok_pass own val (h : heap V) i j x :
  heap_ok own val h -> own i = None -> i <> j ->
  heap_ok (fun k => if k =? i then own j else if k =? j then None else own k)
          (put (put val j x) i (val j)) h.
Proof.
  intros [] oi ij. constructor.
  - intros k b. unfold put. destruct (k =? i) eqn:ki; [eauto|].
    destruct (k =? j) eqn:kj; [discriminate|]. eauto.
  - intros k l b.
    destruct (k =? i) eqn:ki, (l =? i) eqn:li;
      rewrite ?Nat.eqb_eq, ?Nat.eqb_neq in *; subst; auto.
    + destruct (l =? j) eqn:lj; [discriminate|]. apply Nat.eqb_neq in lj.
      intros a c. elim lj. eapply hk_once0; eauto.
    + destruct (k =? j) eqn:kj; [discriminate|]. apply Nat.eqb_neq in kj.
      intros a c. elim kj. eapply hk_once0; eauto.
    + destruct (k =? j) eqn:kj; [discriminate|]. destruct (l =? j) eqn:lj; [discriminate|].
      eauto.
  - intros b c s. destruct (hk_owned0 _ _ s) as [k o].
    destruct (Nat.eq_dec k j) as [ -> |kj].
    + exists i. rewrite Nat.eqb_refl. exact o.
    + exists k. destruct (k =? i) eqn:ki; [apply Nat.eqb_eq in ki; congruence|].
      destruct (k =? j) eqn:kj'; [apply Nat.eqb_eq in kj'; congruence|]. exact o.
  - eauto.
  - eauto.
Qed.

(** Two variables exchange their blocks. *)
Lemma heap_ok_swap own val (h : heap V) i j :
  heap_ok own val h ->
  heap_ok (fun k => if k =? j then own i else if k =? i then own j else own k)
          (put (put val i (val j)) j (val i)) h.
Proof.
  intros [].
  assert (inj : forall k l, (if k =? j then i else if k =? i then j else k) =
                            (if l =? j then i else if l =? i then j else l) -> k = l).
  { intros k l.
    destruct (k =? j) eqn:a, (l =? j) eqn:b, (k =? i) eqn:c, (l =? i) eqn:d;
      rewrite ?Nat.eqb_eq, ?Nat.eqb_neq in *; lia. }
  assert (via : forall k, (if k =? j then own i else if k =? i then own j else own k) =
                          own (if k =? j then i else if k =? i then j else k)).
  { intros k. destruct (k =? j), (k =? i); reflexivity. }
  constructor.
  - intros k b. unfold put. destruct (k =? j); [eauto|]. destruct (k =? i); eauto.
  - intros k l b. rewrite !via. intros a c. apply inj. eapply hk_once0; eauto.
  - intros b c s. destruct (hk_owned0 _ _ s) as [k o].
    exists (if k =? j then i else if k =? i then j else k). rewrite via.
    rewrite <- o. f_equal.
    destruct (k =? j) eqn:kj, (k =? i) eqn:ki; rewrite ?Nat.eqb_eq, ?Nat.eqb_neq in *; subst;
      rewrite ?Nat.eqb_refl; auto.
    + destruct (i =? j) eqn:e; rewrite ?Nat.eqb_eq, ?Nat.eqb_neq in *; congruence.
    + rewrite (proj2 (Nat.eqb_neq k j)) by auto. rewrite (proj2 (Nat.eqb_neq k i)) by auto.
      reflexivity.
  - eauto.
  - eauto.
Qed.

(** Giving the old block back and taking a new one. *)
Lemma heap_ok_replace own val h h1 c i b :
  heap_ok own val h -> own i = Some b -> after_alloc h h1 c ->
  heap_ok (fun k => if k =? i then Some (h_next h) else own k) (put val i (Some c))
          (set_block h1 b None).
Proof.
  intros H oi A.
  assert (bn : b <> h_next h).
  { intros ->. destruct (hk_live H _ oi) as (d & y & _).
    rewrite (hk_next H) in y by lia. discriminate. }
  destruct A as (n & bb & e & q).
  pose proof (heap_ok_release i None H oi) as R.
  assert (A : after_alloc (set_block h b None) (set_block h1 b None) c).
  { repeat split; cbn; auto. intros k. rewrite bb.
    destruct (k =? b) eqn:kb, (k =? h_next h) eqn:kn; auto.
    apply Nat.eqb_eq in kb, kn. congruence. }
  pose proof (heap_ok_new i R A) as N. cbn beta in N. rewrite Nat.eqb_refl in N.
  specialize (N eq_refl). eapply heap_ok_ext; [exact N| |].
  - intros k. cbn. destruct (k =? i); reflexivity.
  - intros k y. unfold put. destruct (k =? i); reflexivity.
Qed.

(** Reading what a variable holds. *)
Lemma load_ok own val (h : heap V) i p n c :
  heap_ok own val h -> own i = p -> val i = Some c -> n = length c -> (p = None -> c = []) ->
  load p n h = Ret c h.
Proof.
  intros H o v -> e. unfold load. destruct (length c) eqn:l.
  - destruct c; [reflexivity|discriminate].
  - destruct p as [b|]; [|rewrite e in l by reflexivity; discriminate].
    destruct (hk_live H _ o) as (d & x & y). rewrite x.
    assert (d = c) by congruence. subst d.
    rewrite (proj2 (Nat.leb_le _ _)) by lia. rewrite <- l, firstn_all. reflexivity.
Qed.

Lemma upd_split (A : Type) (l : list A) k v :
  k < length l -> upd l k v = firstn k l ++ v :: skipn (S k) l.
Proof.
  revert k. induction l as [|x l IH]; intros [|k] L; cbn in *; try lia; auto.
  rewrite IH by lia. reflexivity.
Qed.

End Heap.
