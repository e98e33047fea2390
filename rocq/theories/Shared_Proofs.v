(** Proofs about shared expressions. *)
From Coq Require Import List ZArith Bool Lia Arith.
From Verif Require Import Prelude Shared_Model Shared_Spec.
Import ListNotations.
Open Scope nat_scope.

Lemma set_nth_length {A} (l : list A) i x : i < length l -> length (set_nth l i x) = length l.
Proof. intros H. unfold set_nth. rewrite app_length, firstn_length. cbn [length]. rewrite skipn_length. lia. Qed.
Lemma set_nth_same {A} (l : list A) i x : i < length l -> nth_error (set_nth l i x) i = Some x.
Proof. intros H. unfold set_nth. rewrite nth_error_app2; rewrite firstn_length; [|lia]. replace (i - Nat.min i (length l)) with 0 by lia. reflexivity. Qed.
Lemma set_nth_other {A} : forall (l : list A) i x k, i < length l -> k <> i -> nth_error (set_nth l i x) k = nth_error l k.
Proof.
  induction l as [|a l IH]; intros i x k H N; cbn [length] in H; [lia|].
  destruct i as [|i]; destruct k as [|k]; try lia; cbn; try reflexivity.
  change (nth_error (set_nth l i x) k = nth_error l k). apply IH; lia.
Qed.
Lemma nth_lt {A} (l : list A) i x : nth_error l i = Some x -> i < length l.
Proof. intros H. apply nth_error_Some. congruence. Qed.

Section S.
Context {X : Type}.
Notation st := (@state X).
Notation hp := (list (option (X * nat))).

Definition cnt (h : hp) (l : nat) : nat := match nth_error h l with Some (Some (_, c)) => c | _ => 0 end.
(** [bal h u]: the count of every cell is [u], and no cell is kept with the count 0 *)
Definition bal (h : hp) (u : nat -> nat) : Prop := forall l, cnt h l = u l /\ forall x, nth_error h l <> Some (Some (x, 0)).
Definition content (h : hp) (l : nat) (x : X) : Prop := exists c, nth_error h l = Some (Some (x, c)).
Notation occ := (count_occ Nat.eq_dec).

Lemma bal_ext h u u' : (forall l, u l = u' l) -> bal h u -> bal h u'.
Proof. intros E H l. rewrite <- E. apply H. Qed.
Lemma bal_cell h u l : bal h u -> 0 < u l -> exists x c, nth_error h l = Some (Some (x, S c)) /\ u l = S c.
Proof.
  intros H P. destruct (H l) as (E & N). unfold cnt in E. destruct (nth_error h l) as [[[x [|c]]|]|] eqn:D; try lia.
  exists x, c. auto.
Qed.
Lemma acquire_ok : forall ls h u, bal h u -> (forall l, In l ls -> 0 < u l) ->
  exists h', acquire ls h = Ok h' /\ bal h' (fun l => occ ls l + u l) /\ (forall l x, content h l x <-> content h' l x) /\ length h' = length h.
Proof.
  induction ls as [|l ls IH]; intros h u B P; cbn [acquire].
  - exists h. split; [reflexivity|]. split; [exact B|]. split; [tauto|reflexivity].
  - destruct (bal_cell h u l B (P l (or_introl eq_refl))) as (x & c & E & U). rewrite E. pose proof (nth_lt _ _ _ E) as L.
    set (h1 := set_nth h l (Some (x, S (S c)))).
    destruct (IH h1 (fun k => (if l =? k then 1 else 0) + u k)) as (h' & A1 & A2 & A3 & A4).
    + intros k. unfold cnt, h1. destruct (Nat.eqb_spec l k) as [ <- |N].
      * rewrite set_nth_same by exact L. split; [lia|]. intros y. congruence.
      * rewrite set_nth_other by auto. apply (B k).
    + intros k I. specialize (P k (or_intror I)). lia.
    + exists h'. split; [exact A1|]. split; [|split].
      * eapply bal_ext; [|exact A2]. intros k. cbn [count_occ]. destruct (Nat.eq_dec l k) as [ <- |N]; [rewrite Nat.eqb_refl; lia|].
        destruct (Nat.eqb_spec l k); [contradiction|lia].
      * intros k y. rewrite <- A3. unfold content, h1. destruct (Nat.eq_dec k l) as [ -> |N].
        -- rewrite set_nth_same, E by exact L. split; intros (d & D); injection D as -> ; eauto.
        -- rewrite set_nth_other by auto. tauto.
      * rewrite A4. unfold h1. now apply set_nth_length.
Qed.
Lemma release_ok : forall ls h u, bal h (fun l => occ ls l + u l) ->
  exists h', release ls h = Ok h' /\ bal h' u /\ (forall l x, 0 < u l -> (content h l x <-> content h' l x)) /\ (forall l x, content h' l x -> content h l x) /\ length h' = length h.
Proof.
  induction ls as [|l ls IH]; intros h u B; cbn [release].
  - exists h. split; [reflexivity|]. split; [exact B|]. split; [tauto|]. split; [auto|reflexivity].
  - destruct (bal_cell h _ l B) as (x & c & E & U); [cbn [count_occ]; destruct (Nat.eq_dec l l); lia|]. rewrite E. pose proof (nth_lt _ _ _ E) as L.
    cbn [count_occ] in U. destruct (Nat.eq_dec l l) as [_|]; [|contradiction].
    set (o := match c with O => None | S _ => Some (x, c) end). set (h1 := set_nth h l o).
    assert (ER : match c with O => release ls (set_nth h l None) | S c' => release ls (set_nth h l (Some (x, S c'))) end = release ls h1) by (unfold h1, o; destruct c; reflexivity).
    destruct (IH h1 u) as (h' & A1 & A2 & A3 & A3' & A4).
    + intros k. unfold cnt, h1. destruct (Nat.eq_dec l k) as [ <- |N].
      * rewrite set_nth_same by exact L. unfold o. destruct c as [|c]; split; try lia; intros y D; congruence.
      * rewrite set_nth_other by auto. specialize (B k). cbn [count_occ] in B. destruct (Nat.eq_dec l k); [contradiction|]. exact B.
    + exists h'. split; [destruct c; [exact A1|exact A1]|]. split; [exact A2|]. split; [|split].
      * intros k y P. rewrite <- A3 by exact P. unfold content, h1. destruct (Nat.eq_dec k l) as [ -> |N].
        -- rewrite set_nth_same, E by exact L. unfold o. destruct c as [|c]; [exfalso; lia|]. split; intros (d & D); injection D as -> ; eauto.
        -- rewrite set_nth_other by auto. tauto.
      * intros k y D. apply A3' in D. revert D. unfold content, h1. destruct (Nat.eq_dec k l) as [ -> |N].
        -- rewrite set_nth_same, E by exact L. unfold o. destruct c as [|c]; intros (d & D); [discriminate D|]. injection D as ->. eauto.
        -- rewrite set_nth_other by auto. tauto.
      * rewrite A4. unfold h1. now apply set_nth_length.
Qed.

(* holders *)
Lemma holds_occ l (n : node X) : holds l n = occ (refs n) l.
Proof.
  induction n as [x [k|]|k|v|a IHa b IHb]; cbn [holds refs]; try reflexivity.
  - cbn. destruct (Nat.eqb_spec k l), (Nat.eq_dec k l); congruence.
  - cbn. destruct (Nat.eqb_spec k l), (Nat.eq_dec k l); congruence.
  - rewrite count_occ_app. lia.
Qed.
Definition held (o : option (node X)) (l : nat) : nat := match o with Some n => holds l n | None => 0 end.
Definition sum_held (vs : list (option (node X))) (l : nat) : nat := list_sum (map (fun o => held o l) vs).
Lemma holders_sum (s : st) l : holders s l = sum_held (vars s) l.
Proof. reflexivity. Qed.
Lemma sum_app a b l : sum_held (a ++ b) l = sum_held a l + sum_held b l.
Proof. unfold sum_held. rewrite map_app. now rewrite list_sum_app. Qed.
Lemma sum_one o l : sum_held [o] l = held o l.
Proof. unfold sum_held. cbn. lia. Qed.
Lemma sum_set : forall vs v o o' l, nth_error vs v = Some o -> sum_held (set_nth vs v o') l + held o l = sum_held vs l + held o' l.
Proof.
  induction vs as [|a vs IH]; intros [|v] o o' l H; try discriminate H.
  - injection H as ->. unfold set_nth, sum_held. cbn. lia.
  - change (set_nth (a :: vs) (S v) o') with (a :: set_nth vs v o'). unfold sum_held in *. cbn [map list_sum fold_right]. cbn in H. specialize (IH v o o' l H).
    unfold list_sum in IH |- *. cbn [fold_right]. lia.
Qed.
Lemma sum_ge : forall vs v o l, nth_error vs v = Some o -> held o l <= sum_held vs l.
Proof. intros vs v o l H. pose proof (sum_set vs v o None l H) as E. cbn [held] in E. lia. Qed.

(* references go to earlier variables *)
Fixpoint below (k : nat) (n : node X) : Prop :=
  match n with Arr _ _ | Shr _ => True | Ref v => v < k | Fun a b => below k a /\ below k b end.
Lemma below_le k m n : k <= m -> below k n -> below m n.
Proof. intros L. induction n as [| |v|a IHa b IHb]; cbn; auto; [lia|intuition]. Qed.
Definition sound (s : st) : Prop :=
  bal (heap s) (holders s) /\ (forall v n, alive s v n -> below v n /\ match n with Ref _ => False | _ => True end).

Lemma var_alive (s : st) v n : alive s v n -> var s v = Ok n.
Proof. intros H. unfold var. now rewrite H. Qed.
Lemma alive_var (s : st) v n : var s v = Ok n -> alive s v n.
Proof. unfold var, alive. destruct (nth_error (vars s) v) as [[m|]|]; congruence. Qed.
Lemma alive_lt (s : st) v n : alive s v n -> v < length (vars s).
Proof. apply nth_lt. Qed.
Lemma holder_alive (s : st) v n l : alive s v n -> In l (refs n) -> 0 < holders s l.
Proof.
  intros A I. rewrite holders_sum. pose proof (sum_ge _ _ _ l A) as G. cbn [held] in G. rewrite holds_occ in G.
  apply (count_occ_In Nat.eq_dec) in I. lia.
Qed.

Lemma sound_push (s : st) h n u : bal h u -> (forall l, u l = holders s l + holds l n) ->
  (forall v m, alive s v m -> below v m /\ match m with Ref _ => False | _ => True end) -> below (length (vars s)) n -> match n with Ref _ => False | _ => True end ->
  sound (push (mk_state (vars s) h) n).
Proof.
  intros B E R Bn Nn. split.
  - cbn [push heap]. eapply bal_ext; [|exact B]. intros l. rewrite E, !holders_sum. cbn [push vars]. rewrite sum_app, sum_one. reflexivity.
  - intros v m A. unfold alive, push in A. cbn [vars] in A. destruct (Nat.lt_ge_cases v (length (vars s))) as [L|L].
    + rewrite nth_error_app1 in A by exact L. now apply R.
    + rewrite nth_error_app2 in A by exact L. destruct (v - length (vars s)) as [|q] eqn:D; [|destruct q; discriminate A]. injection A as <-.
      replace v with (length (vars s)) by lia. auto.
Qed.
Lemma alive_set (s : st) v o k m : v < length (vars s) -> nth_error (set_nth (vars s) v o) k = Some (Some m) -> (k = v /\ o = Some m) \/ (k <> v /\ alive s k m).
Proof.
  intros L H. destruct (Nat.eq_dec k v) as [ -> |N]; [left|right].
  - rewrite set_nth_same in H by exact L. injection H as ->. auto.
  - rewrite set_nth_other in H by auto. auto.
Qed.

(** What every statement keeps: cells that stay in use keep their contents, except for the one written through. *)
Definition keeps (s s' : st) (but : nat -> Prop) : Prop := forall l x, ~ but l -> 0 < holders s' l -> cell s l x -> cell s' l x.

Lemma share_ok (s : st) v x p : sound s -> alive s v (Arr x p) ->
  exists s' l, share s v = Ok s' /\ sound s' /\ length (vars s') = S (length (vars s)) /\
    alive s' (length (vars s)) (Shr l) /\ alive s' v (Arr x (Some l)) /\ (p = None -> cell s' l x) /\ (forall k, p = Some k -> l = k) /\
    (forall k y, cell s k y -> cell s' k y) /\ (forall k n, k <> v -> alive s k n -> alive s' k n).
Proof.
  intros (B & R) A. pose proof (alive_lt _ _ _ A) as Lv. unfold share. rewrite (var_alive _ _ _ A). cbn [bind]. destruct p as [l|].
  - destruct (acquire_ok [l] (heap s) _ B) as (h & E & B' & C & _); [intros k [ <- |[]]; eapply holder_alive; [exact A|left; reflexivity]|].
    rewrite E. cbn [bind]. exists (push (mk_state (vars s) h) (Shr l)), l. split; [reflexivity|]. split; [|split; [|split; [|split; [|split; [|split; [|split]]]]]].
    + eapply sound_push; [exact B'| |exact R|exact I|exact I]. intros k. cbn [count_occ holds]. destruct (Nat.eq_dec l k), (Nat.eqb_spec l k); try congruence; lia.
    + cbn. rewrite app_length. cbn. lia.
    + unfold alive. cbn. rewrite nth_error_app2, Nat.sub_diag by lia. reflexivity.
    + unfold alive. cbn. rewrite nth_error_app1 by exact Lv. exact A.
    + discriminate.
    + congruence.
    + intros k y Hk. exact (proj1 (C k y) Hk).
    + intros k n _ Ak. unfold alive. cbn. rewrite nth_error_app1 by exact (alive_lt _ _ _ Ak). exact Ak.
  - set (l := length (heap s)). set (s1 := mk_state (set_nth (vars s) v (Some (Arr x (Some l)))) (heap s ++ [Some (x, 1)])).
    assert (Hl : holders s l = 0).
    { destruct (B l) as (E & _). unfold cnt in E. replace (nth_error (heap s) l) with (@None (option (X * nat))) in E; [symmetry; exact E|]. symmetry. apply nth_error_None. unfold l. lia. }
    assert (B1 : bal (heap s1) (holders s1)).
    { intros k. rewrite holders_sum. unfold s1. cbn [vars heap]. pose proof (sum_set _ _ _ (Some (Arr x (Some l))) k A) as E. cbn [held holds] in E.
      rewrite <- holders_sum in E. unfold cnt. destruct (Nat.eq_dec k l) as [ -> |N].
      - rewrite nth_error_app2 by (unfold l; lia). replace (l - length (heap s)) with 0 by (unfold l; lia). cbn [nth_error]. rewrite Nat.eqb_refl in E. split; [lia|]. intros y D. congruence.
      - destruct (Nat.eqb_spec l k); [congruence|]. destruct (Nat.lt_ge_cases k (length (heap s))) as [L|L].
        + rewrite nth_error_app1 by exact L. destruct (B k) as (E1 & E2). unfold cnt in E1. split; [lia|exact E2].
        + rewrite nth_error_app2 by exact L. destruct (B k) as (E1 & _). unfold cnt in E1. rewrite (proj2 (nth_error_None _ _) L) in E1.
          destruct (k - length (heap s)) as [|q] eqn:D; [exfalso; unfold l in N; lia|]. cbn [nth_error]. replace (nth_error (@nil (option (X * nat))) q) with (@None (option (X * nat))) by (destruct q; reflexivity).
          split; [lia|intros y D'; congruence]. }
    assert (A1 : alive s1 v (Arr x (Some l))) by (unfold alive, s1; cbn [vars]; now apply set_nth_same).
    assert (R1 : forall k n, alive s1 k n -> below k n /\ match n with Ref _ => False | _ => True end).
    { intros k n Ak. unfold alive, s1 in Ak. cbn [vars] in Ak. apply alive_set in Ak; [|exact Lv]. destruct Ak as [(-> & E)|(N & Ak)]; [injection E as <-; split; exact I|now apply R]. }
    assert (Len : length (vars s1) = length (vars s)) by (unfold s1; cbn [vars]; now apply set_nth_length).
    destruct (acquire_ok [l] (heap s1) _ B1) as (h & E & B' & C & _); [intros k [ <- |[]]; eapply holder_alive; [exact A1|left; reflexivity]|].
    change (acquire [l] (heap s ++ [Some (x, 1)])) with (acquire [l] (heap s1)). cbn [heap vars]. rewrite E. cbn [bind].
    change (set_nth (vars s) v (Some (Arr x (Some l)))) with (vars s1).
    exists (push (mk_state (vars s1) h) (Shr l)), l. split; [reflexivity|]. split; [|split; [|split; [|split; [|split; [|split; [|split]]]]]].
    + eapply sound_push; [exact B'| |exact R1|exact I|exact I]. intros k. cbn [count_occ holds]. destruct (Nat.eq_dec l k), (Nat.eqb_spec l k); try congruence; lia.
    + cbn [push vars]. rewrite app_length, Len. cbn. lia.
    + unfold alive. cbn [push vars]. rewrite nth_error_app2 by lia. rewrite Len, Nat.sub_diag. reflexivity.
    + unfold alive. cbn [push vars]. rewrite nth_error_app1 by lia. exact A1.
    + intros _. apply (proj1 (C l x)). exists 1. unfold s1. cbn [heap]. rewrite nth_error_app2 by (unfold l; lia). unfold l. rewrite Nat.sub_diag. reflexivity.
    + discriminate.
    + intros k y (c & Hk). apply (proj1 (C k y)). exists c. unfold s1. cbn [heap]. rewrite nth_error_app1 by exact (nth_lt _ _ _ Hk). exact Hk.
    + intros k n N Ak. unfold alive. cbn [push vars]. rewrite nth_error_app1 by (rewrite Len; exact (alive_lt _ _ _ Ak)). unfold s1. cbn [vars]. rewrite set_nth_other by auto. exact Ak.
Qed.

Lemma copy_ok (s : st) v n : sound s -> alive s v n -> exists s', copy s v = Ok s' /\ sound s' /\ (forall k y, cell s k y -> cell s' k y).
Proof.
  intros (B & R) A. unfold copy. rewrite (var_alive _ _ _ A). cbn [bind].
  destruct (acquire_ok (refs n) (heap s) _ B) as (h & E & B' & C & _); [intros k I; eapply holder_alive; eassumption|].
  rewrite E. cbn [bind]. eexists. split; [reflexivity|]. destruct (R _ _ A) as (Bn & Nn). split.
  - eapply sound_push; [exact B'| |exact R|eapply below_le; [|exact Bn]; pose proof (alive_lt _ _ _ A); lia|exact Nn].
    intros l. rewrite holds_occ. lia.
  - intros k y Hk. exact (proj1 (C k y) Hk).
Qed.
Lemma destroy_ok (s : st) v n : sound s -> alive s v n -> exists s', destroy s v = Ok s' /\ sound s' /\ (forall k y, 0 < holders s' k -> cell s k y -> cell s' k y).
Proof.
  intros (B & R) A. pose proof (alive_lt _ _ _ A) as Lv. unfold destroy. rewrite (var_alive _ _ _ A). cbn [bind].
  set (vs := set_nth (vars s) v None).
  assert (E : forall l, holders s l = occ (refs n) l + sum_held vs l).
  { intros l. rewrite holders_sum. pose proof (sum_set _ _ _ None l A) as E. cbn [held] in E. rewrite holds_occ in E. fold vs in E. lia. }
  destruct (release_ok (refs n) (heap s) (sum_held vs)) as (h & Eh & B' & C & _); [eapply bal_ext; [|exact B]; exact E|].
  rewrite Eh. cbn [bind]. eexists. split; [reflexivity|]. split; [split|].
  - exact B'.
  - intros k m Ak. unfold alive in Ak. cbn [vars] in Ak. apply alive_set in Ak; [|exact Lv]. destruct Ak as [(_ & D)|(_ & Ak)]; [discriminate|now apply R].
  - intros k y P Hk. exact (proj1 (C k y P) Hk).
Qed.
Lemma write_arr (s : st) v x p y : sound s -> alive s v (Arr x p) -> exists s', write s v y = Ok s' /\ sound s' /\ (forall k z, cell s k z -> cell s' k z).
Proof.
  intros (B & R) A. pose proof (alive_lt _ _ _ A) as Lv. unfold write. rewrite (var_alive _ _ _ A). cbn [bind]. eexists. split; [reflexivity|]. split; [split|].
  - eapply bal_ext; [|exact B]. intros l. rewrite !holders_sum. cbn [set_var vars]. pose proof (sum_set _ _ _ (Some (Arr y p)) l A) as E. cbn [held holds] in E. lia.
  - intros k m Ak. unfold alive, set_var in Ak. cbn [vars] in Ak. apply alive_set in Ak; [|exact Lv]. destruct Ak as [(_ & D)|(_ & Ak)]; [injection D as <-; split; exact I|now apply R].
  - intros k z Hk. exact Hk.
Qed.
Lemma write_shr (s : st) v l y : sound s -> alive s v (Shr l) ->
  exists s', write s v y = Ok s' /\ sound s' /\ vars s' = vars s /\ cell s' l y /\ (forall k z, k <> l -> cell s k z -> cell s' k z).
Proof.
  intros (B & R) A. unfold write. rewrite (var_alive _ _ _ A). cbn [bind].
  destruct (bal_cell _ _ l B) as (x & c & E & U); [eapply holder_alive; [exact A|left; reflexivity]|]. rewrite E. pose proof (nth_lt _ _ _ E) as L.
  eexists. split; [reflexivity|]. split; [split|].
  - intros k. change (holders (mk_state (vars s) (set_nth (heap s) l (Some (y, S c)))) k) with (holders s k). cbn [heap]. unfold cnt. destruct (Nat.eq_dec k l) as [ -> |N].
    + rewrite set_nth_same by exact L. split; [lia|intros z; congruence].
    + rewrite set_nth_other by auto. apply (B k).
  - exact R.
  - split; [reflexivity|]. split; [exists (S c); cbn [heap]; now apply set_nth_same|]. intros k z N (d & Hk). exists d. cbn [heap]. rewrite set_nth_other by auto. exact Hk.
Qed.

(** A state in which a node is about to be put into a function: [extra] is what it holds *)
Definition sound_with (s : st) (u : nat -> nat) : Prop :=
  bal (heap s) (fun l => u l + holders s l) /\ (forall v n, alive s v n -> below v n /\ match n with Ref _ => False | _ => True end).
Lemma close_ok (s : st) u a v n : sound_with s u -> match a with Lvalue k | Const_lvalue k | Rvalue k => k = v end -> alive s v n ->
  exists m s', close s a = Ok (m, s') /\ sound_with s' (fun l => u l + holds l m) /\ below (length (vars s)) m /\ length (vars s') = length (vars s) /\
    (forall k x, cell s k x -> cell s' k x) /\ (forall k q, (match a with Rvalue _ => k <> v | _ => True end) -> alive s k q -> alive s' k q).
Proof.
  intros (B & R) Ha A. pose proof (alive_lt _ _ _ A) as Lv. destruct a as [k|k|k]; subst k; cbn [close]; rewrite (var_alive _ _ _ A); cbn [bind].
  - assert (G : exists m s', @Ok (node X * st) (Ref v, s) = Ok (m, s') /\ sound_with s' (fun l => u l + holds l m) /\ below (length (vars s)) m /\ length (vars s') = length (vars s) /\
      (forall k x, cell s k x -> cell s' k x) /\ (forall k q, True -> alive s k q -> alive s' k q)).
    { exists (Ref v), s. split; [reflexivity|]. split; [split; [eapply bal_ext; [|exact B]; intros l; cbn [holds]; lia|exact R]|]. repeat split; auto. }
    destruct n as [x p|l|w|n1 n2]; try exact G. clear G.
    destruct (acquire_ok [l] (heap s) _ B) as (h & E & B' & C & _).
    { intros k [ <- |[]]. pose proof (holder_alive s v (Shr l) l A (or_introl eq_refl)). lia. }
    rewrite E. cbn [bind]. exists (Shr l), (mk_state (vars s) h). split; [reflexivity|]. split; [split|].
    + eapply bal_ext; [|exact B']. intros k. change (holders (mk_state (vars s) h) k) with (holders s k). cbn [count_occ holds]. destruct (Nat.eq_dec l k), (Nat.eqb_spec l k); try congruence; lia.
    + exact R.
    + split; [exact I|]. split; [reflexivity|]. split; [intros k x Hk; exact (proj1 (C k x) Hk)|auto].
  - exists (Ref v), s. split; [reflexivity|]. split; [split; [eapply bal_ext; [|exact B]; intros l; cbn [holds]; lia|exact R]|]. repeat split; auto.
  - exists n, (set_var s v None). split; [reflexivity|]. split; [split|].
    + eapply bal_ext; [|exact B]. intros l. rewrite !holders_sum. cbn [set_var vars]. pose proof (sum_set _ _ _ None l A) as E. cbn [held] in E. lia.
    + intros k m Ak. unfold alive, set_var in Ak. cbn [vars] in Ak. apply alive_set in Ak; [|exact Lv]. destruct Ak as [(_ & D)|(_ & Ak)]; [discriminate|now apply R].
    + split; [eapply below_le; [|apply (R _ _ A)]; lia|]. split; [cbn [set_var vars]; now apply set_nth_length|]. split; [auto|].
      intros k q N Ak. unfold alive, set_var. cbn [vars]. rewrite set_nth_other by auto. exact Ak.
Qed.
Definition id_of (a : actual) : nat := match a with Lvalue v | Const_lvalue v | Rvalue v => v end.
Lemma apply_ok (s : st) a b n m : sound s -> alive s (id_of a) n -> alive s (id_of b) m -> (id_of a = id_of b -> match a with Rvalue _ => False | _ => True end) ->
  exists s', apply s a b = Ok s' /\ sound s' /\ (forall k y, cell s k y -> cell s' k y).
Proof.
  intros (B & R) An Am N. unfold apply.
  destruct (close_ok s (fun _ => 0) a (id_of a) n) as (n1 & s1 & E1 & S1 & L1 & V1 & C1 & P1); [split; [exact B|exact R]|destruct a; reflexivity|exact An|].
  rewrite E1. cbn [bind].
  destruct (close_ok s1 _ b (id_of b) m S1) as (n2 & s2 & E2 & S2 & L2 & V2 & C2 & P2); [destruct b; reflexivity|apply P1; [destruct a; auto; cbn in *; intros D; apply N; auto|exact Am]|].
  rewrite E2. cbn [bind]. destruct S2 as (B2 & R2). exists (push s2 (Fun n1 n2)). split; [reflexivity|]. split.
  - replace (push s2 (Fun n1 n2)) with (push (mk_state (vars s2) (heap s2)) (Fun n1 n2)) by reflexivity. eapply sound_push; [exact B2| |exact R2| |exact I].
    + intros l. cbn [holds]. lia.
    + cbn [below]. rewrite V2. rewrite V1 in *. auto.
  - intros k y Hk. apply C2, C1. exact Hk.
Qed.

Lemma sound_empty : sound (mk_state [] []).
Proof. split; [intros l; cbn; destruct l; split; try reflexivity; intros x; discriminate|]. intros [|v] n A; discriminate A. Qed.
Definition overwritten (s : st) (c : @stmt X) (l : nat) : Prop := match c with Write v _ => alive s v (Shr l) | _ => False end.
Lemma exec_ok (s : st) c : sound s -> proper s c -> exists s', exec s c = Ok s' /\ sound s' /\ keeps s s' (overwritten s c).
Proof.
  intros S P. destruct c as [x|v|v|v|v x|a b]; cbn [exec proper] in *.
  - exists (push s (Arr x None)). split; [reflexivity|]. destruct S as (B & R). split.
    + replace (push s (Arr x None)) with (push (mk_state (vars s) (heap s)) (Arr x None)) by reflexivity. eapply sound_push; [exact B| |exact R|exact I|exact I]. intros l. cbn [holds]. lia.
    + intros l y _ _ H. exact H.
  - destruct P as (x & p & A). destruct (share_ok s v x p S A) as (s' & l & E & S' & _ & _ & _ & _ & _ & K & _). exists s'. split; [exact E|]. split; [exact S'|]. intros k y _ _ H. now apply K.
  - destruct P as (n & A). destruct (copy_ok s v n S A) as (s' & E & S' & K). exists s'. split; [exact E|]. split; [exact S'|]. intros k y _ _ H. now apply K.
  - destruct P as (n & A). destruct (destroy_ok s v n S A) as (s' & E & S' & K). exists s'. split; [exact E|]. split; [exact S'|]. intros k y _ Q H. now apply K.
  - destruct P as [(y & p & A)|(l & A)].
    + destruct (write_arr s v y p x S A) as (s' & E & S' & K). exists s'. split; [exact E|]. split; [exact S'|]. intros k z _ _ H. now apply K.
    + destruct (write_shr s v l x S A) as (s' & E & S' & _ & _ & K). exists s'. split; [exact E|]. split; [exact S'|]. intros k z N _ H. apply K; [|exact H]. intros ->. apply N. exact A.
  - destruct P as ((n & An) & (m & Am) & N). destruct (apply_ok s a b n m S An Am N) as (s' & E & S' & K). exists s'. split; [exact E|]. split; [exact S'|]. intros k y _ _ H. now apply K.
Qed.
Lemma exec_proper (s s' : st) c : exec s c = Ok s' -> proper s c.
Proof.
  destruct c as [x|v|v|v|v x|a b]; cbn [exec proper]; intros E; auto.
  - unfold share in E. destruct (var s v) as [n| |] eqn:V; cbn [bind] in E; try discriminate. apply alive_var in V. destruct n; try discriminate. eauto.
  - unfold copy in E. destruct (var s v) as [n| |] eqn:V; cbn [bind] in E; try discriminate. apply alive_var in V. eauto.
  - unfold destroy in E. destruct (var s v) as [n| |] eqn:V; cbn [bind] in E; try discriminate. apply alive_var in V. eauto.
  - unfold write in E. destruct (var s v) as [n| |] eqn:V; cbn [bind] in E; try discriminate. apply alive_var in V. destruct n; try discriminate; eauto.
  - assert (G : forall (s : st) a r, close s a = Ok r -> exists n, alive s (id_of a) n).
    { intros s0 [k|k|k] r H; cbn [close] in H; destruct (var s0 k) as [n| |] eqn:V; cbn [bind] in H; try discriminate; apply alive_var in V; eauto. }
    unfold apply in E. destruct (close s a) as [[n1 s1]| |] eqn:C1; cbn [bind] in E; try discriminate. destruct (close s1 b) as [[n2 s2]| |] eqn:C2; cbn [bind] in E; try discriminate.
    destruct (G _ _ _ C1) as (n & A1). destruct (G _ _ _ C2) as (m & A2). fold (id_of a). fold (id_of b).
    assert (Ls : id_of a < length (vars s)) by exact (alive_lt _ _ _ A1).
    split; [eauto|]. destruct a as [k|k|k]; cbn [close id_of] in *.
    + destruct (var s k) as [q| |] eqn:V; cbn [bind] in C1; try discriminate. split; [|auto]. exists m.
      destruct q; try (injection C1 as _ <-; exact A2). destruct (acquire [l] (heap s)) as [h| |]; cbn [bind] in C1; try discriminate. injection C1 as _ <-. exact A2.
    + destruct (var s k) as [q| |] eqn:V; cbn [bind] in C1; try discriminate. injection C1 as _ <-. split; [eauto|auto].
    + destruct (var s k) as [q| |] eqn:V; cbn [bind] in C1; try discriminate. injection C1 as _ <-.
      unfold alive, set_var in A2. cbn [vars] in A2. apply alive_set in A2; [|exact Ls]. destruct A2 as [(_ & D)|(D & A2)]; [discriminate|]. split; [eauto|]. intros D'. symmetry in D'. contradiction.
Qed.
Lemma run_sound : forall p (s s' : st), sound s -> run s p = Ok s' -> sound s'.
Proof.
  induction p as [|c p IH]; intros s s' S E; cbn [run] in E; [injection E as <-; exact S|].
  destruct (exec s c) as [s1| |] eqn:D; cbn [bind] in E; try discriminate. destruct (exec_ok s c S (exec_proper _ _ _ D)) as (s2 & D2 & S2 & _).
  apply (IH s1); [congruence|exact E].
Qed.
Lemma reachable_sound (s : st) : reachable s -> sound s.
Proof. intros (p & E). exact (run_sound p _ _ sound_empty E). Qed.

Lemma count_ok (s : st) v l : reachable s -> alive s v (Shr l) -> use_count s v = Ok (holders s l).
Proof.
  intros Rs A. destruct (reachable_sound s Rs) as (B & _). unfold use_count. rewrite (var_alive _ _ _ A). cbn [bind].
  destruct (bal_cell _ _ l B) as (x & c & E & U); [eapply holder_alive; [exact A|left; reflexivity]|]. rewrite E. now rewrite U.
Qed.
Lemma freed_ok (s : st) l : reachable s -> (0 < holders s l <-> exists x, cell s l x).
Proof.
  intros Rs. destruct (reachable_sound s Rs) as (B & _). split.
  - intros P. destruct (bal_cell _ _ l B P) as (x & c & E & _). exists x, (S c). exact E.
  - intros (x & [|c] & E); destruct (B l) as (U & N); [destruct (N x E)|]. unfold cnt in U. rewrite E in U. lia.
Qed.
Lemma reach_exec (s s' : st) c : reachable s -> exec s c = Ok s' -> reachable s'.
Proof.
  intros (p & E) D. exists (p ++ [c]). assert (G : forall p (s0 : st), run s0 p = Ok s -> run s0 (p ++ [c]) = Ok s').
  { induction p0 as [|d q IH]; intros s0 H; cbn [run app] in *; [injection H as ->; rewrite D; reflexivity|]. destruct (exec s0 d) as [s1| |]; cbn [bind] in *; try discriminate. now apply IH. }
  now apply G.
Qed.

(* evaluation *)
Context (f : X -> X -> X).
Lemma eval_shows (s : st) n x : shows f s n x -> forall fuel, below fuel n -> (forall v m, alive s v m -> below v m) -> eval f fuel s n = Ok x.
Proof.
  induction 1 as [x p|l x (c & C)|v n x A Sn IH|a b x y Sa IHa Sb IHb]; intros fuel Bn R.
  - destruct fuel; reflexivity.
  - destruct fuel; cbn; rewrite C; reflexivity.
  - cbn [below] in Bn. destruct fuel as [|fuel]; [lia|]. change (eval f (S fuel) s (Ref v)) with (let* n' := var s v in eval f fuel s n').
    rewrite (var_alive _ _ _ A). cbn [bind]. apply IH; [eapply below_le; [|exact (R _ _ A)]; lia|exact R].
  - destruct Bn as (Ba & Bb). specialize (IHa fuel Ba R). specialize (IHb fuel Bb R).
    replace (eval f fuel s (Fun a b)) with (let* x := eval f fuel s a in let* y := eval f fuel s b in Ok (f x y)) by (destruct fuel; reflexivity).
    rewrite IHa, IHb. reflexivity.
Qed.
Lemma value_ok (s : st) v n x : reachable s -> alive s v n -> shows f s n x -> value_of f s v = Ok x.
Proof.
  intros Rs A Sn. destruct (reachable_sound s Rs) as (_ & R). unfold value_of. rewrite (var_alive _ _ _ A). cbn [bind]. apply eval_shows; [exact Sn| |].
  - eapply below_le; [|apply (R _ _ A)]. pose proof (alive_lt _ _ _ A). lia.
  - intros k m Ak. apply (R _ _ Ak).
Qed.
Lemma contained_shows (s : st) n : (forall l, In l (refs n) -> 0 < holders s l) -> bal (heap s) (holders s) -> self_contained n -> exists x, shows f s n x.
Proof.
  intros P B. induction n as [x p|l|v|a IHa b IHb]; cbn [self_contained refs] in *; intros Sc.
  - exists x. constructor.
  - destruct (bal_cell _ _ l B (P l (or_introl eq_refl))) as (x & c & E & _). exists x. constructor. exists (S c). exact E.
  - contradiction.
  - destruct Sc as (Sa & Sb). destruct (IHa (fun l I => P l (proj2 (in_app_iff _ _ _) (or_introl I))) Sa) as (x & Hx). destruct (IHb (fun l I => P l (proj2 (in_app_iff _ _ _) (or_intror I))) Sb) as (y & Hy).
    exists (f x y). now constructor.
Qed.
Lemma contained_ok (s : st) v n : reachable s -> alive s v n -> self_contained n -> exists x, shows f s n x /\ value_of f s v = Ok x.
Proof.
  intros Rs A Sc. destruct (reachable_sound s Rs) as (B & R). destruct (contained_shows s n) as (x & Hx); [intros l I; eapply holder_alive; eassumption|exact B|exact Sc|].
  exists x. split; [exact Hx|]. now apply (value_ok s v n).
Qed.
End S.
