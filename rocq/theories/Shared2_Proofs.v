(** Proofs about shared expressions: functions of them, and what changes their values. *)
From Coq Require Import List ZArith Bool Lia Arith.
From Verif Require Import Prelude Shared_Model Shared_Spec Shared_Proofs.
Import ListNotations.
Open Scope nat_scope.

Section S.
Context {X : Type} (f : X -> X -> X).
Notation st := (@state X).

Lemma shows_keep (s s' : st) n x : self_contained n -> (forall l y, 0 < holds l n -> cell s l y -> cell s' l y) -> shows f s n x -> shows f s' n x.
Proof.
  intros Sc K H. induction H as [x p|l x C|v n x A Sn IH|a b x y Sa IHa Sb IHb]; cbn [self_contained holds] in *.
  - constructor.
  - constructor. apply K; [rewrite Nat.eqb_refl; lia|exact C].
  - contradiction.
  - destruct Sc as (Ca & Cb). constructor; [apply IHa|apply IHb]; auto; intros l z P; apply K; lia.
Qed.
Lemma alive_holds (s : st) v n l : alive s v n -> holds l n <= holders s l.
Proof. intros A. rewrite holders_sum. exact (sum_ge _ _ _ l A). Qed.

Lemma stable_ok (s s' : st) c v n x : reachable s -> exec s c = Ok s' -> alive s' v n -> self_contained n -> shows f s n x ->
  (forall w y l, c = Write w y -> alive s w (Shr l) -> holds l n = 0) -> shows f s' n x /\ value_of f s' v = Ok x.
Proof.
  intros Rs E A' Sc Sn W. destruct (exec_ok s c (reachable_sound s Rs) (exec_proper _ _ _ E)) as (s1 & E1 & S1 & K).
  assert (s1 = s') by congruence. subst s1.
  assert (G : shows f s' n x).
  { apply (shows_keep s); auto. intros l y P C. apply K; [|pose proof (alive_holds s' v n l A'); lia|exact C].
    intros O. destruct c; try contradiction O. cbn in O. specialize (W _ _ _ eq_refl O). lia. }
  split; [exact G|]. apply (value_ok f s' v n); auto. eapply reach_exec; eassumption.
Qed.
Lemma write_seen_ok (s s' : st) v w l y : reachable s -> alive s v (Shr l) -> alive s w (Shr l) -> exec s (Write v y) = Ok s' -> value_of f s' w = Ok y.
Proof.
  intros Rs A B E. destruct (write_shr s v l y (reachable_sound s Rs) A) as (s1 & E1 & _ & V & C & _). cbn [exec] in E. assert (s1 = s') by congruence. subst s1.
  apply (value_ok f s' w (Shr l)); [exact (reach_exec s s' (Write v y) Rs E)|unfold alive; rewrite V; exact B|constructor; exact C].
Qed.
Lemma share_value_ok (s s' : st) v x : reachable s -> alive s v (Arr x None) -> exec s (Share v) = Ok s' -> value_of f s' (length (vars s)) = Ok x /\ value_of f s' v = Ok x /\ use_count s' (length (vars s)) = Ok 2.
Proof.
  intros Rs A E. pose proof (reach_exec _ _ _ Rs E) as Rs'. destruct (share_ok s v x None (reachable_sound s Rs) A) as (s1 & l & E1 & S1 & Len & Al & Av & C & _). cbn [exec] in E. assert (s1 = s') by congruence. subst s1.
  split; [apply (value_ok f s' _ (Shr l)); [exact Rs'|exact Al|constructor; now apply C]|]. split; [apply (value_ok f s' v (Arr x (Some l))); [exact Rs'|exact Av|constructor]|].
  (* the count *)
  pose proof (reachable_sound s Rs) as (B & _). unfold share in E. rewrite (var_alive _ _ _ A) in E. cbn [bind vars heap] in E.
  set (h1 := heap s ++ [Some (x, 1)]) in E. assert (El : nth_error h1 (length (heap s)) = Some (Some (x, 1))) by (unfold h1; rewrite nth_error_app2, Nat.sub_diag by lia; reflexivity).
  cbn [acquire] in E. rewrite El in E. cbn [bind] in E. injection E as <-. unfold use_count, var. cbn [push vars heap].
  rewrite nth_error_app2 by (rewrite set_nth_length by exact (alive_lt _ _ _ A); lia). rewrite set_nth_length by exact (alive_lt _ _ _ A). rewrite Nat.sub_diag. cbn [nth_error bind].
  rewrite set_nth_same by exact (nth_lt _ _ _ El). reflexivity.
Qed.

(** How an argument is given so that nothing of it is referred to *)
Definition safe (s : st) (a : actual) (n : node X) : Prop :=
  match a with Lvalue v => alive s v n /\ exists l, n = Shr l | Const_lvalue _ => False | Rvalue v => alive s v n /\ self_contained n end.
Lemma close_safe (s : st) u a n : sound_with s u -> safe s a n -> exists s', close s a = Ok (n, s') /\ self_contained n /\ (forall l x, cell s l x -> cell s' l x).
Proof.
  intros S G. destruct a as [v|v|v]; cbn [safe] in G; [|contradiction|].
  - destruct G as (A & l & ->). destruct (close_ok s u (Lvalue v) v (Shr l) S eq_refl A) as (m & s' & E & _ & _ & _ & C & _). pose proof E as E0.
    cbn [close] in E. rewrite (var_alive _ _ _ A) in E. cbn [bind] in E. destruct (acquire [l] (heap s)) as [h| |]; cbn [bind] in E; try discriminate. injection E as <- _.
    exists s'. split; [exact E0|]. split; [exact I|exact C].
  - destruct G as (A & Sc). destruct (close_ok s u (Rvalue v) v n S eq_refl A) as (m & s' & E & _ & _ & _ & C & _). pose proof E as E0.
    cbn [close] in E. rewrite (var_alive _ _ _ A) in E. cbn [bind] in E. injection E as <- _. exists s'. split; [exact E0|]. split; [exact Sc|exact C].
Qed.
Lemma apply_value_ok (s s' : st) a b n m x y : reachable s -> safe s a n -> safe s b m -> shows f s n x -> shows f s m y -> exec s (Apply a b) = Ok s' ->
  exists k, alive s' k (Fun n m) /\ length (vars s') = S k /\ self_contained (Fun n m) /\ value_of f s' k = Ok (f x y).
Proof.
  intros Rs Ga Gb Sx Sy E. pose proof (reach_exec _ _ _ Rs E) as Rs'. pose proof (reachable_sound s Rs) as (B & R).
  destruct (close_safe s (fun _ => 0) a n (conj B R) Ga) as (s1 & E1 & C1 & K1).
  assert (Aa : alive s (id_of a) n) by (destruct a; cbn in *; tauto).
  destruct (close_ok s (fun _ => 0) a (id_of a) n (conj B R)) as (n1 & s1' & E1' & S1 & _ & _ & _ & _); [destruct a; reflexivity|exact Aa|]. rewrite E1 in E1'. injection E1' as <- <-.
  cbn [exec] in E. unfold apply in E. rewrite E1 in E. cbn [bind] in E.
  assert (Ab : alive s (id_of b) m) by (destruct b; cbn in *; tauto).
  destruct (close s1 b) as [[m2 s2]| |] eqn:E2; cbn [bind] in E; try discriminate. injection E as <-.
  assert (Gb1 : safe s1 b m).
  { assert (A1 : forall q, alive s (id_of b) m -> alive s1 (id_of b) q -> q = m).
    { intros q A A1. destruct a as [v|v|v]; cbn [close] in E1; cbn [id_of] in *; rewrite (var_alive _ _ _ Aa) in E1; cbn [bind] in E1.
      - destruct n; try (injection E1 as _ <-; congruence); try (unfold alive in *; congruence).
        destruct (acquire [l] (heap s)) as [h| |]; cbn [bind] in E1; try discriminate. injection E1 as <-. unfold alive in *. cbn [vars] in A1. congruence.
      - injection E1 as _ <-. unfold alive in *. congruence.
      - injection E1 as <-. unfold alive, set_var in A1. cbn [vars] in A1. apply alive_set in A1; [|exact (alive_lt _ _ _ Aa)]. destruct A1 as [(_ & D)|(_ & A1)]; [discriminate|]. unfold alive in *. congruence. }
    assert (A2 : exists q, alive s1 (id_of b) q).
    { destruct b as [v|v|v]; cbn [close id_of] in *; destruct (var s1 v) as [q| |] eqn:V; cbn [bind] in E2; try discriminate; apply alive_var in V; eauto. }
    destruct A2 as (q & A2). pose proof (A1 q Ab A2). subst q. destruct b; cbn [safe id_of] in *; tauto. }
  destruct (close_safe s1 _ b m S1 Gb1) as (s2' & E2' & C2 & K2). rewrite E2 in E2'. injection E2' as -> <-.
  exists (length (vars s2)). assert (Ak : alive (push s2 (Fun n m)) (length (vars s2)) (Fun n m)).
  { unfold alive. cbn [push vars]. rewrite nth_error_app2, Nat.sub_diag by lia. reflexivity. }
  split; [exact Ak|]. split; [cbn [push vars]; rewrite app_length; cbn; lia|]. split; [split; assumption|].
  apply (value_ok f _ _ _ _ Rs' Ak). constructor.
  - apply (shows_keep s); [exact C1| |exact Sx]. intros l z _ H. apply K2, K1 in H || (apply K1 in H; apply K2 in H). exact H.
  - apply (shows_keep s); [exact C2| |exact Sy]. intros l z _ H. apply K1 in H; apply K2 in H. exact H.
Qed.
End S.
