(** Proofs about svector: several objects, swap, histories. *)
From Coq Require Import List ZArith Bool Arith Lia.
From Verif Require Import Prelude PreludeFacts Svector_Model Svector_Spec Svector_Proofs Svector2_Proofs.
Import ListNotations.
Open Scope nat_scope.

Section P.
Context {V : Type} (N : nat) (zero : V).
Implicit Types (h : heap V) (l m : list V) (blk : block V) (vs : vectors V) (objs : list (option obj)).
Notation owns := (owns N).

Definition blocks (o : obj) b := b = o_begin o \/ b = o_inline o.
Definition apart o p := forall b, blocks o b -> blocks p b -> False.
Definition inv h objs vs :=
  length objs = length vs /\
  (forall i, match nth_error objs i, nth_error vs i with
             | Some (Some o), Some (Some l) => owns h o l
             | Some None, Some None | None, None => True
             | _, _ => False
             end) /\
  (forall i j o p, i <> j -> nth_error objs i = Some (Some o) -> nth_error objs j = Some (Some p) -> apart o p) /\
  (forall b, live h b -> exists i o, nth_error objs i = Some (Some o) /\ blocks o b).

Lemma inv_owns h objs vs i o l : inv h objs vs -> nth_error objs i = Some (Some o) -> nth_error vs i = Some (Some l) -> owns h o l.
Proof. intros (_ & H & _) E1 E2. specialize (H i). rewrite E1, E2 in H. exact H. Qed.
Lemma inv_obj h objs vs i l : inv h objs vs -> nth_error vs i = Some (Some l) -> exists o, nth_error objs i = Some (Some o) /\ owns h o l.
Proof.
  intros (_ & H & _) E. specialize (H i). rewrite E in H. destruct (nth_error objs i) as [[o|]|]; [eauto|contradiction|contradiction].
Qed.
Lemma owns_live h o l b : owns h o l -> blocks o b -> b < length h.
Proof. intros (rest & E1 & _ & _ & _ & inl & E2 & _) [ -> | -> ]; apply nth_error_Some; congruence. Qed.

(** Another object is not disturbed. *)
Lemma owns_frame h o h' o' p m : frame h o h' o' -> apart o p -> owns h p m -> owns h' p m.
Proof.
  intros (F1 & _) Ha Hp. pose proof Hp as (rest & E1 & E2 & E3 & E4 & inl & E5 & E6). exists rest.
  rewrite F1; [|eapply owns_live; [exact Hp|left; reflexivity]|intros E; eapply (Ha (o_begin p)); [left; exact E|left; reflexivity]].
  split; [exact E1|]. split; [exact E2|]. split; [exact E3|]. split; [exact E4|]. exists inl.
  rewrite F1; [|eapply owns_live; [exact Hp|right; reflexivity]|intros E; eapply (Ha (o_inline p)); [left; exact E|right; reflexivity]]. auto.
Qed.
Lemma apart_frame h o h' o' p m : frame h o h' o' -> apart o p -> owns h p m -> apart o' p.
Proof.
  intros (_ & F2 & F3 & _) Ha Hp b [ -> | -> ] Hb.
  - destruct F3 as [E|E]; [rewrite E in Hb; apply (Ha _ (or_introl eq_refl) Hb)|]. pose proof (owns_live _ _ _ _ Hp Hb). lia.
  - rewrite F2 in Hb. apply (Ha _ (or_intror eq_refl) Hb).
Qed.
Lemma apart_sym o p : apart o p -> apart p o.
Proof. intros H b H1 H2. exact (H b H2 H1). Qed.

Lemma nth_upd {A} (x : list A) i j a : nth_error (upd x i a) j = if i =? j then (if j <? length x then Some a else None) else nth_error x j.
Proof.
  destruct (Nat.eqb_spec i j) as [->|]; [|apply nth_error_upd_other; assumption]. destruct (Nat.ltb_spec j (length x)).
  - apply nth_error_upd_same. assumption.
  - apply nth_error_None. rewrite upd_length. assumption.
Qed.
Lemma lookup_lt {A} (x : list A) i a : nth_error x i = Some a -> i < length x.
Proof. intros H. apply nth_error_Some. congruence. Qed.

Lemma inv_put h objs vs i o l h' o' l' : inv h objs vs -> nth_error objs i = Some (Some o) -> nth_error vs i = Some (Some l) ->
  owns h' o' l' -> frame h o h' o' -> inv h' (upd objs i (Some o')) (upd vs i (Some l')).
Proof.
  intros Hinv Eo El Ho' F. pose proof Hinv as (HL & HO & HA & HK). pose proof (lookup_lt _ _ _ Eo) as Li. pose proof (lookup_lt _ _ _ El) as Li'.
  split; [rewrite !upd_length; exact HL|]. split; [|split].
  - intros j. rewrite !nth_upd. destruct (Nat.eqb_spec i j) as [<-|Hne].
    + destruct (Nat.ltb_spec i (length objs)); [|lia]. destruct (Nat.ltb_spec i (length vs)); [|lia]. exact Ho'.
    + specialize (HO j). destruct (nth_error objs j) as [[p|]|] eqn:Ej; auto. destruct (nth_error vs j) as [[m|]|]; auto.
      eapply owns_frame; [exact F| |exact HO]. apply (HA i j); assumption.
  - assert (X : forall j p, i <> j -> nth_error objs j = Some (Some p) -> apart o' p).
    { intros j p Hne Ej. specialize (HO j). rewrite Ej in HO. destruct (nth_error vs j) as [[m|]|]; try contradiction.
      eapply apart_frame; [exact F| |exact HO]. apply (HA i j); assumption. }
    intros j k p q Hne E1 E2. rewrite nth_upd in E1, E2. destruct (Nat.eqb_spec i j) as [<-|H1].
    + destruct (Nat.ltb_spec i (length objs)); [|lia]. injection E1 as <-. destruct (Nat.eqb_spec i k); [congruence|]. apply (X k); assumption.
    + destruct (Nat.eqb_spec i k) as [<-|H2].
      * destruct (Nat.ltb_spec i (length objs)); [|lia]. injection E2 as <-. apply apart_sym, (X j); assumption.
      * apply (HA j k); assumption.
  - intros b Hb. pose proof F as (_ & F2 & _ & _ & F5). assert (Ei : nth_error (upd objs i (Some o')) i = Some (Some o')) by (apply nth_error_upd_same; exact Li).
    destruct (F5 b Hb) as [H|[H|[H1 H2]]].
    + exists i, o'. split; [exact Ei|]. left. exact H.
    + exists i, o'. split; [exact Ei|]. right. congruence.
    + destruct (HK b H2) as (j & p & Ej & Hp). destruct (Nat.eq_dec i j) as [<-|Hne].
      * assert (p = o) by congruence. subst p. destruct Hp as [Hp|Hp]; [contradiction|]. exists i, o'. split; [exact Ei|]. right. congruence.
      * exists j, p. split; [rewrite nth_error_upd_other by assumption; exact Ej|exact Hp].
Qed.

(** A new object. *)
Lemma inv_new h objs vs : inv h objs vs -> let '(h', o) := s_new N zero true h in inv h' (objs ++ [Some o]) (vs ++ [Some []]) /\ length h <= o_begin o.
Proof.
  intros (HL & HO & HA & HK). cbn. set (o := mk_obj (length h) (length h) 0 (inline_cap N)). set (h' := h ++ [Some (repeat None (inline_cap N))]).
  assert (En : nth_error h' (length h) = Some (Some (repeat None (inline_cap N)))) by (unfold h'; rewrite nth_error_app2, Nat.sub_diag by lia; reflexivity).
  assert (Hic : N <= inline_cap N) by (unfold inline_cap; destruct (Nat.ltb_spec 0 N); lia).
  assert (X : forall j p m, nth_error objs j = Some (Some p) -> nth_error vs j = Some (Some m) -> apart o p /\ owns h' p m).
  { intros j p m Ej Em. pose proof (HO j) as Hp. rewrite Ej, Em in Hp. split.
    - intros b Hb1 Hb2. pose proof (owns_live _ _ _ _ Hp Hb2). destruct Hb1 as [ -> | -> ]; cbn in *; lia.
    - pose proof Hp as (rest & E1 & E2 & E3 & E4 & inl & E5 & E6). exists rest. unfold h'.
      rewrite !nth_error_app1 by (eapply owns_live; [exact Hp|]; unfold blocks; auto). eauto 10. }
  assert (Y : forall j p, nth_error objs j = Some (Some p) -> apart o p).
  { intros j p Ej. pose proof (HO j) as Hp. rewrite Ej in Hp. destruct (nth_error vs j) as [[m|]|] eqn:Em; try contradiction. apply (X j p m); assumption. }
  split; [|cbn; lia]. split; [rewrite !app_length; cbn; lia|]. split; [|split].
  - intros j. destruct (Nat.lt_trichotomy j (length objs)) as [H|[->|H]].
    + rewrite !nth_error_app1 by lia. specialize (HO j). destruct (nth_error objs j) as [[p|]|] eqn:Ej; auto.
      destruct (nth_error vs j) as [[m|]|] eqn:Em; auto. apply (X j p m); assumption.
    + rewrite nth_error_app2, Nat.sub_diag by lia. rewrite HL, nth_error_app2, Nat.sub_diag by lia. cbn.
      exists (repeat None (inline_cap N)). cbn. rewrite En, repeat_length. repeat split; try lia. exists (repeat None (inline_cap N)). rewrite repeat_length. auto.
    + rewrite (proj2 (nth_error_None (objs ++ [Some o]) j)), (proj2 (nth_error_None (vs ++ [Some []]) j)) by (rewrite app_length; cbn; lia). exact I.
  - intros j k p q Hne E1 E2. destruct (Nat.lt_ge_cases j (length objs)) as [Hj|Hj]; destruct (Nat.lt_ge_cases k (length objs)) as [Hk|Hk].
    + rewrite nth_error_app1 in E1, E2 by assumption. apply (HA j k); assumption.
    + pose proof (lookup_lt _ _ _ E2) as Lk. rewrite app_length in Lk. cbn in Lk. rewrite nth_error_app2 in E2 by assumption. replace (k - length objs) with 0 in E2 by lia. injection E2 as <-.
      rewrite nth_error_app1 in E1 by assumption. apply apart_sym, (Y j), E1.
    + pose proof (lookup_lt _ _ _ E1) as Lk. rewrite app_length in Lk. cbn in Lk. rewrite nth_error_app2 in E1 by assumption. replace (j - length objs) with 0 in E1 by lia. injection E1 as <-.
      rewrite nth_error_app1 in E2 by assumption. apply (Y k), E2.
    + pose proof (lookup_lt _ _ _ E1) as L1. pose proof (lookup_lt _ _ _ E2) as L2. rewrite app_length in L1, L2. cbn in L1, L2. lia.
  - intros b (blk & Hb). destruct (Nat.lt_ge_cases b (length h)) as [H|H].
    + unfold h' in Hb. rewrite nth_error_app1 in Hb by assumption. destruct (HK b (ex_intro _ blk Hb)) as (j & p & Ej & Hp). exists j, p.
      split; [rewrite nth_error_app1 by (eapply lookup_lt; exact Ej); exact Ej|exact Hp].
    + pose proof (lookup_lt _ _ _ Hb) as Lb. unfold h' in Lb. rewrite app_length in Lb. cbn in Lb. exists (length objs), o.
      split; [rewrite nth_error_app2, Nat.sub_diag by lia; reflexivity|]. left. cbn. lia.
Qed.

(** An object that goes. *)
Lemma inv_destroy h objs vs i o l : inv h objs vs -> nth_error objs i = Some (Some o) -> nth_error vs i = Some (Some l) ->
  exists h', s_destroy h o = Ok h' /\ inv h' (upd objs i None) (upd vs i None).
Proof.
  intros Hinv Eo El. pose proof Hinv as (HL & HO & HA & HK). pose proof (lookup_lt _ _ _ Eo) as Li. pose proof (inv_owns _ _ _ _ _ _ Hinv Eo El) as Ho.
  pose proof Ho as (rest & E1 & _ & _ & _ & inl & E2 & _).
  assert (D : exists h', s_destroy h o = Ok h' /\ (forall b, ~ blocks o b -> nth_error h' b = nth_error h b) /\ (forall b, blocks o b -> ~ live h' b)).
  { unfold s_destroy, mem_free, on_stack. destruct (Nat.eqb_spec (o_begin o) (o_inline o)) as [E|E].
    - cbn [bind]. rewrite E2. eexists. split; [reflexivity|]. split.
      + intros b Hb. apply nth_error_upd_other. intros <-. apply Hb. right. reflexivity.
      + intros b Hb (x & Hx). assert (b = o_inline o) by (destruct Hb; congruence). subst b.
        rewrite nth_error_upd_same in Hx by (eapply lookup_lt; exact E2). discriminate.
    - rewrite E1. cbn [bind]. rewrite nth_error_upd_other by assumption. rewrite E2. eexists. split; [reflexivity|]. split.
      + intros b Hb. rewrite !nth_error_upd_other; [reflexivity| |]; intros <-; apply Hb; unfold blocks; auto.
      + intros b Hb (x & Hx). pose proof (lookup_lt _ _ _ E1). pose proof (lookup_lt _ _ _ E2). rewrite nth_upd in Hx. destruct (Nat.eqb_spec (o_inline o) b) as [Eb|Eb].
        * destruct (b <? _); discriminate.
        * destruct Hb as [->|]; [|congruence]. rewrite nth_error_upd_same in Hx by assumption. discriminate. }
  destruct D as (h' & ED & D1 & D2). exists h'. split; [exact ED|]. split; [rewrite !upd_length; exact HL|]. split; [|split].
  - intros j. rewrite !nth_upd, HL. destruct (Nat.eqb_spec i j) as [<-|Hne]; [destruct (i <? length vs); exact I|].
    specialize (HO j). destruct (nth_error objs j) as [[p|]|] eqn:Ej; auto. destruct (nth_error vs j) as [[m|]|]; auto.
    pose proof (HA i j o p Hne Eo Ej) as Hap. pose proof HO as (r2 & X1 & X2 & X3 & X4 & inl2 & X5 & X6). exists r2.
    rewrite D1 by (intros Hb; apply (Hap _ Hb); left; reflexivity). split; [exact X1|]. split; [exact X2|]. split; [exact X3|]. split; [exact X4|].
    exists inl2. rewrite D1 by (intros Hb; apply (Hap _ Hb); right; reflexivity). auto.
  - intros j k p q Hne X1 X2. rewrite nth_upd in X1, X2. destruct (i =? j); [destruct (j <? _); discriminate|]. destruct (i =? k); [destruct (k <? _); discriminate|].
    apply (HA j k); assumption.
  - intros b Hb. assert (Hnb : ~ blocks o b) by (intros X; exact (D2 b X Hb)). destruct Hb as (x & Hx). rewrite D1 in Hx by assumption.
    destruct (HK b (ex_intro _ x Hx)) as (j & p & Ej & Hp). exists j, p. split; [|exact Hp]. rewrite nth_error_upd_other; [exact Ej|].
    intros ->. assert (p = o) by congruence. subst p. contradiction.
Qed.

(** ** swap *)
Lemma same_size o n : o_size o = n -> with_size o n = o.
Proof. intros <-. destruct o. reflexivity. Qed.

Lemma swap_elements_ok : forall n (x y : list V) h b1 b2 i blk1 blk2, b1 <> b2 -> nth_error h b1 = Some (Some blk1) -> nth_error h b2 = Some (Some blk2) ->
  length x = n -> length y = n -> cells blk1 i x -> cells blk2 i y -> i + n <= length blk1 -> i + n <= length blk2 ->
  swap_elements true h b1 b2 i n = Ok (upd (upd h b1 (Some (splice blk1 i y))) b2 (Some (splice blk2 i x))).
Proof.
  induction n as [|n IH]; intros x y h b1 b2 i blk1 blk2 Hb E1 E2 Lx Ly C1 C2 L1 L2.
  - destruct x; [|discriminate]. destruct y; [|discriminate]. cbn [swap_elements]. rewrite !splice_nil. rewrite (upd_nth_self h b1) by assumption. rewrite upd_nth_self by assumption. reflexivity.
  - destruct x as [|a x]; [discriminate|]. destruct y as [|c y]; [discriminate|]. cbn [swap_elements].
    assert (R1 : nth_error blk1 i = Some (Some a)) by (rewrite <- (Nat.add_0_r i); apply C1; reflexivity).
    assert (R2 : nth_error blk2 i = Some (Some c)) by (rewrite <- (Nat.add_0_r i); apply C2; reflexivity).
    rewrite (read_ok _ _ _ _ _ E1 R1). cbn [bind]. rewrite (read_ok _ _ _ _ _ E2 R2). cbn [bind].
    rewrite (write_ok true h b1 i blk1 c) by (try assumption; lia). cbn [bind].
    rewrite (write_ok true _ b2 i blk2 a) by (try (rewrite nth_error_upd_other by assumption; assumption); lia). cbn [bind].
    pose proof (lookup_lt _ _ _ E1) as B1. pose proof (lookup_lt _ _ _ E2) as B2. injection Lx as Lx. injection Ly as Ly.
    rewrite (IH x y _ b1 b2 (S i) (upd blk1 i (Some c)) (upd blk2 i (Some a))).
    + rewrite !splice_cons by lia. f_equal.
      rewrite (upd_comm (upd h b1 _) b2 b1) by congruence. rewrite upd_upd_same, upd_upd_same. reflexivity.
    + exact Hb.
    + rewrite nth_error_upd_other by congruence. apply nth_error_upd_same. exact B1.
    + apply nth_error_upd_same. rewrite upd_length. exact B2.
    + exact Lx.
    + exact Ly.
    + intros k v Ek. rewrite nth_error_upd_other by lia. apply (cells_tl _ _ _ _ C1). exact Ek.
    + intros k v Ek. rewrite nth_error_upd_other by lia. apply (cells_tl _ _ _ _ C2). exact Ek.
    + rewrite upd_length. lia.
    + rewrite upd_length. lia.
Qed.

(** n leading elements of two vectors exchanged. *)
Lemma exchange h objs vs i j o p l m n : inv h objs vs -> i <> j -> nth_error objs i = Some (Some o) -> nth_error objs j = Some (Some p) ->
  nth_error vs i = Some (Some l) -> nth_error vs j = Some (Some m) -> n <= length l -> n <= length m ->
  exists h', swap_elements true h (o_begin o) (o_begin p) 0 n = Ok h' /\
    inv h' objs (upd (upd vs i (Some (firstn n m ++ skipn n l))) j (Some (firstn n l ++ skipn n m))).
Proof.
  intros Hinv Hne Eo Ep El Em Hl Hm. pose proof (inv_owns _ _ _ _ _ _ Hinv Eo El) as Ho. pose proof (inv_owns _ _ _ _ _ _ Hinv Ep Em) as Hp.
  destruct (owns_block _ _ _ _ Ho) as (blk1 & E1). destruct (owns_block _ _ _ _ Hp) as (blk2 & E2).
  destruct (owns_cells _ _ _ _ _ Ho E1) as [C1 L1]. destruct (owns_cells _ _ _ _ _ Hp E2) as [C2 L2].
  pose proof (owns_cap _ _ _ _ Ho) as [Q1 _]. pose proof (owns_cap _ _ _ _ Hp) as [Q2 _].
  assert (Hb : o_begin o <> o_begin p).
  { intros E. destruct Hinv as (_ & _ & HA & _). apply (HA i j o p Hne Eo Ep (o_begin o)); [left; reflexivity|left; exact E]. }
  rewrite (swap_elements_ok n (firstn n l) (firstn n m) h (o_begin o) (o_begin p) 0 blk1 blk2); try assumption; try lia;
    try (apply firstn_length_le; assumption); try (apply cells_firstn; assumption).
  eexists. split; [reflexivity|].
  destruct (set_splice N h o l blk1 0 (firstn n m) (length l) Ho E1) as [H1 F1]; [lia|rewrite firstn_length; lia|cbn; rewrite app_length, firstn_length, skipn_length; lia|].
  cbn [firstn app Nat.add] in H1. rewrite firstn_length_le in H1 by assumption.
  rewrite (firstn_len (firstn n m ++ skipn n l)) in H1 by (rewrite app_length, firstn_length, skipn_length; lia).
  rewrite (same_size o) in H1, F1 by (apply (owns_size _ _ _ _ Ho)).
  pose proof (inv_put _ _ _ _ _ _ _ _ _ Hinv Eo El H1 F1) as I1. rewrite (upd_nth_self objs) in I1 by assumption.
  set (h1 := upd h (o_begin o) (Some (splice blk1 0 (firstn n m)))) in *. set (vs1 := upd vs i (Some (firstn n m ++ skipn n l))) in *.
  assert (Em1 : nth_error vs1 j = Some (Some m)) by (unfold vs1; rewrite nth_error_upd_other by assumption; exact Em).
  pose proof (inv_owns _ _ _ _ _ _ I1 Ep Em1) as Hp1.
  assert (E21 : nth_error h1 (o_begin p) = Some (Some blk2)) by (unfold h1; rewrite nth_error_upd_other by assumption; exact E2).
  destruct (set_splice N h1 p m blk2 0 (firstn n l) (length m) Hp1 E21) as [H2 F2]; [lia|rewrite firstn_length; lia|cbn; rewrite app_length, firstn_length, skipn_length; lia|].
  cbn [firstn app Nat.add] in H2. rewrite firstn_length_le in H2 by assumption.
  rewrite (firstn_len (firstn n l ++ skipn n m)) in H2 by (rewrite app_length, firstn_length, skipn_length; lia).
  rewrite (same_size p) in H2, F2 by (apply (owns_size _ _ _ _ Hp)).
  pose proof (inv_put _ _ _ _ _ _ _ _ _ I1 Ep Em1 H2 F2) as I2. rewrite (upd_nth_self objs) in I2 by assumption. exact I2.
Qed.

(** The tail of one vector copied over the tail of another of the same size. *)
Lemma tail_copy h objs vs i j o p l m n : inv h objs vs -> i <> j -> nth_error objs i = Some (Some o) -> nth_error objs j = Some (Some p) ->
  nth_error vs i = Some (Some l) -> nth_error vs j = Some (Some m) -> length l = length m -> n <= length m ->
  exists h', copy_fwd true true h (o_begin p) n (o_begin o) n (length m - n) = Ok h' /\ inv h' objs (upd vs i (Some (firstn n l ++ skipn n m))).
Proof.
  intros Hinv Hne Eo Ep El Em Hlm Hn. pose proof (inv_owns _ _ _ _ _ _ Hinv Eo El) as Ho. pose proof (inv_owns _ _ _ _ _ _ Hinv Ep Em) as Hp.
  destruct (owns_block _ _ _ _ Ho) as (blk1 & E1). destruct (owns_block _ _ _ _ Hp) as (blk2 & E2).
  destruct (owns_cells _ _ _ _ _ Ho E1) as [C1 L1]. destruct (owns_cells _ _ _ _ _ Hp E2) as [C2 L2].
  pose proof (owns_cap _ _ _ _ Ho) as [Q1 _].
  assert (Hb : o_begin p <> o_begin o).
  { intros E. destruct Hinv as (_ & _ & HA & _). apply (HA i j o p Hne Eo Ep (o_begin o)); [left; reflexivity|left; congruence]. }
  replace (length m - n) with (length (skipn n m)) by (rewrite skipn_length; reflexivity).
  rewrite (copy_fwd_list true (skipn n m) h (o_begin p) n blk2 (o_begin o) n blk1); [|assumption|apply cells_skip; assumption|assumption|rewrite skipn_length; lia|auto].
  destruct (list_step N true h o l n (skipn n m) (length l) Ho) as (h' & E & H1 & F1).
  - lia.
  - rewrite skipn_length. lia.
  - rewrite !app_length, firstn_length, !skipn_length. lia.
  - exists h'. split; [exact E|]. rewrite skipn_length in H1. rewrite (skipn_all2 l), app_nil_r in H1 by lia.
    rewrite (firstn_len (firstn n l ++ skipn n m)) in H1 by (rewrite app_length, firstn_length, skipn_length; lia).
    rewrite (same_size o) in H1, F1 by (apply (owns_size _ _ _ _ Ho)).
    pose proof (inv_put _ _ _ _ _ _ _ _ _ Hinv Eo El H1 F1) as I1. rewrite (upd_nth_self objs) in I1 by assumption. exact I1.
Qed.
Lemma shrink_inv h objs vs i o l n : inv h objs vs -> nth_error objs i = Some (Some o) -> nth_error vs i = Some (Some l) -> n <= length l ->
  inv h (upd objs i (Some (with_size o n))) (upd vs i (Some (firstn n l))).
Proof.
  intros Hinv Eo El Hn. eapply inv_put; try eassumption; [|apply frame_refl]. apply owns_shrink; [|exact Hn]. eapply inv_owns; eassumption.
Qed.
Lemma destroy_triv h b i n : destroy_range true h b i n = Ok h.
Proof. destruct n; reflexivity. Qed.

Lemma swap_inv h objs vs i j o p l m : inv h objs vs -> i <> j -> nth_error objs i = Some (Some o) -> nth_error objs j = Some (Some p) ->
  nth_error vs i = Some (Some l) -> nth_error vs j = Some (Some m) ->
  exists h' o' p', s_swap N zero true h o p = Ok (h', o', p') /\
    inv h' (upd (upd objs i (Some o')) j (Some p')) (upd (upd vs i (Some m)) j (Some l)).
Proof.
  intros Hinv Hne Eo Ep El Em. pose proof (inv_owns _ _ _ _ _ _ Hinv Eo El) as Ho. pose proof (inv_owns _ _ _ _ _ _ Hinv Ep Em) as Hp.
  pose proof (lookup_lt _ _ _ Eo) as Li. pose proof (lookup_lt _ _ _ Ep) as Lj. pose proof (lookup_lt _ _ _ El) as Li'. pose proof (lookup_lt _ _ _ Em) as Lj'.
  unfold s_swap. destruct (negb (on_stack o) && negb (on_stack p)) eqn:Est.
  - do 3 eexists. split; [reflexivity|]. apply andb_prop in Est. destruct Est as [S1 S2].
    apply negb_true_iff, Nat.eqb_neq in S1. apply negb_true_iff, Nat.eqb_neq in S2.
    set (o' := mk_obj (o_inline o) (o_begin p) (o_size p) (o_cap p)). set (p' := mk_obj (o_inline p) (o_begin o) (o_size o) (o_cap o)).
    pose proof Hinv as (HL & HO & HA & HK). pose proof (HA i j o p Hne Eo Ep) as Hop.
    assert (Ho' : owns h o' m).
    { destruct Ho as (r1 & X1 & X2 & X3 & X4 & X5). destruct Hp as (r2 & Y1 & Y2 & Y3 & Y4 & Y5). exists r2. cbn. auto. }
    assert (Hp' : owns h p' l).
    { destruct Ho as (r1 & X1 & X2 & X3 & X4 & X5). destruct Hp as (r2 & Y1 & Y2 & Y3 & Y4 & Y5). exists r1. cbn. auto. }
    assert (Bo : forall b, blocks o' b -> blocks o b \/ blocks p b) by (intros b [ -> | -> ]; unfold blocks; cbn; auto).
    assert (Bp : forall b, blocks p' b -> blocks o b \/ blocks p b) by (intros b [ -> | -> ]; unfold blocks; cbn; auto).
    assert (Lk : forall k, nth_error (upd (upd objs i (Some o')) j (Some p')) k = if j =? k then Some (Some p') else if i =? k then Some (Some o') else nth_error objs k).
    { intros k. rewrite !nth_upd, upd_length. destruct (Nat.eqb_spec j k) as [<-|]; [destruct (Nat.ltb_spec j (length objs)); [reflexivity|lia]|].
      destruct (Nat.eqb_spec i k) as [<-|]; [destruct (Nat.ltb_spec i (length objs)); [reflexivity|lia]|]. reflexivity. }
    assert (Lv : forall k, nth_error (upd (upd vs i (Some m)) j (Some l)) k = if j =? k then Some (Some l) else if i =? k then Some (Some m) else nth_error vs k).
    { intros k. rewrite !nth_upd, upd_length. destruct (Nat.eqb_spec j k) as [<-|]; [destruct (Nat.ltb_spec j (length vs)); [reflexivity|lia]|].
      destruct (Nat.eqb_spec i k) as [<-|]; [destruct (Nat.ltb_spec i (length vs)); [reflexivity|lia]|]. reflexivity. }
    assert (Aop : apart o' p').
    { intros b [ -> | -> ]; cbn; intros [X|X]; cbn in X.
      - apply (Hop (o_begin o)); [left; reflexivity|left; congruence].
      - congruence.
      - congruence.
      - apply (Hop (o_inline o)); [right; reflexivity|right; exact X]. }
    assert (Ax : forall k q b, k <> i -> k <> j -> nth_error objs k = Some (Some q) -> blocks o b \/ blocks p b -> blocks q b -> False).
    { intros k q b N1 N2 Eq [H|H] Hq; [apply (HA i k o q (not_eq_sym N1) Eo Eq b H Hq)|apply (HA j k p q (not_eq_sym N2) Ep Eq b H Hq)]. }
    split; [rewrite !upd_length; exact HL|]. split; [|split].
    + intros k. rewrite Lk, Lv. destruct (j =? k); [exact Hp'|]. destruct (i =? k); [exact Ho'|]. apply HO.
    + intros a b q r Hab E1 E2. rewrite Lk in E1, E2.
      destruct (Nat.eqb_spec j a) as [<-|Nja].
      * injection E1 as <-. destruct (Nat.eqb_spec j b) as [<-|Njb]; [congruence|]. destruct (Nat.eqb_spec i b) as [<-|Nib].
        -- injection E2 as <-. apply apart_sym, Aop.
        -- intros x Hx Hy. apply (Ax b r x); auto.
      * destruct (Nat.eqb_spec i a) as [<-|Nia].
        -- injection E1 as <-. destruct (Nat.eqb_spec j b) as [<-|Njb]; [injection E2 as <-; exact Aop|]. destruct (Nat.eqb_spec i b) as [<-|Nib]; [congruence|].
           intros x Hx Hy. apply (Ax b r x); auto.
        -- destruct (Nat.eqb_spec j b) as [<-|Njb]; [injection E2 as <-; intros x Hx Hy; apply (Ax a q x); auto|].
           destruct (Nat.eqb_spec i b) as [<-|Nib]; [injection E2 as <-; intros x Hx Hy; apply (Ax a q x); auto|]. apply (HA a b); assumption.
    + intros b Hb. destruct (HK b Hb) as (k & q & Eq & Hq). destruct (Nat.eq_dec j k) as [<-|Njk].
      * assert (q = p) by congruence. subst q. destruct Hq as [Hq|Hq].
        -- exists i, o'. rewrite Lk, Nat.eqb_refl. destruct (Nat.eqb_spec j i); [congruence|]. split; [reflexivity|]. left. exact Hq.
        -- exists j, p'. rewrite Lk, Nat.eqb_refl. split; [reflexivity|]. right. exact Hq.
      * destruct (Nat.eq_dec i k) as [<-|Nik].
        -- assert (q = o) by congruence. subst q. destruct Hq as [Hq|Hq].
           ++ exists j, p'. rewrite Lk, Nat.eqb_refl. split; [reflexivity|]. left. exact Hq.
           ++ exists i, o'. rewrite Lk, Nat.eqb_refl. destruct (Nat.eqb_spec j i); [congruence|]. split; [reflexivity|]. right. exact Hq.
        -- exists k, q. rewrite Lk. destruct (Nat.eqb_spec j k); [congruence|]. destruct (Nat.eqb_spec i k); [congruence|]. auto.
  - rewrite (owns_size _ _ _ _ Ho), (owns_size _ _ _ _ Hp). destruct (Nat.ltb_spec (length l) (length m)) as [H|H].
    + destruct (resize_ok N zero h o l (length m) Ho) as (h1 & o1 & E & H1 & F1). rewrite E. cbn [bind].
      rewrite firstn_all2 in H1 by lia. set (L := l ++ repeat zero (length m - length l)) in *.
      assert (LL : length L = length m) by (unfold L; rewrite app_length, repeat_length; lia).
      pose proof (inv_put _ _ _ _ _ _ _ _ _ Hinv Eo El H1 F1) as I1. rewrite Nat.min_l by lia.
      destruct (exchange _ _ _ i j o1 p L m (length l) I1 Hne) as (h2 & E2 & I2).
      { apply nth_error_upd_same; exact Li. } { rewrite nth_error_upd_other by exact Hne; exact Ep. } { apply nth_error_upd_same; exact Li'. }
      { rewrite nth_error_upd_other by exact Hne; exact Em. } { lia. } { lia. }
      rewrite E2. cbn [bind]. destruct (Nat.ltb_spec (length m) (length l)); [lia|]. rewrite upd_upd_same in I2.
      rewrite (owns_size _ _ _ _ Hp).
      destruct (tail_copy _ _ _ i j o1 p (firstn (length l) m ++ skipn (length l) L) (firstn (length l) L ++ skipn (length l) m) (length l) I2 Hne) as (h3 & E3 & I3).
      { apply nth_error_upd_same; exact Li. } { rewrite nth_error_upd_other by exact Hne; exact Ep. }
      { rewrite nth_error_upd_other by congruence; apply nth_error_upd_same; exact Li'. } { apply nth_error_upd_same; rewrite upd_length; exact Lj'. }
      { rewrite !app_length, !firstn_length, !skipn_length. lia. } { rewrite app_length, firstn_length, skipn_length. lia. }
      replace (length (firstn (length l) L ++ skipn (length l) m)) with (length m) in E3 by (rewrite app_length, firstn_length, skipn_length; lia).
      rewrite E3. cbn [bind]. rewrite destroy_triv. cbn [bind]. do 3 eexists. split; [reflexivity|].
      pose proof (shrink_inv _ _ _ j p (firstn (length l) L ++ skipn (length l) m) (length l) I3) as I4.
      rewrite (nth_error_upd_other _ i j) in I4 by exact Hne. rewrite (nth_error_upd_other _ i j) in I4 by exact Hne. rewrite nth_error_upd_same in I4 by (rewrite upd_length; exact Lj').
      specialize (I4 Ep eq_refl). rewrite (upd_comm (upd vs i _) j i) in I4 by congruence. rewrite !upd_upd_same in I4.
      assert (Z1 : firstn (length l) (firstn (length l) L ++ skipn (length l) m) = l).
      { rewrite firstn_app, firstn_firstn, firstn_length. replace (length l - Nat.min (length l) (length L)) with 0 by lia. cbn [firstn]. rewrite app_nil_r, Nat.min_id.
        unfold L. apply firstn_app_len. reflexivity. }
      rewrite Z1 in I4.
      assert (Z2 : firstn (length l) (firstn (length l) m ++ skipn (length l) L) ++ skipn (length l) (firstn (length l) L ++ skipn (length l) m) = m).
      { rewrite (firstn_app_len (firstn (length l) m)) by (rewrite firstn_length; lia). rewrite (skipn_app_len (firstn (length l) L)) by (rewrite firstn_length; lia). apply firstn_skipn. }
      rewrite Z2 in I4. apply I4. rewrite app_length, firstn_length, skipn_length. lia.
    + destruct (Nat.ltb_spec (length m) (length l)) as [H'|H'].
      * destruct (resize_ok N zero h p m (length l) Hp) as (h1 & p1 & E & H1 & F1). rewrite E. cbn [bind].
        rewrite firstn_all2 in H1 by lia. set (L := m ++ repeat zero (length l - length m)) in *.
        assert (LL : length L = length l) by (unfold L; rewrite app_length, repeat_length; lia).
        pose proof (inv_put _ _ _ _ _ _ _ _ _ Hinv Ep Em H1 F1) as I1. rewrite Nat.min_r by lia.
        destruct (exchange _ _ _ i j o p1 l L (length m) I1 Hne) as (h2 & E2 & I2).
        { rewrite nth_error_upd_other by congruence; exact Eo. } { apply nth_error_upd_same; exact Lj. } { rewrite nth_error_upd_other by congruence; exact El. }
        { apply nth_error_upd_same; exact Lj'. } { lia. } { lia. }
        rewrite E2. cbn [bind]. rewrite (upd_comm vs j i) in I2 by congruence. rewrite upd_upd_same in I2.
        rewrite (owns_size _ _ _ _ Ho).
        destruct (tail_copy _ _ _ j i p1 o (firstn (length m) l ++ skipn (length m) L) (firstn (length m) L ++ skipn (length m) l) (length m) I2) as (h3 & E3 & I3).
        { congruence. } { apply nth_error_upd_same; exact Lj. } { rewrite nth_error_upd_other by congruence; exact Eo. }
        { apply nth_error_upd_same; rewrite upd_length; exact Lj'. } { rewrite nth_error_upd_other by congruence; apply nth_error_upd_same; exact Li'. }
        { rewrite !app_length, !firstn_length, !skipn_length. lia. } { rewrite app_length, firstn_length, skipn_length. lia. }
        replace (length (firstn (length m) L ++ skipn (length m) l)) with (length l) in E3 by (rewrite app_length, firstn_length, skipn_length; lia).
        rewrite E3. cbn [bind]. rewrite destroy_triv. cbn [bind]. do 3 eexists. split; [reflexivity|].
        pose proof (shrink_inv _ _ _ i o (firstn (length m) L ++ skipn (length m) l) (length m) I3) as I4.
        rewrite upd_upd_same in I4. rewrite (nth_error_upd_other objs j i) in I4 by congruence. rewrite (nth_error_upd_other _ j i) in I4 by congruence. rewrite nth_error_upd_same in I4 by exact Li'.
        specialize (I4 Eo eq_refl). rewrite (upd_comm objs j i) in I4 by congruence. rewrite (upd_comm (upd vs i _) j i) in I4 by congruence. rewrite upd_upd_same in I4.
        assert (Z1 : firstn (length m) (firstn (length m) L ++ skipn (length m) l) = m).
        { rewrite firstn_app, firstn_firstn, firstn_length. replace (length m - Nat.min (length m) (length L)) with 0 by lia. cbn [firstn]. rewrite app_nil_r, Nat.min_id.
          unfold L. apply firstn_app_len. reflexivity. }
        rewrite Z1 in I4.
        assert (Z2 : firstn (length m) (firstn (length m) l ++ skipn (length m) L) ++ skipn (length m) (firstn (length m) L ++ skipn (length m) l) = l).
        { rewrite (firstn_app_len (firstn (length m) l)) by (rewrite firstn_length; lia). rewrite (skipn_app_len (firstn (length m) L)) by (rewrite firstn_length; lia). apply firstn_skipn. }
        rewrite Z2 in I4. apply I4. rewrite app_length, firstn_length, skipn_length. lia.
      * assert (Hlm : length l = length m) by lia. cbn [bind]. rewrite Nat.min_l by lia.
        destruct (exchange _ _ _ i j o p l m (length l) Hinv Hne Eo Ep El Em) as (h2 & E2 & I2); [lia|lia|].
        rewrite E2. cbn [bind]. do 3 eexists. split; [reflexivity|].
        rewrite (upd_nth_self objs i) by assumption. rewrite upd_nth_self by assumption.
        rewrite (firstn_all2 (n := length l) m), !skipn_all2, firstn_all, !app_nil_r in I2 by lia. exact I2.
Qed.
End P.
