(** Proofs about svector: histories against std::vector. *)
From Coq Require Import List ZArith Bool Arith Lia.
From Verif Require Import Prelude PreludeFacts Svector_Model Svector_Spec Svector_Proofs Svector2_Proofs Svector3_Proofs.
Import ListNotations.
Open Scope nat_scope.

Section P.
Context {V : Type} (N : nat) (zero : V).
Implicit Types (h : heap V) (l m : list V) (blk : block V) (vs : vectors V) (objs : list (option obj)).
Notation owns := (owns N).
Notation inv := (inv N).

Lemma vget_some vs i l : vget vs i = Some l -> nth_error vs i = Some (Some l).
Proof. unfold vget. destruct (nth_error vs i) as [[x|]|]; congruence. Qed.
Lemma get_some (w : world V) i o : nth_error (w_objs w) i = Some (Some o) -> get w i = Ok o.
Proof. intros E. unfold get. rewrite E. reflexivity. Qed.
Lemma inv_get (w : world V) vs i l : inv (w_heap w) (w_objs w) vs -> vget vs i = Some l ->
  exists o, nth_error (w_objs w) i = Some (Some o) /\ get w i = Ok o /\ owns (w_heap w) o l /\ nth_error vs i = Some (Some l).
Proof.
  intros Hinv E. apply vget_some in E. destruct (inv_obj _ _ _ _ _ _ Hinv E) as (o & Eo & Ho). exists o. auto using get_some.
Qed.
Lemma begins_differ h objs vs i j o p : inv h objs vs -> nth_error objs i = Some (Some o) -> nth_error objs j = Some (Some p) -> i <> j -> o_begin p <> o_begin o.
Proof. intros (_ & _ & HA & _) E1 E2 Hne E. apply (HA i j o p Hne E1 E2 (o_begin o)); [left; reflexivity|left; congruence]. Qed.

Lemma opt_bind_some {A B} (x : option A) (f : A -> option B) b : opt_bind x f = Some b -> exists a, x = Some a /\ f a = Some b.
Proof. destruct x as [a|]; cbn; [eauto|discriminate]. Qed.

Lemma resolve_arg_ok (w : world V) vs i o l x v : inv (w_heap w) (w_objs w) vs -> nth_error (w_objs w) i = Some (Some o) -> nth_error vs i = Some (Some l) ->
  arg_value vs x = Some v ->
  exists a, resolve_arg w x = Ok a /\ arg_read (w_heap w) a = Ok v /\
    (not_into_arg i x = true -> arg_apart (w_heap w) (o_begin o) a v) /\
    ((forall k, x = Elem i k -> o_size o < o_cap o \/ on_stack o = true) -> arg_ok (w_heap w) o l a v).
Proof.
  intros Hinv Eo El Hx. destruct x as [u|j k]; cbn in Hx |- *.
  - injection Hx as ->. exists (AVal v). cbn. auto.
  - apply opt_bind_some in Hx. destruct Hx as (m & Em & Hk). destruct (inv_get _ _ _ _ Hinv Em) as (p & Ep & Eg & Hp & Em'). rewrite Eg. cbn [bind].
    exists (ARef (o_begin p) k). pose proof (owns_read _ _ _ _ _ _ Hp Hk) as Hr. split; [reflexivity|]. split; [exact Hr|]. split.
    + intros Hn. apply negb_true_iff, Nat.eqb_neq in Hn. cbn. split; [|exact Hr]. eapply begins_differ; try eassumption. congruence.
    + intros Hs. cbn. split; [eapply owns_live; [exact Hp|left; reflexivity]|]. split; [exact Hr|]. intros E.
      destruct (Nat.eq_dec i j) as [<-|Hne]; [|exfalso; exact (begins_differ _ _ _ i j o p Hinv Eo Ep Hne E)].
      assert (m = l) by congruence. subst m. split; [exact Hk|]. apply (Hs k). reflexivity.
Qed.
Lemma cells_slice blk l a n : cells blk 0 l -> cells blk a (firstn n (skipn a l)).
Proof. intros H. apply cells_firstn. apply cells_skip. exact H. Qed.
Lemma resolve_range_ok (w : world V) vs r m : inv (w_heap w) (w_objs w) vs -> range_value vs r = Some m ->
  exists r', resolve_range w r = Ok r' /\
    forall b, (forall j x y p, r = Slice j x y -> nth_error (w_objs w) j = Some (Some p) -> o_begin p <> b) -> range_apart (w_heap w) b r' m.
Proof.
  intros Hinv Hr. destruct r as [u|j x y]; cbn [range_value resolve_range] in Hr |- *.
  - injection Hr as ->. exists (RList m). split; [reflexivity|]. cbn. auto.
  - apply opt_bind_some in Hr. destruct Hr as (l & El & Hr). destruct (inv_get _ _ _ _ Hinv El) as (p & Ep & Eg & Hp & El'). rewrite Eg. cbn [bind].
    destruct ((x <=? y) && (y <=? length l)) eqn:B; [|discriminate]. apply andb_prop in B. destruct B as [B1 B2]. apply Nat.leb_le in B1, B2.
    injection Hr as <-. destruct (Nat.ltb_spec y x); [lia|]. eexists. split; [reflexivity|]. intros b Hb. cbn.
    destruct (owns_block _ _ _ _ Hp) as (blk & Eb). destruct (owns_cells _ _ _ _ _ Hp Eb) as [Hc _].
    split; [apply (Hb j x y p); [reflexivity|exact Ep]|]. split; [rewrite firstn_length, skipn_length; lia|]. exists blk. split; [exact Eb|].
    apply cells_slice. exact Hc.
Qed.
Lemma into_apart (w : world V) vs i o (r : xrange V) : inv (w_heap w) (w_objs w) vs -> nth_error (w_objs w) i = Some (Some o) -> not_into i r = true ->
  forall j x y p, r = Slice j x y -> nth_error (w_objs w) j = Some (Some p) -> o_begin p <> o_begin o.
Proof.
  intros Hinv Eo Hn j x y p -> Ep. apply negb_true_iff, Nat.eqb_neq in Hn. eapply begins_differ; try eassumption. congruence.
Qed.
Lemma range_apart_more h x b r m : range_apart h b r m -> range_apart (h ++ [x]) b r m.
Proof.
  destruct r as [u|b' i n]; cbn; [auto|]. intros (H1 & H2 & blk & H3 & H4). split; [exact H1|]. split; [exact H2|]. exists blk.
  split; [|exact H4]. rewrite nth_error_app1 by (eapply lookup_lt; exact H3). exact H3.
Qed.

Lemma act_ok (w : world V) vs i o l a l' : inv (w_heap w) (w_objs w) vs -> nth_error (w_objs w) i = Some (Some o) -> nth_error vs i = Some (Some l) ->
  vact zero vs i l a = Some l' -> safe_event w (Act i a) -> result N (act N zero true w o a) (w_heap w) o l'.
Proof.
  intros Hinv Eo El Ha Hs. pose proof (inv_owns _ _ _ _ _ _ _ Hinv Eo El) as Ho.
  assert (Ei : get w i = Ok o) by (apply get_some; exact Eo).
  destruct a as [x| |p x|p r|p|p q|n|n| |n x|r|k x]; cbn [vact act] in *.
  - apply opt_bind_some in Ha. destruct Ha as (v & Hv & E). injection E as <-.
    destruct (resolve_arg_ok w vs i o l x v Hinv Eo El Hv) as (a & E1 & _ & _ & E2). rewrite E1. cbn [bind]. apply push_back_ok; [exact Ho|]. apply E2.
    intros k ->. cbn in Hs. apply Hs; [reflexivity|exact Ei].
  - destruct (Nat.ltb_spec 0 (length l)); [|discriminate]. injection Ha as <-. apply pop_back_ok; [exact Ho|]. destruct l; [cbn in *; lia|discriminate].
  - apply opt_bind_some in Ha. destruct Ha as (v & Hv & E). destruct (Nat.leb_spec p (length l)) as [Hp|]; [|discriminate]. injection E as <-.
    destruct (resolve_arg_ok w vs i o l x v Hinv Eo El Hv) as (a & E1 & _ & _ & E2). rewrite E1. cbn [bind].
    destruct (insert_ok N (w_heap w) o l p a v Ho Hp) as (h' & o' & E & H1 & H2).
    + apply E2. intros k ->. cbn in Hs. apply Hs; [reflexivity|exact Ei].
    + rewrite E. exists h', o'. auto.
  - apply opt_bind_some in Ha. destruct Ha as (m & Hm & E). destruct (Nat.leb_spec p (length l)) as [Hp|]; [|discriminate]. cbn [andb] in E.
    destruct (not_into i r) eqn:Hn; [|discriminate]. injection E as <-.
    destruct (resolve_range_ok w vs r m Hinv Hm) as (r' & E1 & E2). rewrite E1. cbn [bind].
    destruct (insert_range_ok N (w_heap w) o l p r' m Ho Hp) as (h' & o' & E & H1 & H2).
    + apply E2. eapply into_apart; eassumption.
    + rewrite E. exists h', o'. auto.
  - destruct (Nat.ltb_spec p (length l)) as [Hp|]; [|discriminate]. injection Ha as <-.
    destruct (erase_ok N (w_heap w) o l p Ho Hp) as (h' & o' & E & H1 & H2). rewrite E. exists h', o'. auto.
  - destruct (Nat.leb_spec p q) as [Hp|]; [|discriminate]. destruct (Nat.leb_spec q (length l)) as [Hq|]; [|discriminate]. injection Ha as <-.
    destruct (erase_range_ok N (w_heap w) o l p q Ho Hp Hq) as (h' & o' & E & H1 & H2). rewrite E. exists h', o'. auto.
  - injection Ha as <-. apply resize_ok. exact Ho.
  - injection Ha as <-. apply reserve_ok. exact Ho.
  - injection Ha as <-. eapply clear_ok. exact Ho.
  - apply opt_bind_some in Ha. destruct Ha as (v & Hv & E). destruct (not_into_arg i x) eqn:Hn; [|discriminate]. injection E as <-.
    destruct (resolve_arg_ok w vs i o l x v Hinv Eo El Hv) as (a & E1 & _ & E2 & _). rewrite E1. cbn [bind]. eapply assign_fill_ok; [exact Ho|]. apply E2. exact Hn.
  - apply opt_bind_some in Ha. destruct Ha as (m & Hm & E). destruct (not_into i r) eqn:Hn; [|discriminate]. injection E as <-.
    destruct (resolve_range_ok w vs r m Hinv Hm) as (r' & E1 & E2). rewrite E1. cbn [bind]. eapply assign_range_ok; [exact Ho|]. apply E2. eapply into_apart; eassumption.
  - apply opt_bind_some in Ha. destruct Ha as (v & Hv & E). destruct (Nat.ltb_spec k (length l)) as [Hk|]; [|discriminate]. injection E as <-.
    destruct (resolve_arg_ok w vs i o l x v Hinv Eo El Hv) as (a & E1 & E2 & _). rewrite E1. cbn [bind]. apply set_ok; assumption.
Qed.

Lemma upd_last {A} (x : list A) a c n : n = length x -> upd (x ++ [a]) n c = x ++ [c].
Proof. intros ->. apply upd_mid. Qed.
Lemma whole_apart h p m b : owns h p m -> o_begin p <> b -> range_apart h b (whole p) m.
Proof.
  intros Hp Hb. unfold whole. cbn. destruct (owns_block _ _ _ _ Hp) as (blk & Eb). destruct (owns_cells _ _ _ _ _ Hp Eb) as [Hc _].
  split; [exact Hb|]. split; [apply (owns_size _ _ _ _ Hp)|]. exists blk. auto.
Qed.

(** A constructor: a new object, then one operation on it. *)
Lemma construct_ok (w : world V) vs (r : res (heap V * obj)) l : inv (w_heap w) (w_objs w) vs ->
  (forall h o, s_new N zero true (w_heap w) = (h, o) -> owns h o [] -> length (w_heap w) <= o_begin o -> result N r h o l) ->
  exists w', add_obj w r = Ok w' /\ inv (w_heap w') (w_objs w') (vs ++ [Some l]).
Proof.
  intros Hinv Hop. pose proof (inv_new N zero _ _ _ Hinv) as Hn. destruct (s_new N zero true (w_heap w)) as [h o] eqn:En. destruct Hn as [Hn Hb].
  pose proof Hinv as (HL & _).
  assert (Eo : nth_error (w_objs w ++ [Some o]) (length (w_objs w)) = Some (Some o)) by (rewrite nth_error_app2, Nat.sub_diag by lia; reflexivity).
  assert (El : nth_error (vs ++ [Some []]) (length (w_objs w)) = Some (Some [])) by (rewrite HL, nth_error_app2, Nat.sub_diag by lia; reflexivity).
  destruct (Hop h o eq_refl (inv_owns _ _ _ _ _ _ _ Hn Eo El) Hb) as (h' & o' & E & H1 & F1).
  unfold add_obj. rewrite E. cbn [bind]. eexists. split; [reflexivity|]. cbn.
  pose proof (inv_put _ _ _ _ _ _ _ _ _ _ Hn Eo El H1 F1) as I. rewrite (upd_last (w_objs w)) in I by reflexivity. rewrite (upd_last vs) in I by exact HL. exact I.
Qed.

Lemma step_ok (w : world V) vs e vs' : inv (w_heap w) (w_objs w) vs -> vstep zero vs e = Some vs' -> safe_event w e ->
  exists w', step N zero true w e = Ok w' /\ inv (w_heap w') (w_objs w') vs'.
Proof.
  intros Hinv Hv Hs. destruct e as [|n|r|j|j|i a|i j|i j|i j|i]; cbn [vstep step] in *.
  - injection Hv as <-. apply (construct_ok w vs (Ok (s_new N zero true (w_heap w))) [] Hinv). intros h o E Ho _. exists h, o. split; [congruence|]. split; [exact Ho|]. destruct o; apply frame_refl.
  - injection Hv as <-. destruct (s_new N zero true (w_heap w)) as [h o] eqn:E.
    apply (construct_ok w vs _ _ Hinv). intros h' o' E' Ho _. rewrite E in E'. injection E' as <- <-. eapply assign_fill_ok; [exact Ho|]. reflexivity.
  - apply opt_bind_some in Hv. destruct Hv as (m & Hm & E). injection E as <-.
    destruct (resolve_range_ok w vs r m Hinv Hm) as (r' & E1 & E2). rewrite E1. cbn [bind]. destruct (s_new N zero true (w_heap w)) as [h o] eqn:E.
    apply (construct_ok w vs _ _ Hinv). intros h' o' E' Ho Hb. rewrite E in E'. injection E' as <- <-. eapply assign_range_ok; [exact Ho|].
    assert (Eh : exists x, h = w_heap w ++ [x]) by (unfold s_new in E; injection E as <- _; eauto). destruct Eh as (x & ->). apply range_apart_more. apply E2.
    intros j a b p _ Ep Hc. destruct Hinv as (_ & HO & _). specialize (HO j). rewrite Ep in HO. destruct (nth_error vs j) as [[q|]|]; try contradiction.
    pose proof (owns_live _ _ _ _ (o_begin p) HO (or_introl eq_refl)). lia.
  - apply opt_bind_some in Hv. destruct Hv as (m & Hm & E). injection E as <-.
    destruct (inv_get _ _ _ _ Hinv Hm) as (p & Ep & Eg & Hp & _). rewrite Eg. cbn [bind]. destruct (s_new N zero true (w_heap w)) as [h o] eqn:E.
    apply (construct_ok w vs _ _ Hinv). intros h' o' E' Ho Hb. rewrite E in E'. injection E' as <- <-. eapply assign_range_ok; [exact Ho|].
    assert (Eh : exists x, h = w_heap w ++ [x]) by (unfold s_new in E; injection E as <- _; eauto). destruct Eh as (x & ->). apply range_apart_more.
    apply whole_apart; [exact Hp|]. pose proof (owns_live _ _ _ _ (o_begin p) Hp (or_introl eq_refl)). lia.
  - apply opt_bind_some in Hv. destruct Hv as (m & Hm & E). injection E as <-.
    destruct (inv_get _ _ _ _ Hinv Hm) as (p & Ep & Eg & Hp & Em). rewrite Eg. cbn [bind].
    pose proof (inv_new N zero _ _ _ Hinv) as Hn. destruct (s_new N zero true (w_heap w)) as [h o] eqn:E. destruct Hn as [Hn _].
    pose proof Hinv as (HL & _). pose proof (lookup_lt _ _ _ Ep) as Lj. pose proof (lookup_lt _ _ _ Em) as Lj'.
    destruct (swap_inv N zero h _ _ (length (w_objs w)) j o p [] m Hn) as (h' & o' & p' & Es & I).
    { lia. } { rewrite nth_error_app2, Nat.sub_diag by lia; reflexivity. } { rewrite nth_error_app1 by lia; exact Ep. }
    { rewrite HL, nth_error_app2, Nat.sub_diag by lia; reflexivity. } { rewrite nth_error_app1 by lia; exact Em. }
    rewrite Es. cbn [bind]. unfold add_obj. cbn [bind put w_objs w_heap]. eexists. split; [reflexivity|]. cbn.
    rewrite (upd_last (w_objs w)) in I by reflexivity. rewrite (upd_last vs) in I by exact HL. rewrite !upd_app_l in I by lia. exact I.
  - apply opt_bind_some in Hv. destruct Hv as (l & Hl & E). apply opt_bind_some in E. destruct E as (l' & Ha & E). injection E as <-.
    destruct (inv_get _ _ _ _ Hinv Hl) as (o & Eo & Eg & Ho & El). rewrite Eg. cbn [bind].
    destruct (act_ok w vs i o l a l' Hinv Eo El Ha Hs) as (h' & o' & E1 & H1 & F1). rewrite E1. cbn [bind]. eexists. split; [reflexivity|].
    cbn. eapply inv_put; eassumption.
  - apply opt_bind_some in Hv. destruct Hv as (l & Hl & E). apply opt_bind_some in E. destruct E as (m & Hm & E). injection E as <-.
    destruct (inv_get _ _ _ _ Hinv Hl) as (o & Eo & Eg & Ho & El). destruct (inv_get _ _ _ _ Hinv Hm) as (p & Ep & Eg2 & Hp & Em). rewrite Eg, Eg2. cbn [bind].
    assert (R : result N (s_assign_range N true (w_heap w) o (whole p)) (w_heap w) o m).
    { destruct (Nat.eq_dec i j) as [<-|Hne].
      - assert (p = o) by congruence. assert (m = l) by congruence. subst. apply assign_self_ok. exact Ho.
      - eapply assign_range_ok; [exact Ho|]. apply whole_apart; [exact Hp|]. eapply begins_differ; eassumption. }
    destruct R as (h' & o' & E1 & H1 & F1). rewrite E1. cbn [bind]. eexists. split; [reflexivity|]. cbn. eapply inv_put; eassumption.
  - apply opt_bind_some in Hv. destruct Hv as (l & Hl & E). apply opt_bind_some in E. destruct E as (m & Hm & E). injection E as <-.
    destruct (inv_get _ _ _ _ Hinv Hl) as (o & Eo & Eg & Ho & El). destruct (inv_get _ _ _ _ Hinv Hm) as (p & Ep & Eg2 & Hp & Em). rewrite Eg, Eg2. cbn [bind].
    assert (R : result N (s_assign_range N true (w_heap w) o (whole p)) (w_heap w) o m).
    { destruct (Nat.eq_dec i j) as [<-|Hne].
      - assert (p = o) by congruence. assert (m = l) by congruence. subst. apply assign_self_ok. exact Ho.
      - eapply assign_range_ok; [exact Ho|]. apply whole_apart; [exact Hp|]. eapply begins_differ; eassumption. }
    destruct R as (h' & o' & E1 & H1 & F1). rewrite E1. cbn [bind]. eexists. split; [reflexivity|]. cbn. eapply inv_put; eassumption.
  - apply opt_bind_some in Hv. destruct Hv as (l & Hl & E). apply opt_bind_some in E. destruct E as (m & Hm & E). injection E as <-.
    destruct (inv_get _ _ _ _ Hinv Hl) as (o & Eo & Eg & Ho & El). destruct (inv_get _ _ _ _ Hinv Hm) as (p & Ep & Eg2 & Hp & Em). rewrite Eg, Eg2. cbn [bind].
    destruct (Nat.eqb_spec i j) as [<-|Hne].
    + exists w. split; [reflexivity|]. assert (m = l) by congruence. subst m. rewrite upd_upd_same, upd_nth_self by assumption. exact Hinv.
    + destruct (swap_inv N zero _ _ _ i j o p l m Hinv Hne Eo Ep El Em) as (h' & o' & p' & E1 & I). rewrite E1. cbn [bind]. eexists. split; [reflexivity|]. exact I.
  - apply opt_bind_some in Hv. destruct Hv as (l & Hl & E). injection E as <-.
    destruct (inv_get _ _ _ _ Hinv Hl) as (o & Eo & Eg & Ho & El). rewrite Eg. cbn [bind].
    destruct (inv_destroy _ _ _ _ _ _ _ Hinv Eo El) as (h' & E & I). rewrite E. cbn [bind]. eexists. split; [reflexivity|]. exact I.
Qed.

Lemma run_ok : forall es (w : world V) vs vs', inv (w_heap w) (w_objs w) vs -> vrun zero vs es = Some vs' -> safe_history N zero true w es ->
  exists w', run N zero true w es = Ok w' /\ inv (w_heap w') (w_objs w') vs'.
Proof.
  induction es as [|e es IH]; intros w vs vs' Hinv Hv Hs; cbn [vrun run safe_history] in *.
  - injection Hv as <-. eauto.
  - apply opt_bind_some in Hv. destruct Hv as (vs1 & H1 & H2). destruct Hs as [Hs1 Hs2]. destruct (step_ok w vs e vs1 Hinv H1 Hs1) as (w1 & E & I1).
    rewrite E. cbn [bind]. eapply IH; [exact I1|exact H2|]. apply Hs2. exact E.
Qed.
Lemma inv0 : inv (w_heap (@world0 V)) (w_objs (@world0 V)) [].
Proof. split; [reflexivity|]. split; [intros [|i]; exact I|]. split; [intros [|i]; discriminate|]. intros b (x & Hx). destruct b; discriminate. Qed.

Lemma inv_shows (w : world V) vs : inv (w_heap w) (w_objs w) vs -> shows_all w vs.
Proof.
  intros Hinv. pose proof Hinv as (HL & HO & _). split; [exact HL|]. intros i Hi. destruct (vget vs i) as [l|] eqn:E; cbn.
  - destruct (inv_get _ _ _ _ Hinv E) as (o & Eo & Eg & Ho & El). exists o. split; [exact Eg|]. split; [apply (owns_size _ _ _ _ Ho)|].
    intros k Hk. destruct (nth_error l k) as [v|] eqn:Ek; [|apply nth_error_None in Ek; lia]. exists v. split; [reflexivity|]. eapply owns_read; eassumption.
  - intros o Eg. specialize (HO i). unfold vget in E. unfold get in Eg. destruct (nth_error (w_objs w) i) as [[p|]|]; try discriminate.
    destruct (nth_error vs i) as [[q|]|]; try contradiction. discriminate.
Qed.
Lemma inv_no_leak (w : world V) vs : inv (w_heap w) (w_objs w) vs -> no_leak w.
Proof.
  intros (_ & _ & _ & HK) b blk Hb. destruct (HK b (ex_intro _ blk Hb)) as (i & o & Eo & Hbl). exists i, o. split; [apply get_some; exact Eo|exact Hbl].
Qed.

Lemma history_lemma es vs : vrun zero [] es = Some vs -> safe_history N zero true (@world0 V) es ->
  exists w, run N zero true world0 es = Ok w /\ shows_all w vs /\ no_leak w.
Proof.
  intros H1 H2. destruct (run_ok es world0 [] vs inv0 H1 H2) as (w & E & I). exists w. split; [exact E|]. split; [apply inv_shows|eapply inv_no_leak]; eassumption.
Qed.
Lemma all_destroyed_lemma es vs : vrun zero [] es = Some vs -> safe_history N zero true (@world0 V) es -> Forall (eq None) vs ->
  exists w, run N zero true world0 es = Ok w /\ Forall (eq None) (w_heap w).
Proof.
  intros H1 H2 H3. destruct (run_ok es world0 [] vs inv0 H1 H2) as (w & E & I). exists w. split; [exact E|].
  apply Forall_forall. intros x Hx. destruct x as [blk|]; [|reflexivity]. exfalso. apply In_nth_error in Hx. destruct Hx as (b & Hb).
  destruct I as (_ & HO & _ & HK). destruct (HK b (ex_intro _ blk Hb)) as (i & o & Eo & _). specialize (HO i). rewrite Eo in HO.
  destruct (nth_error vs i) as [[l|]|] eqn:El; try contradiction. apply nth_error_In in El. rewrite Forall_forall in H3. specialize (H3 _ El). discriminate.
Qed.

(** ** Observers *)
Lemma equal_ok veq h b1 b2 blk1 blk2 : nth_error h b1 = Some (Some blk1) -> nth_error h b2 = Some (Some blk2) ->
  forall (l m : list V) i, cells blk1 i l -> cells blk2 i m -> length l = length m ->
  equal_loop veq h b1 b2 i (length l) = Ok (lists_equal veq l m).
Proof.
  intros E1 E2. induction l as [|x l IH]; intros [|y m] i C1 C2 Hl; try discriminate; [reflexivity|]. cbn [equal_loop length lists_equal].
  rewrite (read_ok h b1 i blk1 x E1) by (rewrite <- (Nat.add_0_r i); apply C1; reflexivity). cbn [bind].
  rewrite (read_ok h b2 i blk2 y E2) by (rewrite <- (Nat.add_0_r i); apply C2; reflexivity). cbn [bind].
  destruct (veq x y); [|reflexivity]. cbn [andb]. apply IH; [eapply cells_tl; exact C1|eapply cells_tl; exact C2|cbn in Hl; congruence].
Qed.
Lemma less_ok vlt h b1 b2 blk1 blk2 : nth_error h b1 = Some (Some blk1) -> nth_error h b2 = Some (Some blk2) ->
  forall (l m : list V) i, cells blk1 i l -> cells blk2 i m -> less_loop vlt h b1 b2 i (length l) (length m) = Ok (lists_less vlt l m).
Proof.
  intros E1 E2. induction l as [|x l IH]; intros [|y m] i C1 C2; try reflexivity. cbn [less_loop length lists_less].
  rewrite (read_ok h b1 i blk1 x E1) by (rewrite <- (Nat.add_0_r i); apply C1; reflexivity). cbn [bind].
  rewrite (read_ok h b2 i blk2 y E2) by (rewrite <- (Nat.add_0_r i); apply C2; reflexivity). cbn [bind].
  destruct (vlt x y); [reflexivity|]. destruct (vlt y x); [reflexivity|]. apply IH; [eapply cells_tl; exact C1|eapply cells_tl; exact C2].
Qed.
Lemma lists_equal_length veq : forall l m : list V, length l <> length m -> lists_equal veq l m = false.
Proof. induction l as [|x l IH]; intros [|y m] H; cbn in *; try congruence. rewrite IH by congruence. apply andb_false_r. Qed.

Lemma observers_lemma es vs : vrun zero [] es = Some vs -> safe_history N zero true (@world0 V) es ->
  exists w, run N zero true world0 es = Ok w /\
  (forall i l, vget vs i = Some l -> exists o, get w i = Ok o /\
     (forall k, s_at (w_heap w) o k = match nth_error l k with Some v => Ok v | None => Throw out_of_range end) /\
     (forall v l', l = v :: l' -> s_front (w_heap w) o = Ok v) /\
     (forall v l', l = l' ++ [v] -> s_back (w_heap w) o = Ok v) /\
     (s_empty o = true <-> l = []) /\
     (forall j m, vget vs j = Some m -> exists p, get w j = Ok p /\
        (forall veq, s_equal veq (w_heap w) o p = Ok (lists_equal veq l m)) /\
        (forall vlt, s_less vlt (w_heap w) o p = Ok (lists_less vlt l m)))).
Proof.
  intros H1 H2. destruct (run_ok es world0 [] vs inv0 H1 H2) as (w & E & I). exists w. split; [exact E|]. intros i l Hl.
  destruct (inv_get _ _ _ _ I Hl) as (o & Eo & Eg & Ho & El). exists o. split; [exact Eg|]. pose proof (owns_size _ _ _ _ Ho) as Es. split; [|split; [|split; [|split]]].
  - intros k. unfold s_at. rewrite Es. destruct (Nat.leb_spec (length l) k) as [H|H].
    + rewrite (proj2 (nth_error_None l k)) by assumption. reflexivity.
    + destruct (nth_error l k) as [v|] eqn:Ek; [|apply nth_error_None in Ek; lia]. eapply owns_read; eassumption.
  - intros v l' ->. unfold s_front. eapply owns_read; [exact Ho|reflexivity].
  - intros v l' ->. unfold s_back. rewrite Es, app_length, Nat.add_1_r. eapply owns_read; [exact Ho|]. rewrite nth_error_app2, Nat.sub_diag by lia. reflexivity.
  - unfold s_empty. rewrite Es, Nat.eqb_eq. destruct l; cbn; split; congruence.
  - intros j m Hm. destruct (inv_get _ _ _ _ I Hm) as (p & Ep & Eg2 & Hp & Em). exists p. split; [exact Eg2|]. pose proof (owns_size _ _ _ _ Hp) as Ep'.
    destruct (owns_block _ _ _ _ Ho) as (blk1 & E1). destruct (owns_block _ _ _ _ Hp) as (blk2 & E2).
    destruct (owns_cells _ _ _ _ _ Ho E1) as [C1 _]. destruct (owns_cells _ _ _ _ _ Hp E2) as [C2 _]. split.
    + intros veq. unfold s_equal. rewrite Es, Ep'. destruct (Nat.eqb_spec (length l) (length m)) as [Hlm|Hlm].
      * eapply equal_ok; eassumption.
      * rewrite lists_equal_length by assumption. reflexivity.
    + intros vlt. unfold s_less. rewrite Es, Ep'. eapply less_ok; eassumption.
Qed.
End P.
