From Coq Require Import List ZArith Bool Lia Permutation Sorted.
From Verif Require Import Prelude PreludeFacts Strides_Model Container_Model Manip_Model Sort_Model Sort_Spec Sort5_Proofs Hist_Model Hist_Spec.
Import ListNotations.
Open Scope Z_scope.

(** Strict weak orders *)
Section Swo.
Context {V : Type} (lt : V -> V -> bool) (U : list V) (Sw : strict_weak_order lt U).
Lemma nlt_trans x y z : In x U -> In y U -> In z U -> lt y x = false -> lt z y = false -> lt z x = false.
Proof.
  destruct Sw as (Ir & Tr & In_). intros Ix Iy Iz H1 H2. destruct (lt z x) eqn:E; [|reflexivity]. exfalso.
  destruct (lt x y) eqn:E1.
  - rewrite (Tr z x y Iz Ix Iy E E1) in H2. discriminate.
  - destruct (lt y z) eqn:E2.
    + rewrite (Tr y z x Iy Iz Ix E2 E) in H1. discriminate.
    + destruct (In_ x y z Ix Iy Iz E1 H1 E2 H2) as [_ H]. rewrite H in E. discriminate.
Qed.
Lemma lt_nlt x y : In x U -> In y U -> lt x y = true -> lt y x = false.
Proof.
  destruct Sw as (Ir & Tr & _). intros Ix Iy H. destruct (lt y x) eqn:E; [|reflexivity].
  rewrite <- (Ir x Ix). symmetry. exact (Tr x y x Ix Iy Ix H E).
Qed.
End Swo.

Lemma sorted_nth {V} (lt : V -> V -> bool) : forall l i j x y, sorted lt l -> (i < j)%nat -> nth_error l i = Some x -> nth_error l j = Some y -> lt y x = false.
Proof.
  induction l as [|z l IH]; intros i j x y Hs Hij Hx Hy; [destruct i; discriminate|]. inversion Hs as [|? ? Hs' Hz]; subst.
  destruct j as [|j]; [lia|]. destruct i as [|i].
  - injection Hx as <-. rewrite Forall_forall in Hz. apply Hz. exact (nth_error_In l j Hy).
  - exact (IH i j x y Hs' ltac:(lia) Hx Hy).
Qed.

(** Counting *)
Section Count.
Context {V W : Type} (add : W -> W -> W) (inb : nat -> V -> bool).
(** [count'] is [count] with the weights of the items added to their bins. *)
Definition adds (pairs : list (V * W)) (count count' : list W) : Prop :=
  length count' = length count /\
  forall b c, nth_error count b = Some c ->
    nth_error count' b = Some (fold_left add (map snd (filter (fun p => inb b (fst p)) pairs)) c).
Lemma adds_nil count : adds [] count count.
Proof. split; [reflexivity|]. intros b c H. exact H. Qed.
Lemma adds_trans p1 p2 c1 c2 c3 : adds p1 c1 c2 -> adds p2 c2 c3 -> adds (p1 ++ p2) c1 c3.
Proof.
  intros [L1 H1] [L2 H2]. split; [congruence|]. intros b c Hb. rewrite filter_app, map_app, fold_left_app. apply H2, H1, Hb.
Qed.
Lemma adds_none x w count : (forall b, (b < length count)%nat -> inb b x = false) -> adds [(x, w)] count count.
Proof.
  intros H. split; [reflexivity|]. intros b c Hb. cbn [filter fst]. rewrite H; [exact Hb|]. apply nth_error_Some. rewrite Hb. discriminate.
Qed.
Lemma adds_one x w count b : (b < length count)%nat -> inb b x = true -> (forall b', (b' < length count)%nat -> inb b' x = true -> b' = b) ->
  exists count', count_add add (Z.of_nat b) w count = Ok count' /\ adds [(x, w)] count count'.
Proof.
  intros Hb Hin Hu. unfold count_add. destruct (nth_error count b) as [c|] eqn:Ec; [|apply nth_error_None in Ec; lia].
  rewrite (rdz_ok count (Z.of_nat b) c) by (try lia; rewrite Nat2Z.id; exact Ec). cbn [bind].
  rewrite wrz_ok by (rewrite ?Nat2Z.id; lia). rewrite Nat2Z.id. eexists. split; [reflexivity|]. split; [apply upd_length|].
  intros b' c' Hb'. cbn [filter fst]. destruct (Nat.eq_dec b' b) as [->|Hn].
  - rewrite Hin. cbn. rewrite Ec in Hb'. injection Hb' as <-. apply nth_error_upd_same. exact Hb.
  - assert (Hl : (b' < length count)%nat) by (apply nth_error_Some; rewrite Hb'; discriminate).
    destruct (inb b' x) eqn:E; [elim Hn; apply Hu; assumption|]. cbn. rewrite nth_error_upd_other by congruence. exact Hb'.
Qed.
End Count.

Lemma nth_perm {A} (l : list A) idx ws : Forall2 (fun i w => nth_error l (Z.to_nat i) = Some w) idx ws -> Permutation idx (iota (length l)) -> Permutation ws l.
Proof.
  intros F P. destruct l as [|d l'] eqn:El.
  { cbn in P. apply Permutation_sym, Permutation_nil in P. subst idx. inversion F. constructor. }
  rewrite <- El in *. clear El l'.
  assert (E : ws = map (fun i => nth (Z.to_nat i) l d) idx).
  { clear P. induction F as [|i w idx ws H F IH]; [reflexivity|]. cbn. rewrite (nth_error_nth _ _ _ H). f_equal. exact IH. }
  rewrite E, P. unfold iota. rewrite map_map.
  rewrite (map_ext _ (fun i => nth i l d)) by (intros; rewrite Nat2Z.id; reflexivity).
  assert (H : forall (m : list A), map (fun i => nth i m d) (seq 0 (length m)) = m).
  { induction m as [|x m IH]; [reflexivity|]. cbn [length seq map nth]. f_equal. rewrite <- seq_shift, map_map. exact IH. }
  rewrite H. reflexivity.
Qed.

Section Bins.
Context {V : Type} (lt : V -> V -> bool) (edges : list V) (n : nat) (U : list V).
Hypothesis Sw : strict_weak_order lt U.
Hypothesis He : incl edges U.
Hypothesis Hs : sorted lt edges.
Hypothesis Hn : length edges = S n.

Lemma edges_le i j x y : (i <= j)%nat -> nth_error edges i = Some x -> nth_error edges j = Some y -> lt y x = false.
Proof.
  intros H Hx Hy. destruct (Nat.eq_dec i j) as [->|].
  - rewrite Hx in Hy. injection Hy as ->. destruct Sw as (Ir & _). apply Ir, He. exact (nth_error_In _ _ Hx).
  - exact (sorted_nth lt edges i j x y Hs ltac:(lia) Hx Hy).
Qed.
Lemma edge i : (i <= n)%nat -> exists e, nth_error edges i = Some e /\ In e U.
Proof.
  intros Hi. destruct (nth_error edges i) as [e|] eqn:E; [|apply nth_error_None in E; lia]. exists e. split; [reflexivity|].
  apply He. exact (nth_error_In _ _ E).
Qed.
Lemma in_bin_lo b x lo : nth_error edges b = Some lo -> in_bin lt edges b x = true -> lt x lo = false.
Proof.
  intros E. unfold in_bin. rewrite E. destruct (nth_error edges (S b)); [|discriminate]. rewrite andb_true_iff, negb_true_iff. tauto.
Qed.
Lemma in_bin_unique b b' x : In x U -> in_bin lt edges b x = true -> in_bin lt edges b' x = true -> (b < b')%nat -> False.
Proof.
  intros Ix Hb Hb' Hl. unfold in_bin in Hb. destruct (nth_error edges b) as [lo|] eqn:E0; [|discriminate].
  destruct (nth_error edges (S b)) as [hi|] eqn:E1; [|discriminate].
  assert (Hb'n : (S b' <= n)%nat).
  { unfold in_bin in Hb'. destruct (nth_error edges b'); [|discriminate]. destruct (nth_error edges (S b')) eqn:E; [|discriminate].
    assert (S b' < length edges)%nat by (apply nth_error_Some; rewrite E; discriminate). lia. }
  destruct (edge b' ltac:(lia)) as (lo' & E' & Il').
  pose proof (in_bin_lo b' x lo' E' Hb') as Hx. apply andb_true_iff in Hb. destruct Hb as [_ Hb]. apply orb_true_iff in Hb. destruct Hb as [Hb|Hb].
  - pose proof (edges_le (S b) b' hi lo' ltac:(lia) E1 E') as Hh.
    assert (lt x hi = false); [|congruence].
    apply (nlt_trans lt U Sw hi lo' x); try assumption. apply He. exact (nth_error_In _ _ E1).
  - apply andb_true_iff in Hb. destruct Hb as [Hb _]. apply Nat.eqb_eq in Hb. lia.
Qed.
Lemma in_bin_unique' b b' x : In x U -> in_bin lt edges b x = true -> in_bin lt edges b' x = true -> b' = b.
Proof.
  intros Ix H H'. destruct (lt_eq_lt_dec b b') as [[Hl|He']|Hl]; [|congruence|]; exfalso.
  - exact (in_bin_unique b b' x Ix H H' Hl).
  - exact (in_bin_unique b' b x Ix H' H Hl).
Qed.
Lemma below b x e : In x U -> nth_error edges 0 = Some e -> lt x e = true -> in_bin lt edges b x = false.
Proof.
  intros Ix E0 Hx. destruct (in_bin lt edges b x) eqn:E; [|reflexivity]. exfalso.
  assert (b <= n)%nat. { unfold in_bin in E. destruct (nth_error edges b) eqn:E1; [|discriminate]. assert (b < length edges)%nat by (apply nth_error_Some; rewrite E1; discriminate). lia. }
  destruct (edge b ltac:(lia)) as (lo & El & Il). pose proof (in_bin_lo b x lo El E) as H'.
  pose proof (edges_le 0 b e lo ltac:(lia) E0 El) as Hh.
  rewrite (nlt_trans lt U Sw e lo x) in Hx; try assumption; [discriminate|]. apply He. exact (nth_error_In _ _ E0).
Qed.
Lemma above b x e : In x U -> nth_error edges n = Some e -> lt e x = true -> in_bin lt edges b x = false.
Proof.
  intros Ix E0 Hx. unfold in_bin. destruct (nth_error edges b) as [lo|] eqn:El; [|reflexivity].
  destruct (nth_error edges (S b)) as [hi|] eqn:Eh; [|reflexivity].
  assert (Sb : (S b < length edges)%nat) by (apply nth_error_Some; rewrite Eh; discriminate).
  pose proof (edges_le (S b) n hi e ltac:(lia) Eh E0) as Hh.
  assert (Ie : In e U) by (apply He; exact (nth_error_In _ _ E0)). assert (Ih : In hi U) by (apply He; exact (nth_error_In _ _ Eh)).
  pose proof (lt_nlt lt U Sw e x Ie Ix Hx) as Hx'.
  assert (A1 : lt x hi = false) by (apply (nlt_trans lt U Sw hi e x); assumption).
  rewrite A1. cbn [orb]. destruct (Nat.eqb_spec (S (S b)) (length edges)) as [Hb|]; [|apply andb_false_r].
  assert (S b = n) by lia. subst n. rewrite Eh in E0. injection E0 as ->. rewrite Hx. apply andb_false_r.
Qed.
End Bins.

Section Sorted.
Context {A : arith} (T : vtype A) {W : Type} (zero : W) (add : W -> W -> W).
Notation lt := (v_lt T).
Context (edges data : list (val T)) (weights : list W) (n : nat).
Hypothesis Sw : strict_weak_order lt (data ++ edges).
Hypothesis Hs : sorted lt edges.
Hypothesis Hn : length edges = S n.
Hypothesis H1 : (1 <= n)%nat.
Let U := data ++ edges.
Let He : incl edges U. Proof. intros x Hx. apply in_or_app. right. exact Hx. Qed.

Lemma advance_ok : forall fuel ibin item last lo, (ibin < n)%nat -> (n <= ibin + fuel)%nat -> In item U ->
  nth_error edges n = Some last -> lt last item = false -> nth_error edges ibin = Some lo -> lt item lo = false ->
  exists b, advance T fuel edges n item ibin = Ok b /\ (b < n)%nat /\ in_bin lt edges b item = true.
Proof.
  induction fuel as [|fuel IH]; intros ibin item last lo Hi Hf Ii El Hl Elo Hlo; [lia|].
  cbn [advance]. destruct (edge edges n U He Hn (ibin + 1)%nat ltac:(lia)) as (e & Ee & Ie). rewrite (rd_ok _ _ _ Ee). cbn [bind].
  assert (B : in_bin lt edges ibin item = lt item e || ((S (S ibin) =? length edges)%nat && negb (lt e item))).
  { unfold in_bin. replace (S ibin) with (ibin + 1)%nat by lia. rewrite Elo, Ee, Hlo. reflexivity. }
  destruct (lt item e) eqn:E1; cbn [negb andb].
  - exists ibin. split; [reflexivity|]. split; [exact Hi|]. rewrite B. reflexivity.
  - destruct (Nat.ltb_spec ibin (n - 1)) as [Hlt|Hge].
    + exact (IH (ibin + 1)%nat item last e ltac:(lia) ltac:(lia) Ii El Hl Ee E1).
    + exists ibin. split; [reflexivity|]. split; [exact Hi|]. rewrite B. assert (ibin + 1 = n)%nat by lia. 
      assert (E2 : (S (S ibin) =? length edges)%nat = true) by (apply Nat.eqb_eq; lia). rewrite E2.
      replace (ibin + 1)%nat with n in Ee by lia. rewrite El in Ee. injection Ee as ->. rewrite Hl. reflexivity.
Qed.

Lemma sorted_loop_ok : forall sorter pairs ibin count,
  Forall2 (fun i p => nth_error data (Z.to_nat i) = Some (fst p) /\ nth_error weights (Z.to_nat i) = Some (snd p) /\ 0 <= i) sorter pairs ->
  sorted lt (map fst pairs) -> length count = n -> (ibin < n)%nat ->
  (ibin = 0%nat \/ exists lo, nth_error edges ibin = Some lo /\ Forall (fun x => lt x lo = false) (map fst pairs)) ->
  exists count', sorted_loop T add edges n data weights sorter ibin count = Ok count' /\ adds add (in_bin lt edges) pairs count count'.
Proof.
  induction sorter as [|idx sorter IH]; intros pairs ibin count F Hp Hc Hi Hlo.
  { destruct pairs; [|inversion F]. exists count. split; [reflexivity|apply adds_nil]. }
  destruct pairs as [|[item w] pairs']; [inversion F|].
  assert (F0 : (nth_error data (Z.to_nat idx) = Some item /\ nth_error weights (Z.to_nat idx) = Some w /\ 0 <= idx) /\
    Forall2 (fun i p => nth_error data (Z.to_nat i) = Some (fst p) /\ nth_error weights (Z.to_nat i) = Some (snd p) /\ 0 <= i) sorter pairs')
    by (inversion F; split; assumption).
  destruct F0 as [(Ed & Ew & Hidx) F']. cbn [fst snd] in *. cbn [sorted_loop map fst] in *. rewrite (rdz_ok data idx item) by assumption. cbn [bind].
  assert (Ii : In item U) by (apply in_or_app; left; exact (nth_error_In _ _ Ed)).
  destruct (edge edges n U He Hn 0 ltac:(lia)) as (e0 & E0 & I0). rewrite (rd_ok _ _ _ E0). cbn [bind].
  pose proof (StronglySorted_inv Hp) as [Hp' Hf].
  assert (Pin : forall x, In x (map fst pairs') -> In x U).
  { clear - F' . intros x Hx. apply in_or_app. left. apply in_map_iff in Hx. destruct Hx as (q & <- & Hq).
    induction F' as [|? ? ? ? (Ha & _) F IHF]; [destruct Hq|]. destruct Hq as [->|Hq]; [exact (nth_error_In _ _ Ha)|auto]. }
  destruct (lt item e0) eqn:E1.
  { destruct (IH pairs' ibin count F' Hp' Hc Hi) as (count' & E & Ha).
    { destruct Hlo as [->|(lo & El & Fl)]; [left; reflexivity|right]. exists lo. split; [exact El|]. inversion Fl; assumption. }
    exists count'. split; [exact E|]. apply (adds_trans add (in_bin lt edges) [(item, w)] pairs' count count count'); [|exact Ha].
    apply adds_none. intros b _. apply (below lt edges n U Sw He Hs Hn b item e0 Ii E0 E1). }
  destruct (edge edges n U He Hn n ltac:(lia)) as (last & El & Il). rewrite (rd_ok _ _ _ El). cbn [bind].
  destruct (lt last item) eqn:E2.
  { exists count. split; [reflexivity|]. 
    assert (Hall : forall q, In q ((item, w) :: pairs') -> forall b, in_bin lt edges b (fst q) = false).
    { intros q Hq b. destruct Hq as [<-|Hq]; cbn [fst].
      - exact (above lt edges n U Sw He Hs Hn b item last Ii El E2).
      - assert (Iq : In (fst q) (map fst pairs')) by (apply in_map; exact Hq).
        apply (above lt edges n U Sw He Hs Hn b (fst q) last (Pin _ Iq) El).
        rewrite Forall_forall in Hf. pose proof (Hf _ Iq) as Hq'.
        destruct (lt last (fst q)) eqn:E3; [reflexivity|]. 
        rewrite (nlt_trans lt U Sw item (fst q) last) in E2; [discriminate|..]; try assumption. apply Pin. exact Iq. }
    split; [reflexivity|]. intros b c Hb. replace (filter _ _) with (@nil (val T * W)); [exact Hb|].
    symmetry. clear - Hall. set (l := (item, w) :: pairs') in *. clearbody l. induction l as [|q l IHl]; [reflexivity|]. cbn [filter].
    rewrite (Hall q (or_introl eq_refl)). apply IHl. intros q' Hq'. apply Hall. right. exact Hq'. }
  assert (Lo : exists lo, nth_error edges ibin = Some lo /\ lt item lo = false).
  { destruct Hlo as [->|(lo & Elo & Fl)]; [exists e0; split; assumption|]. exists lo. split; [exact Elo|]. inversion Fl; assumption. }
  destruct Lo as (lo & Elo & Hlo').
  destruct (advance_ok n ibin item last lo Hi ltac:(lia) Ii El E2 Elo Hlo') as (b & Eb & Hb & Hin). rewrite Eb. cbn [bind].
  rewrite (rdz_ok weights idx w) by assumption. cbn [bind].
  destruct (adds_one add (in_bin lt edges) item w count b ltac:(lia) Hin) as (c1 & Ec & Ha).
  { intros b' _ Hb'. exact (in_bin_unique' lt edges n U Sw He Hs Hn b b' item Ii Hin Hb'). }
  rewrite Ec. cbn [bind].
  destruct (IH pairs' b c1 F' Hp' ltac:(destruct Ha; lia) Hb) as (c2 & E' & Ha').
  { right. destruct (edge edges n U He Hn b ltac:(lia)) as (lb & Elb & Ilb). exists lb. split; [exact Elb|].
    pose proof (in_bin_lo lt edges b item lb Elb Hin) as Hlb. rewrite Forall_forall in Hf |- *. intros x Hx.
    apply (nlt_trans lt U Sw lb item x); try assumption; [apply Pin; exact Hx|apply Hf; exact Hx]. }
  exists c2. split; [exact E'|]. exact (adds_trans add (in_bin lt edges) [(item, w)] pairs' count c1 c2 Ha Ha').
Qed.
End Sorted.
