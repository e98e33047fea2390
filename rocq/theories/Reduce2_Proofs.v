(** Lazy reduction: aggregation. *)
From Coq Require Import List ZArith Lia Bool Sorted.
From Verif Require Import Prelude PreludeFacts Strides_Model Strides_Spec Strides_Proofs Stepper_Model Stepper_Spec Stepper_Proofs
  Reduce_Model Reduce_Spec Reduce_Proofs.
Import ListNotations.
Open Scope Z_scope.

Lemma Forall2_nth_error_l {A B} (P : A -> B -> Prop) l1 l2 n a : Forall2 P l1 l2 -> nth_error l1 n = Some a ->
  exists b, nth_error l2 n = Some b /\ P a b.
Proof.
  intros H. revert n. induction H; intros [|n] E; cbn in *; try discriminate.
  - injection E as ->. eauto.
  - apply IHForall2. assumption.
Qed.

Section Agg.
Context {T R S : Type} (f : rfun T R) (dflt : R) (esh fsh : list Z) (sub : stepper_ops S) (deref : S -> res T)
  (l : layout) (at_ : list Z -> S -> Prop) (end_ : S -> Prop) (ev : list Z -> T).
Hypothesis HL : laws sub l fsh at_ end_.
Hypothesis HD : forall ix st, in_bounds fsh ix -> at_ ix st -> deref st = Ok (ev ix).

Lemma in_bounds_mid : forall sh pre x y post d, nth_error sh (length pre) = Some d -> 0 <= y < d ->
  in_bounds sh (pre ++ x :: post) -> in_bounds sh (pre ++ y :: post).
Proof.
  induction sh; intros pre x y post d H Hy Hb; [destruct pre; discriminate|].
  destruct pre; cbn in *.
  - injection H as ->. inversion Hb; subst. constructor; auto.
  - inversion Hb; subst. constructor; [auto|]. eapply IHsh; eauto.
Qed.

Section One.
Context (pre post : list Z) (d : Z).
Hypothesis Hd : nth_error fsh (length pre) = Some d.
Hypothesis Hb : in_bounds fsh (pre ++ 0 :: post).

Lemma mid_bounds x : 0 <= x < d -> in_bounds fsh (pre ++ x :: post).
Proof. intros H. eapply in_bounds_mid; eauto. Qed.

Lemma loop_ok (g : Z -> R -> R) (body : nat -> R * S -> res (R * S)) :
  (forall k v st x, 0 <= x -> x + 1 < d -> at_ (pre ++ x :: post) st ->
    exists st', body k (v, st) = Ok (g (x + 1) v, st') /\ at_ (pre ++ (x + 1) :: post) st') ->
  forall n k v st, (1 <= k)%nat -> Z.of_nat (k + n) <= d -> at_ (pre ++ Z.of_nat k - 1 :: post) st ->
  exists st', for_up body k n (v, st) = Ok (fold_left (fun v i => g (Z.of_nat i) v) (seq k n) v, st') /\
    at_ (pre ++ Z.of_nat (k + n) - 1 :: post) st'.
Proof.
  intros Hbody. induction n; intros k v st Hk Hn Hat.
  - cbn. exists st. rewrite Nat.add_0_r. auto.
  - cbn [for_up seq fold_left].
    destruct (Hbody k v st (Z.of_nat k - 1)) as (st1 & E1 & Hat1); [lia|lia|assumption|].
    rewrite E1. cbn [bind]. replace (Z.of_nat k - 1 + 1) with (Z.of_nat k) in * by lia.
    destruct (IHn (Datatypes.S k) (g (Z.of_nat k) v) st1) as (st2 & E2 & Hat2).
    + lia.
    + rewrite <- Hn. lia.
    + replace (Z.of_nat (Datatypes.S k) - 1) with (Z.of_nat k) by lia. assumption.
    + exists st2. split; [exact E2|]. replace (k + Datatypes.S n)%nat with (Datatypes.S k + n)%nat by lia. assumption.
Qed.

Lemma rd_dim : nth (length pre) esh 0 = d -> (length pre < length esh)%nat -> rd esh (length pre) = Ok d.
Proof. intros <- H. apply rd_nth. assumption. Qed.

Hypothesis He : nth (length pre) esh 0 = d.
Hypothesis Hlen : (length pre < length esh)%nat.

Lemma d_pos : 0 < d.
Proof.
  destruct (Forall2_nth_error_l _ _ _ _ _ Hb Hd) as (y & Hy & H). lia.
Qed.

Lemma inner_agg_ok st : at_ (pre ++ 0 :: post) st ->
  exists st', inner_agg f esh sub deref (length pre) st =
      Ok (fold_left (rf_reduce f) (map (fun i => ev (pre ++ Z.of_nat i :: post)) (seq 0 (Z.to_nat d))) (rf_init f), st') /\
    at_ (pre ++ 0 :: post) st'.
Proof.
  intros Hat. pose proof d_pos as Hp. unfold inner_agg. rewrite (rd_dim He Hlen). cbn [bind].
  destruct (Z.eqb_spec d 0); [lia|]. rewrite (HD _ _ Hb Hat). cbn [bind].
  destruct (loop_ok (fun x v => rf_reduce f v (ev (pre ++ x :: post)))
    (fun (_ : nat) '(v, st) => let* st := s_step sub (length pre) 1 st in let* x := deref st in Ok (rf_reduce f v x, st)))
    with (n := Z.to_nat (d - 1)) (k := 1%nat) (v := rf_reduce f (rf_init f) (ev (pre ++ 0 :: post))) (st := st)
    as (st1 & E1 & Hat1).
  - intros k v s x Hx Hlt Hs. destruct (l_step _ _ _ _ _ HL pre x post 1 d s) as (s' & Es & Hs'); auto; try lia.
    { apply mid_bounds. lia. }
    rewrite Es. cbn [bind]. rewrite (HD (pre ++ (x + 1) :: post)) by (auto; apply mid_bounds; lia). cbn [bind]. eauto.
  - lia.
  - lia.
  - exact Hat.
  - rewrite E1. cbn [bind].
    replace (Z.of_nat (1 + Z.to_nat (d - 1)) - 1) with (d - 1) in Hat1 by lia.
    destruct (l_reset _ _ _ _ _ HL pre (d - 1) post d st1) as (st2 & E2 & Hat2); auto.
    { apply mid_bounds. lia. }
    rewrite E2. cbn [bind]. exists st2. split; [|assumption]. do 2 f_equal.
    replace (Z.to_nat d) with (Datatypes.S (Z.to_nat (d - 1))) by lia. cbn [seq map fold_left]. change (Z.of_nat 0) with 0.
    generalize (rf_reduce f (rf_init f) (ev (pre ++ 0 :: post))). generalize (seq 1 (Z.to_nat (d - 1))).
    induction l0; intros v; cbn; auto.
Qed.

Lemma outer_agg_ok (inner : S -> res (R * S)) (g : Z -> R) st :
  (forall x s, 0 <= x < d -> at_ (pre ++ x :: post) s ->
    exists s', inner s = Ok (g x, s') /\ at_ (pre ++ x :: post) s') ->
  at_ (pre ++ 0 :: post) st ->
  exists st', outer_agg f esh sub inner (length pre) st =
      Ok (fold_left (rf_merge f) (map (fun i => g (Z.of_nat i)) (seq 1 (Z.to_nat (d - 1)))) (g 0), st') /\
    at_ (pre ++ 0 :: post) st'.
Proof.
  intros Hin Hat. pose proof d_pos as Hp. unfold outer_agg. rewrite (rd_dim He Hlen). cbn [bind].
  destruct (Z.eqb_spec d 0); [lia|].
  destruct (Hin 0 st) as (st0 & E0 & Hat0); [lia|exact Hat|]. rewrite E0. cbn [bind].
  destruct (loop_ok (fun x v => rf_merge f v (g x))
    (fun (_ : nat) '(v, st) => let* st := s_step sub (length pre) 1 st in let* '(w, st) := inner st in Ok (rf_merge f v w, st)))
    with (n := Z.to_nat (d - 1)) (k := 1%nat) (v := g 0) (st := st0) as (st1 & E1 & Hat1).
  - intros k v s x Hx Hlt Hs. destruct (l_step _ _ _ _ _ HL pre x post 1 d s) as (s' & Es & Hs'); auto; try lia.
    { apply mid_bounds. lia. }
    rewrite Es. cbn [bind]. destruct (Hin (x + 1) s') as (s2 & E2 & H2); [lia|assumption|].
    rewrite E2. cbn [bind]. eauto.
  - lia.
  - lia.
  - exact Hat0.
  - rewrite E1. cbn [bind].
    replace (Z.of_nat (1 + Z.to_nat (d - 1)) - 1) with (d - 1) in Hat1 by lia.
    destruct (l_reset _ _ _ _ _ HL pre (d - 1) post d st1) as (st2 & E2 & Hat2); auto.
    { apply mid_bounds. lia. }
    rewrite E2. cbn [bind]. exists st2. split; [|assumption]. do 2 f_equal.
    generalize (g 0). generalize (seq 1 (Z.to_nat (d - 1))). induction l0; intros v; cbn; auto.
Qed.
End One.

(** The value of the nested loops. *)
Fixpoint aggv (axes : list Z) (jx : list Z) : R :=
  match axes with
  | [] => rf_init f
  | a :: rest =>
      let n := Z.to_nat (nth (Z.to_nat a) fsh 0) in
      match rest with
      | [] => fold_left (rf_reduce f) (map (fun i => ev (upd jx (Z.to_nat a) (Z.of_nat i))) (seq 0 n)) (rf_init f)
      | _ => fold_left (rf_merge f) (map (fun i => aggv rest (upd jx (Z.to_nat a) (Z.of_nat i))) (seq 1 (n - 1)))
               (aggv rest (upd jx (Z.to_nat a) 0))
      end
  end.

Lemma aggv_cons2 a b axes jx : aggv (a :: b :: axes) jx =
  fold_left (rf_merge f) (map (fun i => aggv (b :: axes) (upd jx (Z.to_nat a) (Z.of_nat i)))
    (seq 1 (Z.to_nat (nth (Z.to_nat a) fsh 0) - 1))) (aggv (b :: axes) (upd jx (Z.to_nat a) 0)).
Proof. reflexivity. Qed.

Lemma split_at (jx : list Z) a : (a < length jx)%nat -> exists pre post, jx = pre ++ nth a jx 0 :: post /\ length pre = a.
Proof.
  intros H. exists (firstn a jx), (skipn (Datatypes.S a) jx). split.
  - rewrite <- (firstn_skipn a jx) at 1. f_equal. apply skipn_cons_nth. apply nth_error_nth'. assumption.
  - rewrite firstn_length. lia.
Qed.

Hypothesis Hsame : length esh = length fsh.

Definition zero_on (axes : list Z) (jx : list Z) : Prop := forall a, In a axes -> nth (Z.to_nat a) jx 0 = 0.

Lemma zero_on_upd axes a jx v : zero_on axes jx -> (forall b, In b axes -> a < b) -> 0 <= a -> zero_on axes (upd jx (Z.to_nat a) v).
Proof.
  intros H1 H2 H3 b Hb. rewrite nth_upd_other; [apply H1; assumption|]. specialize (H2 b Hb). lia.
Qed.

Lemma agg_ok : forall axes jx st, axes <> [] -> valid_axes (length fsh) axes ->
  (forall a, In a axes -> nth (Z.to_nat a) esh 0 = nth (Z.to_nat a) fsh 0) ->
  in_bounds fsh jx -> zero_on axes jx -> at_ jx st ->
  exists st', agg f esh sub deref axes st = Ok (aggv axes jx, st') /\ at_ jx st'.
Proof.
  induction axes as [|a axes IH]; intros jx st Hne [HS HF] He Hb Hz Hat; [congruence|].
  inversion HS as [|? ? HS' HA]; subst. inversion HF as [|? ? Ha HF']; subst.
  pose proof (in_bounds_length _ _ Hb) as HLen.
  destruct (split_at jx (Z.to_nat a)) as (pre & post & Ejx & Hpre); [lia|].
  rewrite (Hz a (or_introl eq_refl)) in Ejx.
  assert (Hd : nth_error fsh (length pre) = Some (nth (Z.to_nat a) fsh 0)) by (rewrite Hpre; apply nth_error_nth'; lia).
  assert (Heq : nth (length pre) esh 0 = nth (Z.to_nat a) fsh 0) by (rewrite Hpre; apply He; left; reflexivity).
  assert (Hlt : (length pre < length esh)%nat) by lia.
  destruct axes as [|b axes].
  - cbn [agg aggv]. rewrite Ejx in Hb, Hat.
    destruct (inner_agg_ok pre post _ Hd Hb Heq Hlt st Hat) as (st' & E & Hat').
    exists st'. rewrite Hpre in E. rewrite E, Ejx. split; [|assumption]. do 2 f_equal. f_equal. apply map_ext. intros i.
    rewrite <- Hpre, upd_mid. reflexivity.
  - assert (Hax : forall c, In c (b :: axes) -> a < c) by (rewrite Forall_forall in HA; auto).
    change (agg f esh sub deref (a :: b :: axes) st) with (outer_agg f esh sub (agg f esh sub deref (b :: axes)) (Z.to_nat a) st).
    rewrite Ejx in Hb, Hat.
    destruct (outer_agg_ok pre post _ Hd Hb Heq Hlt (agg f esh sub deref (b :: axes))
      (fun x => aggv (b :: axes) (pre ++ x :: post)) st) as (st' & E & Hat'); [|assumption|].
    + intros x s Hx Hs. apply IH.
      * discriminate.
      * split; assumption.
      * intros c Hc. apply He. right. assumption.
      * eapply in_bounds_mid; eauto.
      * rewrite <- (upd_mid pre 0 post x), <- Ejx, Hpre. apply zero_on_upd; [|assumption|lia].
        intros c Hc. apply Hz. right. assumption.
      * assumption.
    + exists st'. split; [|rewrite Ejx; assumption]. rewrite Hpre in E. rewrite E. do 2 f_equal.
      rewrite aggv_cons2. replace (upd jx (Z.to_nat a) 0) with (pre ++ 0 :: post) by (rewrite Ejx, <- Hpre, upd_mid; reflexivity).
      replace (Z.to_nat (nth (Z.to_nat a) fsh 0 - 1)) with (Nat.sub (Z.to_nat (nth (Z.to_nat a) fsh 0)) 1) by lia.
      f_equal. apply map_ext. intros i. rewrite Ejx, <- Hpre, upd_mid. reflexivity.
Qed.

Lemma map_flat_map {A B C} (g : B -> C) (h : A -> list B) ls : map g (flat_map h ls) = flat_map (fun a => map g (h a)) ls.
Proof. induction ls; cbn; [reflexivity|]. rewrite map_app, IHls. reflexivity. Qed.

Lemma spread_nonempty : forall axes jx, Forall (fun d => 0 < d) fsh -> valid_axes (length fsh) axes -> spread fsh axes jx <> [].
Proof.
  induction axes as [|a axes IH]; intros jx Hp [HS HF]; [discriminate|].
  inversion HS; subst. inversion HF; subst. cbn [spread].
  assert (0 < nth (Z.to_nat a) fsh 0). { rewrite Forall_forall in Hp. apply Hp, nth_In. lia. }
  replace (Z.to_nat (nth (Z.to_nat a) fsh 0)) with (Datatypes.S (Nat.sub (Z.to_nat (nth (Z.to_nat a) fsh 0)) 1)) by lia.
  cbn [seq flat_map]. intros E. apply app_eq_nil in E. destruct E as [E _]. revert E. apply IH; [assumption|split; assumption].
Qed.

Lemma fold_merge (h : nat -> list T) : merge_law f -> forall ls v, (forall i, In i ls -> h i <> []) ->
  fold_left (rf_merge f) (map (fun i => fold_left (rf_reduce f) (h i) (rf_init f)) ls) v =
  fold_left (rf_reduce f) (flat_map h ls) v.
Proof.
  intros HM. induction ls; intros v Hne; cbn; [reflexivity|].
  rewrite HM by (apply Hne; left; reflexivity). rewrite fold_left_app. apply IHls. intros i Hi. apply Hne. right. assumption.
Qed.

Lemma aggv_fold : forall axes jx, axes <> [] -> Forall (fun d => 0 < d) fsh -> valid_axes (length fsh) axes ->
  ((length axes <= 1)%nat \/ merge_law f) ->
  aggv axes jx = fold_left (rf_reduce f) (map ev (spread fsh axes jx)) (rf_init f).
Proof.
  induction axes as [|a axes IH]; intros jx Hne Hp [HS HF] Hlaw; [congruence|].
  inversion HS; subst. inversion HF; subst.
  destruct axes as [|b axes].
  - cbn [aggv spread]. f_equal. rewrite map_flat_map. cbn [map].
    generalize (seq 0 (Z.to_nat (nth (Z.to_nat a) fsh 0))). induction l0; cbn; [reflexivity|congruence].
  - destruct Hlaw as [Hl|Hlaw]; [cbn in Hl; lia|].
    assert (Hpos : 0 < nth (Z.to_nat a) fsh 0). { rewrite Forall_forall in Hp. apply Hp, nth_In. lia. }
    assert (Hv : valid_axes (length fsh) (b :: axes)) by (split; assumption).
    change (spread fsh (a :: b :: axes) jx) with
      (flat_map (fun i => spread fsh (b :: axes) (upd jx (Z.to_nat a) (Z.of_nat i))) (seq 0 (Z.to_nat (nth (Z.to_nat a) fsh 0)))).
    rewrite aggv_cons2.
    rewrite map_flat_map.
    replace (Z.to_nat (nth (Z.to_nat a) fsh 0)) with (Datatypes.S (Nat.sub (Z.to_nat (nth (Z.to_nat a) fsh 0)) 1)) by lia.
    replace (Nat.sub (Datatypes.S (Nat.sub (Z.to_nat (nth (Z.to_nat a) fsh 0)) 1)) 1) with (Nat.sub (Z.to_nat (nth (Z.to_nat a) fsh 0)) 1) by lia.
    cbn [seq flat_map]. rewrite fold_left_app. change (Z.of_nat 0) with 0.
    rewrite <- IH by (auto; discriminate). rewrite <- fold_merge.
    + f_equal. apply map_ext. intros i. apply IH; auto. discriminate.
    + assumption.
    + intros i _. intros E. apply map_eq_nil in E. revert E. apply spread_nonempty; assumption.
Qed.

(** With keep_dims: the same loops, found by going through all dimensions. *)
Lemma agg_keep_eq (r : reducer R) : r_axes r <> [] -> valid_axes (length esh) (r_axes r) ->
  forall k st, (k <= length esh)%nat ->
  filter (fun a => Z.of_nat (length esh - k) <=? a) (r_axes r) <> [] ->
  agg_keep f dflt esh sub deref r k st = agg f esh sub deref (filter (fun a => Z.of_nat (length esh - k) <=? a) (r_axes r)) st.
Proof.
  intros Hne [HS HF]. induction k; intros st Hk Hf.
  - exfalso. apply Hf. clear -HF. rewrite Nat.sub_0_r. induction HF; cbn; [reflexivity|].
    destruct (Z.leb_spec (Z.of_nat (length esh)) x); [lia|assumption].
  - cbn [agg_keep]. set (dim := (length esh - Datatypes.S k)%nat) in *.
    assert (Hdim : (length esh - k = Datatypes.S dim)%nat) by (unfold dim; lia).
    rewrite Hdim in IHk.
    assert (Hmem : mem_axis dim (r_axes r) = true <-> In (Z.of_nat dim) (r_axes r)).
    { unfold mem_axis. rewrite existsb_exists. split.
      - intros (x & Hx & E). apply Z.eqb_eq in E. subst. assumption.
      - intros H. exists (Z.of_nat dim). split; [assumption|apply Z.eqb_refl]. }
    assert (Hfil : filter (fun a => Z.of_nat dim <=? a) (r_axes r) =
       (if mem_axis dim (r_axes r) then [Z.of_nat dim] else []) ++ filter (fun a => Z.of_nat (Datatypes.S dim) <=? a) (r_axes r)).
    { clear -HS Hmem. revert Hmem. induction HS as [|a ls HS IH HA]; intros Hmem; [reflexivity|].
      cbn [filter mem_axis existsb]. unfold mem_axis in *.
      destruct (Z.eqb_spec a (Z.of_nat dim)) as [->|Hne].
      - cbn [orb]. destruct (Z.leb_spec (Z.of_nat dim) (Z.of_nat dim)); [|lia].
        destruct (Z.leb_spec (Z.of_nat (Datatypes.S dim)) (Z.of_nat dim)); [lia|]. cbn [app]. f_equal.
        clear -HA. induction HA; cbn; [reflexivity|].
        destruct (Z.leb_spec (Z.of_nat dim) x); [|lia]. destruct (Z.leb_spec (Z.of_nat (Datatypes.S dim)) x); [|lia]. f_equal. assumption.
      - cbn [orb].
        assert (Hmem' : existsb (fun a0 : Z => a0 =? Z.of_nat dim) ls = true <-> In (Z.of_nat dim) ls).
        { rewrite existsb_exists. split.
          - intros (x & Hx & E). apply Z.eqb_eq in E. subst. assumption.
          - intros H. exists (Z.of_nat dim). split; [assumption|apply Z.eqb_refl]. }
        specialize (IH Hmem').
        destruct (Z.leb_spec (Z.of_nat dim) a), (Z.leb_spec (Z.of_nat (Datatypes.S dim)) a); try lia; [|assumption].
        destruct (existsb (fun a0 : Z => a0 =? Z.of_nat dim) ls) eqn:Ex.
        + exfalso. pose proof (proj1 Hmem' eq_refl) as Hx. rewrite Forall_forall in HA. apply HA in Hx. lia.
        + cbn [app] in *. f_equal. exact IH. }
    rewrite Hfil. destruct (mem_axis dim (r_axes r)) eqn:Em; cbn [app].
    + assert (Hlast : filter (fun a => Z.of_nat (Datatypes.S dim) <=? a) (r_axes r) = [] <-> Z.of_nat dim = last (r_axes r) 0).
      { pose proof (proj1 Hmem eq_refl) as Hin. clear -HS Hin. revert Hin. induction HS as [|a ls HS IH HA]; intros Hin; [contradiction|].
        destruct ls as [|b ls].
        - destruct Hin as [Hin|[]]. cbn [filter last]. rewrite Hin. destruct (Z.leb_spec (Z.of_nat (Datatypes.S dim)) (Z.of_nat dim)); [lia|]. tauto.
        - change (last (a :: b :: ls) 0) with (last (b :: ls) 0).
          assert (Hlb : a < last (b :: ls) 0). { rewrite Forall_forall in HA. apply HA. destruct (exists_last (l := b :: ls)) as (u & v & ->); [discriminate|]. rewrite last_last. apply in_or_app. right. left. reflexivity. }
          cbn [filter]. destruct (Z.leb_spec (Z.of_nat (Datatypes.S dim)) a).
          + split; [discriminate|]. intros E. rewrite <- E in Hlb. lia.
          + destruct Hin as [Hin|Hin].
            * split; [|lia]. intros E. exfalso.
              assert (In (last (b :: ls) 0) (filter (fun a0 => Z.of_nat (Datatypes.S dim) <=? a0) (b :: ls))) as Hc.
              { apply filter_In. split; [|apply Z.leb_le; lia]. destruct (exists_last (l := b :: ls)) as (u & v & ->); [discriminate|]. rewrite last_last. apply in_or_app. right. left. reflexivity. }
              cbn [filter] in Hc. rewrite E in Hc. destruct Hc.
            * apply IH. assumption. }
      destruct (Z.eqb_spec (Z.of_nat dim) (last (r_axes r) 0)) as [El|El].
      * apply Hlast in El. rewrite El. cbn [agg]. rewrite Nat2Z.id. reflexivity.
      * destruct (filter (fun a => Z.of_nat (Datatypes.S dim) <=? a) (r_axes r)) as [|b ls] eqn:Ef.
        { exfalso. apply El, Hlast. reflexivity. }
        change (agg f esh sub deref (Z.of_nat dim :: b :: ls) st) with
          (outer_agg f esh sub (agg f esh sub deref (b :: ls)) (Z.to_nat (Z.of_nat dim)) st).
        rewrite Nat2Z.id. unfold outer_agg.
        assert (Hstep : forall s, agg_keep f dflt esh sub deref r k s = agg f esh sub deref (b :: ls) s).
        { intros s. apply IHk; [lia|discriminate]. }
        destruct (rd esh dim) as [size| |]; cbn [bind]; try reflexivity.
        destruct (size =? 0); [reflexivity|]. rewrite Hstep.
        destruct (agg f esh sub deref (b :: ls) st) as [[v s]| |]; cbn [bind]; try reflexivity.
        enough (Hloop : forall n i p, for_up (fun (_ : nat) '(v, st) => let* st := s_step sub dim 1 st in
             let* '(w, st) := agg_keep f dflt esh sub deref r k st in Ok (rf_merge f v w, st)) i n p =
           for_up (fun (_ : nat) '(v, st) => let* st := s_step sub dim 1 st in
             let* '(w, st) := agg f esh sub deref (b :: ls) st in Ok (rf_merge f v w, st)) i n p) by (rewrite Hloop; reflexivity).
        induction n; intros i [v' s']; [reflexivity|]. cbn [for_up].
        destruct (s_step sub dim 1 s') as [s2| |]; cbn [bind]; try reflexivity. rewrite Hstep.
        destruct (agg f esh sub deref (b :: ls) s2) as [[w s3]| |]; cbn [bind]; try reflexivity. apply IHn.
    + rewrite Hfil in Hf. cbn [app] in Hf. apply IHk; [lia|assumption].
Qed.
End Agg.
