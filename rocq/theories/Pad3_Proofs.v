From Coq Require Import List ZArith Lia Bool Arith.
From Verif Require Import Prelude PreludeFacts Strides_Model Strides_Spec Strides_Proofs Access_Model Slice_Model Container_Model Container_Spec Container_Proofs
  Semantic_Spec Reduce_Spec Reduce5_Proofs Reduce13_Proofs Sort2_Proofs Chunk2_Proofs Select_Model Select_Spec Select_Proofs Select2_Proofs Pad_Model Pad_Spec Pad_Proofs Pad2_Proofs.
Import ListNotations.
Open Scope Z_scope.

Section Pad.
Context {V : Type} (TL : layout) (tmp : list slice -> bool) (HT : is_order TL).
Context (SL DL : layout) (fresh : list V -> Z -> list V) (Hfresh : resizes fresh) (n0 : nat) (v0 : V).

Lemma pad_shape_ok mode : forall esh pw, is_shape esh -> Forall2 (width_ok mode) esh pw ->
  exists sv, pad_shape esh pw = Ok (padded_shape esh pw, sv) /\ centred esh (map fst pw) (padded_shape esh pw) sv /\ is_shape (padded_shape esh pw) /\
    length (padded_shape esh pw) = length esh.
Proof.
  intros esh pw Hs H. induction H as [|n [nb ne] esh pw (W1 & W2 & W) H IH].
  - exists []. repeat split; constructor.
  - inversion Hs as [|? ? Hn Hs']; subst. destruct (IH Hs') as (sv & E & C & HS & L). cbn [fst snd] in *.
    cbn [pad_shape padded_shape map fst snd length]. rewrite E. cbn [bind]. eexists. split; [reflexivity|]. split; [|split; [constructor; [lia|exact HS]|rewrite L; reflexivity]].
    constructor; try lia; [|exact C]. apply range_ok; lia.
Qed.

Lemma centre_index mode : forall esh pw ix, in_bounds (padded_shape esh pw) ix -> length pw = length esh -> in_centre esh pw ix = true ->
  in_bounds esh (pad_source mode esh pw ix) /\ ix = add2 (map fst pw) (pad_source mode esh pw ix).
Proof.
  induction esh as [|n esh IH]; intros [|w pw] ix B L C; try discriminate L; cbn [padded_shape pad_source] in *.
  - inversion B; subst. split; [constructor|reflexivity].
  - inversion B as [|? x ? ix' Hx B']; subst. cbn [in_centre pad_source map add2] in *.
    apply andb_true_iff in C. destruct C as [C1 C2]. apply andb_true_iff in C1. destruct C1 as [C0 C1]. apply Z.leb_le in C0. apply Z.ltb_lt in C1.
    destruct (IH pw ix' B' ltac:(cbn in L; lia) C2) as [H1 H2]. rewrite pad_position_in by lia. split; [constructor; [lia|exact H1]|].
    f_equal; [lia|exact H2].
Qed.
Lemma add2_centre : forall esh pw j, in_bounds esh j -> length pw = length esh -> in_centre esh pw (add2 (map fst pw) j) = true.
Proof.
  intros esh pw j B. revert pw. induction B as [|n x esh j Hx B IH]; intros [|w pw] L; try discriminate L; [reflexivity|]. cbn [map add2 in_centre].
  rewrite IH by (cbn in L; lia). apply andb_true_iff. split; [|reflexivity]. apply andb_true_iff. split; [apply Z.leb_le|apply Z.ltb_lt]; lia.
Qed.

Lemma pad_constant_lemma esh e ev pw x : is_shape esh -> Forall2 (width_ok p_constant) esh pw -> (forall j, in_bounds esh j -> e j = Ok (ev j)) ->
  exists c, pad TL tmp SL DL fresh n0 v0 p_constant esh e pw x = Ok c /\
    holds c (padded_shape esh pw) (fun ix => if in_centre esh pw ix then ev (pad_source p_constant esh pw ix) else x).
Proof.
  intros Hs Hw He. destruct (pad_shape_ok _ _ _ Hs Hw) as (sv & E & C & HS & L). unfold pad. rewrite E. cbn [bind].
  destruct (out_filled_ok SL DL fresh Hfresh n0 v0 (padded_shape esh pw) x HS) as (c & Ec & Hc). rewrite Ec. cbn [bind].
  destruct (centre_set TL tmp HT c _ _ _ _ _ e ev Hc C He) as (c' & w & E' & Hw' & H1 & H2). exists c'. split; [exact E'|].
  eapply holds_ext; [exact Hw'|]. intros ix B. cbn beta. assert (Lp : length pw = length esh) by (symmetry; eapply Forall2_length; exact Hw).
  destruct (in_centre esh pw ix) eqn:Ei.
  - destruct (centre_index p_constant esh pw ix B Lp Ei) as [H3 H4]. rewrite H4 at 1. apply H1. exact H3.
  - apply H2. intros j Hj Eq. subst ix. rewrite add2_centre in Ei by assumption. discriminate.
Qed.

Lemma padded_nth : forall esh pw k, length pw = length esh -> (k < length esh)%nat ->
  nth k (padded_shape esh pw) 0 = fst (nth k pw (0, 0)) + nth k esh 0 + snd (nth k pw (0, 0)).
Proof. induction esh as [|n esh IH]; intros [|w pw] k L Hk; try discriminate L; [cbn in Hk; lia|]. destruct k; cbn; [reflexivity|]. apply IH; cbn in *; lia. Qed.
Lemma source_upd mode : forall esh pw ix k y, length pw = length esh -> length ix = length esh ->
  pad_position mode (nth k esh 0) (fst (nth k pw (0, 0))) y = pad_position mode (nth k esh 0) (fst (nth k pw (0, 0))) (nth k ix 0) ->
  pad_source mode esh pw (upd ix k y) = pad_source mode esh pw ix.
Proof.
  induction esh as [|n esh IH]; intros [|w pw] [|i ix] k y L1 L2 E; try discriminate; [reflexivity|].
  destruct k as [|k]; cbn [upd pad_source nth] in *; [rewrite E; reflexivity|]. rewrite IH by (try (cbn in *; lia); exact E). reflexivity.
Qed.
Lemma in_centre_nth : forall esh pw ix, length pw = length esh -> length ix = length esh ->
  (forall i, (i < length esh)%nat -> fst (nth i pw (0, 0)) <= nth i ix 0 < fst (nth i pw (0, 0)) + nth i esh 0) -> in_centre esh pw ix = true.
Proof.
  induction esh as [|n esh IH]; intros [|w pw] [|x ix] L1 L2 H; try discriminate; [reflexivity|]. cbn [in_centre].
  rewrite IH; [|cbn in *; lia|cbn in *; lia|intros i Hi; apply (H (S i)); cbn; lia]. pose proof (H 0%nat ltac:(cbn; lia)) as H0. cbn in H0.
  apply andb_true_iff. split; [|reflexivity]. apply andb_true_iff. split; [apply Z.leb_le|apply Z.ltb_lt]; lia.
Qed.

Lemma pad_lemma mode esh e ev pw x : mode <> p_constant -> is_shape esh -> Forall2 (width_ok mode) esh pw -> (forall j, in_bounds esh j -> e j = Ok (ev j)) ->
  exists c, pad TL tmp SL DL fresh n0 v0 mode esh e pw x = Ok c /\
    holds c (padded_shape esh pw) (fun ix => ev (pad_source mode esh pw ix)).
Proof.
  intros Hmode Hs Hw He. destruct (pad_shape_ok _ _ _ Hs Hw) as (sv & E & C & HS & L).
  assert (Lp : length pw = length esh) by (symmetry; eapply Forall2_length; exact Hw).
  set (sh := padded_shape esh pw) in *.
  assert (K : exists c, (let* out := out_of SL DL fresh n0 v0 sh in
        let* out := region_set TL tmp out sv esh (fun _ => e) in
        for_up (fun axis out => pad_axis TL tmp mode esh pw axis out) 0 (length esh) out) = Ok c /\ holds c sh (fun ix => ev (pad_source mode esh pw ix))).
  2: { destruct K as (c & Ec & Hc). exists c. split; [|exact Hc]. unfold pad. rewrite E. cbn [bind]. destruct mode; [contradiction|exact Ec..]. }
  destruct (out_of_ok SL DL fresh Hfresh n0 v0 sh HS) as (c & v & Ec & Hc). rewrite Ec. cbn [bind].
  destruct (centre_set TL tmp HT c _ _ _ _ _ e ev Hc C He) as (c1 & w1 & E1 & Hw1 & H1 & _). rewrite E1. cbn [bind].
  pose (Inv := fun (k : nat) (c : cont V) => exists w, holds c sh w /\ forall ix, in_bounds sh ix ->
     (forall i, (k <= i < length esh)%nat -> fst (nth i pw (0, 0)) <= nth i ix 0 < fst (nth i pw (0, 0)) + nth i esh 0) -> w ix = ev (pad_source mode esh pw ix)).
  destruct (for_up_inv Inv (fun axis out => pad_axis TL tmp mode esh pw axis out) 0 (length esh) c1) as (c2 & E2 & w2 & Hw2 & A2).
  - exists w1. split; [exact Hw1|]. intros ix B Hin.
    assert (Ei : in_centre esh pw ix = true).
    { apply in_centre_nth; [exact Lp|rewrite (in_bounds_length _ _ B); exact L|]. intros i Hi. apply Hin. lia. }
    destruct (centre_index mode esh pw ix B Lp Ei) as [H3 H4]. rewrite H4 at 1. apply H1. exact H3.
  - intros k s Hk (w & Hw' & A). assert (Hk' : (k < length esh)%nat) by lia.
    set (nb := fst (nth k pw (0, 0))) in *. set (ne := snd (nth k pw (0, 0))) in *. set (n := nth k esh 0) in *.
    assert (Wk : width_ok mode n (nb, ne)).
    { assert (F : forall i, (i < length esh)%nat -> width_ok mode (nth i esh 0) (nth i pw (0, 0))).
      { clear - Hw. induction Hw as [|a b la lb H1 H IH]; intros i Hi; [cbn in Hi; lia|]. destruct i; [exact H1|]. apply IH. cbn in Hi. lia. }
      unfold nb, ne, n. rewrite <- surjective_pairing. apply F. exact Hk'. }
    assert (Hn : 0 <= n) by (apply (Forall_nth (fun z => 0 <= z) esh) with (i := k) (d := 0); [exact Hs|exact Hk']).
    assert (Et : nth k sh 0 = nb + n + ne) by (apply padded_nth; assumption).
    assert (HA : (k < length sh)%nat) by (rewrite L; exact Hk').
    pose proof Wk as (W1 & W2 & _). cbn [fst snd] in W1, W2.
    unfold pad_axis. rewrite (rd_nth (0, 0)) by lia. rewrite (surjective_pairing (nth k pw (0, 0))). fold nb ne. cbn [bind].
    rewrite (rd_nth 0) by lia. fold n. cbn [bind].
    assert (B1 : exists s1 wb, (if 0 <? nb then match before_slice mode n nb with
        | Some u => region_copy TL tmp s (along (length esh) k (URange (Some 0) (Some nb) None)) (along (length esh) k u) | None => Ok s end else Ok s) = Ok s1 /\
      holds s1 sh wb /\ forall ix, in_bounds sh ix ->
       (forall i, (S k <= i < length esh)%nat -> fst (nth i pw (0, 0)) <= nth i ix 0 < fst (nth i pw (0, 0)) + nth i esh 0) -> nth k ix 0 < nb + n -> wb ix = ev (pad_source mode esh pw ix)).
    { destruct (0 <? nb) eqn:Enb.
      - apply Z.ltb_lt in Enb. destruct (before_ok mode n nb ne Hmode Wk Enb Hn) as (u & sl & g & Eu & Er & Esz & Hg). rewrite Eu. rewrite <- L.
        destruct (axis_copy TL tmp HT sh s w k 0 nb (URange (Some 0) (Some nb) None) u sl (slice_size sl) g) as (s1 & Es & H); try assumption; try lia.
        + change (Some nb) with (Some (0 + nb)). apply range_ok; lia.
        + rewrite Et. exact Er.
        + intros j Hj. destruct (Hg j Hj) as (G1 & G2 & _). split; [exact G1|]. split; lia.
        + exists s1. eexists. split; [exact Es|]. split; [exact H|]. intros ix B Hin Hlt. cbn beta.
          pose proof (in_bounds_length _ _ B) as Lx. pose proof (in_bounds_nth _ _ k B HA) as Bk.
          destruct ((0 <=? nth k ix 0) && (nth k ix 0 <? 0 + nb)) eqn:Eb.
          * apply andb_true_iff in Eb. destruct Eb as [_ Eb]. apply Z.ltb_lt in Eb. rewrite Z.sub_0_r. destruct (Hg (nth k ix 0) ltac:(lia)) as (_ & G2 & G3).
            rewrite A.
            -- rewrite source_upd; [reflexivity|exact Lp|lia|]. exact G3.
            -- apply in_bounds_upd; [exact B|lia].
            -- intros i Hi. destruct (Nat.eq_dec i k) as [ -> |Ni]; [rewrite nth_upd_same by lia; exact G2|]. rewrite nth_upd_other by congruence. apply Hin. lia.
          * apply A; [exact B|]. intros i Hi. destruct (Nat.eq_dec i k) as [ -> |Ni]; [|apply Hin; lia].
            fold nb n. apply andb_false_iff in Eb. destruct Eb as [Eb|Eb]; [apply Z.leb_gt in Eb; lia|apply Z.ltb_ge in Eb; lia].
      - apply Z.ltb_ge in Enb. exists s, w. split; [reflexivity|]. split; [exact Hw'|]. intros ix B Hin Hlt. apply A; [exact B|].
        intros i Hi. destruct (Nat.eq_dec i k) as [ -> |Ni]; [|apply Hin; lia]. fold nb n. pose proof (in_bounds_nth _ _ k B HA). lia. }
    destruct B1 as (s1 & wb & Es1 & Hb & Ab). rewrite Es1. cbn [bind]. pose proof Hb as (_ & Esh & _). rewrite Esh. rewrite (rd_nth 0) by exact HA. cbn [bind]. rewrite Et.
    destruct (0 <? ne) eqn:Ene.
    + apply Z.ltb_lt in Ene. destruct (after_ok mode n nb ne Hmode Wk Ene Hn) as (u & sl & g & Eu & Er & Esz & Hg). rewrite Eu. rewrite <- L.
      destruct (axis_copy TL tmp HT sh s1 wb k (nb + n) ne (URange (Some (nb + n + ne - ne)) (Some (nb + n + ne)) None) u sl (slice_size sl) g) as (s2 & Es & H); try assumption; try lia.
      * replace (nb + n + ne - ne) with (nb + n) by lia. apply range_ok; lia.
      * rewrite Et. exact Er.
      * intros j Hj. destruct (Hg j Hj) as (G1 & G2 & _). split; [exact G1|]. split; lia.
      * exists s2. split; [exact Es|]. eexists. split; [exact H|]. intros ix B Hin. cbn beta.
        pose proof (in_bounds_length _ _ B) as Lx. pose proof (in_bounds_nth _ _ k B HA) as Bk.
        destruct ((nb + n <=? nth k ix 0) && (nth k ix 0 <? nb + n + ne)) eqn:Eb.
        -- apply andb_true_iff in Eb. destruct Eb as [Eb0 Eb]. apply Z.ltb_lt in Eb. apply Z.leb_le in Eb0. destruct (Hg (nth k ix 0 - (nb + n)) ltac:(lia)) as (_ & G2 & G3).
           replace (nb + n + (nth k ix 0 - (nb + n))) with (nth k ix 0) in G3 by lia.
           rewrite Ab.
           ++ rewrite source_upd; [reflexivity|exact Lp|lia|]. exact G3.
           ++ apply in_bounds_upd; [exact B|lia].
           ++ intros i Hi. rewrite nth_upd_other by lia. apply Hin. lia.
           ++ rewrite nth_upd_same by lia. lia.
        -- apply Ab; [exact B|exact Hin|]. apply andb_false_iff in Eb. destruct Eb as [Eb|Eb]; [apply Z.leb_gt in Eb; lia|apply Z.ltb_ge in Eb; lia].
    + apply Z.ltb_ge in Ene. exists s1. split; [reflexivity|]. exists wb. split; [exact Hb|]. intros ix B Hin. apply Ab; [exact B|exact Hin|].
      pose proof (in_bounds_nth _ _ k B HA). lia.
  - exists c2. split; [exact E2|]. eapply holds_ext; [exact Hw2|]. intros ix B. apply A2; [exact B|]. intros i Hi. lia.
Qed.

(** The source is an element of the original array. *)
Lemma source_inside mode esh pw ix : mode <> p_constant -> is_shape esh -> Forall2 (width_ok mode) esh pw -> in_bounds (padded_shape esh pw) ix ->
  in_bounds esh (pad_source mode esh pw ix).
Proof.
  intros Hm Hs Hw. revert ix. induction Hw as [|n [nb ne] esh pw (W1 & W2 & W) H IH]; intros ix B; cbn [padded_shape] in B.
  - inversion B; subst. constructor.
  - inversion B as [|? x ? ix' Hx B']; subst. inversion Hs as [|? ? Hn Hs']; subst. cbn [pad_source fst snd] in *. constructor; [|apply IH; assumption].
    unfold pad_position. destruct mode; [contradiction| | | | |].
    + pose proof (Z.mod_pos_bound (x - nb) (2 * n) ltac:(lia)). destruct (_ <? n) eqn:E; [apply Z.ltb_lt in E|apply Z.ltb_ge in E]; lia.
    + destruct (Z.eq_dec n 1) as [ -> |N].
      * assert (x = nb) by lia. subst x. replace (nb - nb) with 0 by lia. change (0 <= 0 < 1). lia.
      * pose proof (Z.mod_pos_bound (x - nb) (2 * (n - 1)) ltac:(lia)). destruct (_ <? n) eqn:E; [apply Z.ltb_lt in E|apply Z.ltb_ge in E]; lia.
    + apply Z.mod_pos_bound. lia.
    + apply Z.mod_pos_bound. lia.
    + lia.
Qed.

Lemma pad_same_eq mode esh e w x : pad_same TL tmp SL DL fresh n0 v0 mode esh e w x = pad TL tmp SL DL fresh n0 v0 mode esh e (repeat w (length esh)) x.
Proof. reflexivity. Qed.

(** ** Tiling *)

Lemma tile_shape_ok : forall esh reps, is_shape esh -> Forall2 (fun _ r => 1 <= r) esh reps ->
  exists sv, tile_shape esh reps = (tiled_shape esh reps, sv) /\ centred esh (map (fun _ => 0) esh) (tiled_shape esh reps) sv /\ is_shape (tiled_shape esh reps) /\
    length (tiled_shape esh reps) = length esh.
Proof.
  intros esh reps Hs H. induction H as [|n r esh reps Hr H IH].
  - exists []. repeat split; constructor.
  - inversion Hs as [|? ? Hn Hs']; subst. destruct (IH Hs') as (sv & E & C & HS & L).
    cbn [tile_shape tiled_shape map length]. rewrite E. eexists. split; [reflexivity|]. split; [|split; [constructor; [nia|exact HS]|rewrite L; reflexivity]].
    constructor; try nia; [|exact C]. change (Some n) with (Some (0 + n)). apply range_ok; nia.
Qed.
Lemma tiled_nth : forall esh reps k, length reps = length esh -> nth k (tiled_shape esh reps) 0 = nth k esh 0 * nth k reps 0.
Proof. induction esh as [|n esh IH]; intros [|r reps] k L; try discriminate L; [destruct k; reflexivity|]. destruct k; cbn; [reflexivity|]. apply IH; cbn in *; lia. Qed.
Lemma add2_zeros : forall (esh : list Z) j, in_bounds esh j -> add2 (map (fun _ => 0) esh) j = j.
Proof. induction 1 as [|n x esh j Hx H IH]; cbn [map add2]; [reflexivity|]. rewrite IH. reflexivity. Qed.
Lemma mods_id : forall esh ix, length ix = length esh -> (forall i, (i < length esh)%nat -> 0 <= nth i ix 0 < nth i esh 0) -> mods ix esh = ix /\ in_bounds esh ix.
Proof.
  induction esh as [|n esh IH]; intros [|x ix] L H; try discriminate L; [split; [reflexivity|constructor]|].
  destruct (IH ix ltac:(cbn in L; lia)) as [H1 H2]; [intros i Hi; apply (H (S i)); cbn; lia|]. pose proof (H 0%nat ltac:(cbn; lia)) as H0. cbn in H0.
  cbn [mods]. rewrite H1, Z.mod_small by lia. split; [reflexivity|constructor; assumption].
Qed.
Lemma mods_upd : forall esh ix k y, y mod nth k esh 0 = nth k ix 0 mod nth k esh 0 -> mods (upd ix k y) esh = mods ix esh.
Proof.
  induction esh as [|n esh IH]; intros [|x ix] k y E; destruct k; cbn [upd mods nth] in *; try reflexivity; [rewrite E; reflexivity|].
  rewrite IH by exact E. reflexivity.
Qed.

Lemma tile_lemma esh e ev reps : is_shape esh -> Forall2 (fun _ r => 1 <= r) esh reps -> (forall j, in_bounds esh j -> e j = Ok (ev j)) ->
  exists c, tile TL tmp SL DL fresh n0 v0 esh e reps = Ok c /\ holds c (tiled_shape esh reps) (fun ix => ev (mods ix esh)).
Proof.
  intros Hs Hr He. destruct (tile_shape_ok _ _ Hs Hr) as (sv & E & C & HS & L). unfold tile. rewrite E.
  assert (Lp : length reps = length esh) by (symmetry; eapply Forall2_length; exact Hr).
  set (sh := tiled_shape esh reps) in *.
  destruct (out_of_ok SL DL fresh Hfresh n0 v0 sh HS) as (c & v & Ec & Hc). rewrite Ec. cbn [bind].
  destruct (centre_set TL tmp HT c _ _ _ _ _ e ev Hc C He) as (c1 & w1 & E1 & Hw1 & H1 & _). rewrite E1. cbn [bind].
  pose (Inv := fun (k : nat) (c : cont V) => exists w, holds c sh w /\ forall ix, in_bounds sh ix ->
     (forall i, (k <= i < length esh)%nat -> nth i ix 0 < nth i esh 0) -> w ix = ev (mods ix esh)).
  destruct (for_up_inv Inv (fun axis out => tile_axis TL tmp esh reps axis out) 0 (length esh) c1) as (c2 & E2 & w2 & Hw2 & A2).
  - exists w1. split; [exact Hw1|]. intros ix B Hin. destruct (mods_id esh ix) as [M1 M2].
    + rewrite (in_bounds_length _ _ B). exact L.
    + intros i Hi. pose proof (in_bounds_nth _ _ i B ltac:(lia)). specialize (Hin i ltac:(lia)). lia.
    + rewrite M1. rewrite <- (add2_zeros esh ix M2) at 1. apply H1. exact M2.
  - intros k s Hk (w & Hw' & A). assert (Hk' : (k < length esh)%nat) by lia. set (n := nth k esh 0) in *. set (r := nth k reps 0).
    assert (Hn : 0 <= n) by (apply (Forall_nth (fun z => 0 <= z) esh) with (i := k) (d := 0); [exact Hs|exact Hk']).
    assert (Hrk : 1 <= r).
    { unfold r. clear - Hr Hk'. revert k Hk'. induction Hr as [|a b la lb H1 H IH]; intros i Hi; [cbn in Hi; lia|]. destruct i; [exact H1|]. apply IH. cbn in Hi. lia. }
    assert (HA : (k < length sh)%nat) by (rewrite L; exact Hk').
    assert (Et : nth k sh 0 = n * r) by (apply tiled_nth; exact Lp).
    unfold tile_axis. rewrite (rd_nth 0) by lia. fold n. cbn [bind]. rewrite (rd_nth 0) by lia. fold r. cbn [bind].
    pose (Inv' := fun (q : nat) (c : cont V) => exists w, holds c sh w /\ forall ix, in_bounds sh ix -> (forall i, (S k <= i < length esh)%nat -> nth i ix 0 < nth i esh 0) ->
       nth k ix 0 < Z.of_nat q * n -> w ix = ev (mods ix esh)).
    match goal with |- context [for_up ?b 1 ?m s] => destruct (for_up_inv Inv' b 1 m s) as (s' & Es' & w' & Hs' & A') end.
    + exists w. split; [exact Hw'|]. intros ix B Hin Hlt. apply A; [exact B|]. intros i Hi. destruct (Nat.eq_dec i k) as [ -> |Ni]; [fold n; lia|apply Hin; lia].
    + intros q s1 Hq (wq & Hwq & Aq). rewrite <- L.
      assert (Hqr : (Z.of_nat q + 1) <= r) by lia.
      destruct (Z.eq_dec n 0) as [En|Nn].
      * exists s1. split; [|exists wq; split; [exact Hwq|]; intros ix B Hin Hlt; apply Aq; try assumption; nia].
        unfold region_copy, region_set. pose proof Hwq as (_ & Esh & _). rewrite Esh.
        rewrite (slices_axis sh k (URange (Some 0) (Some n) None) (SRange 0 n)) by (try exact HA; rewrite Et; change (Some n) with (Some (0 + n)); apply range_ok; nia).
        cbn [bind]. rewrite (slices_axis sh k _ (SRange (Z.of_nat q * n) n)) by (try exact HA; rewrite Et; replace ((Z.of_nat q + 1) * n) with (Z.of_nat q * n + n) by lia; apply range_ok; nia).
        cbn [bind]. rewrite !sizes_axis. cbn [slice_size]. rewrite fits_refl. cbn [bind].
        assert (Ei : indices_of TL (upd sh k n) = []).
        { destruct (indices_of TL (upd sh k n)) as [|j l] eqn:Ej; [reflexivity|]. exfalso.
          assert (Hj : in_bounds (upd sh k n) j) by (apply (indices_of_in TL); [exact HT|rewrite Ej; left; reflexivity]).
          pose proof (in_bounds_nth _ _ k Hj ltac:(rewrite upd_length; exact HA)) as X. rewrite nth_upd_same in X by exact HA. lia. }
        rewrite Ei. cbn [for_each bind]. destruct (tmp _); reflexivity.
      * destruct (axis_copy TL tmp HT sh s1 wq k (Z.of_nat q * n) n (URange (Some (Z.of_nat q * n)) (Some ((Z.of_nat q + 1) * n)) None) (URange (Some 0) (Some n) None) (SRange 0 n) n (fun j => j)) as (s2 & Es & H);
          try assumption; try nia.
        -- rewrite Et. replace ((Z.of_nat q + 1) * n) with (Z.of_nat q * n + n) by lia. apply range_ok; nia.
        -- rewrite Et. change (Some n) with (Some (0 + n)). apply range_ok; nia.
        -- reflexivity.
        -- intros j Hj. cbn [slice_at]. destruct (n =? 1) eqn:E'; [apply Z.eqb_eq in E'|].
           ++ split; [f_equal; lia|]. split; nia.
           ++ split; [reflexivity|]. split; nia.
        -- exists s2. split; [exact Es|]. eexists. split; [exact H|]. intros ix B Hin Hlt. cbn beta.
           pose proof (in_bounds_length _ _ B) as Lx. pose proof (in_bounds_nth _ _ k B HA) as Bk.
           destruct ((Z.of_nat q * n <=? nth k ix 0) && (nth k ix 0 <? Z.of_nat q * n + n)) eqn:Eb.
           ++ apply andb_true_iff in Eb. destruct Eb as [Eb0 Eb]. apply Z.ltb_lt in Eb. apply Z.leb_le in Eb0. rewrite Aq.
              ** rewrite mods_upd; [reflexivity|]. fold n. replace (nth k ix 0) with ((nth k ix 0 - Z.of_nat q * n) + Z.of_nat q * n) at 2 by lia.
                 rewrite Z_mod_plus_full. reflexivity.
              ** apply in_bounds_upd; [exact B|]. lia.
              ** intros i Hi. rewrite nth_upd_other by lia. apply Hin. lia.
              ** rewrite nth_upd_same by lia. nia.
           ++ apply Aq; [exact B|exact Hin|]. apply andb_false_iff in Eb. destruct Eb as [Eb|Eb]; [apply Z.leb_gt in Eb; lia|apply Z.ltb_ge in Eb; lia].
    + exists s'. split; [exact Es'|]. exists w'. split; [exact Hs'|]. intros ix B Hin. apply A'; [exact B|exact Hin|].
      pose proof (in_bounds_nth _ _ k B HA). rewrite Et in *. replace (Z.of_nat (1 + (Z.to_nat r - 1))) with r by lia. nia.
  - exists c2. split; [exact E2|]. eapply holds_ext; [exact Hw2|]. intros ix B. apply A2; [exact B|]. intros i Hi. lia.
Qed.
Lemma tile_first_lemma n esh e ev r : is_shape (n :: esh) -> 1 <= r -> (forall j, in_bounds (n :: esh) j -> e j = Ok (ev j)) ->
  exists c, tile_first TL tmp SL DL fresh n0 v0 (n :: esh) e r = Ok c /\
    holds c (n * r :: esh) (fun ix => match ix with i :: ix' => ev (i mod n :: ix') | [] => ev [] end).
Proof.
  intros Hs Hr He. unfold tile_first. cbn [length repeat]. unfold wr. cbn [length Nat.ltb Nat.leb upd bind].
  destruct (tile_lemma (n :: esh) e ev (r :: repeat 1 (length esh)) Hs) as (c & E & H).
  - constructor; [exact Hr|]. clear. induction esh; constructor; [lia|assumption].
  - exact He.
  - exists c. split; [exact E|]. assert (Ts : tiled_shape esh (repeat 1 (length esh)) = esh).
    { clear. induction esh as [|m esh IH]; [reflexivity|]. cbn. rewrite IH, Z.mul_1_r. reflexivity. }
    cbn [tiled_shape] in H. rewrite Ts in H. eapply holds_ext; [exact H|]. intros ix B. inversion B as [|? i ? ix' Hi B']; subst. cbn [mods].
    destruct (mods_id esh ix') as [M _]; [exact (in_bounds_length _ _ B')|intros j Hj; apply (in_bounds_nth _ _ j B'); exact Hj|]. rewrite M. reflexivity.
Qed.
End Pad.
