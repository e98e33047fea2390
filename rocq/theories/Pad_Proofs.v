From Coq Require Import List ZArith Lia Bool Arith.
From Verif Require Import Prelude PreludeFacts Strides_Model Strides_Spec Strides_Proofs Access_Model Slice_Model Container_Model Container_Spec Container_Proofs
  Semantic_Spec Reduce_Spec Reduce5_Proofs Reduce13_Proofs Sort2_Proofs Chunk2_Proofs Select_Model Select_Spec Select_Proofs Select2_Proofs Pad_Model Pad_Spec.
Import ListNotations.
Open Scope Z_scope.

Lemma for_each_map {A B T} (f : A -> B) (body : B -> T -> res T) : forall l s, for_each body (map f l) s = for_each (fun x => body (f x)) l s.
Proof. induction l as [|x l IH]; intros s; cbn; [reflexivity|]. destruct (body (f x) s); cbn; [apply IH|reflexivity|reflexivity]. Qed.

(** ** One assignment to a region *)

Section Region.
Context {V : Type} (TL : layout) (tmp : list slice -> bool) (HT : is_order TL).
Context (sh : list Z).

Section Set_.
Context (v : list Z -> V) (tsh : list Z) (dst : list Z -> list Z) (x : list Z -> V).
Hypothesis Hdst : forall j, in_bounds tsh j -> in_bounds sh (dst j).
Hypothesis Hinj : forall i j, in_bounds tsh i -> in_bounds tsh j -> dst i = dst j -> i = j.

Lemma write_loop (body : list Z -> cont V -> res (cont V)) :
  (forall j c0 w0, in_bounds tsh j -> holds c0 sh w0 -> (forall ix, (forall j, in_bounds tsh j -> ix <> dst j) -> w0 ix = v ix) ->
     body j c0 = c_write c0 (dst j) (x j)) ->
  forall c, holds c sh v ->
  exists c' w, for_each body (indices_of TL tsh) c = Ok c' /\ holds c' sh w /\
    (forall j, in_bounds tsh j -> w (dst j) = x j) /\ (forall ix, (forall j, in_bounds tsh j -> ix <> dst j) -> w ix = v ix).
Proof.
  intros Hb c Hc.
  assert (Hin : forall j, In j (indices_of TL tsh) <-> in_bounds tsh j) by (intros j; apply indices_of_in; exact HT).
  assert (G : forall l c0 w0, incl l (indices_of TL tsh) -> NoDup l -> holds c0 sh w0 -> (forall ix, (forall j, in_bounds tsh j -> ix <> dst j) -> w0 ix = v ix) ->
    exists c' w, for_each body l c0 = Ok c' /\ holds c' sh w /\ (forall j, In j l -> w (dst j) = x j) /\ (forall ix, (forall j, In j l -> ix <> dst j) -> w ix = w0 ix)).
  { induction l as [|j l IH]; intros c0 w0 Hi Hn H0 Hv; cbn [for_each].
    - exists c0, w0. split; [reflexivity|]. split; [exact H0|]. split; [intros j []|auto].
    - assert (Hj : in_bounds tsh j) by (apply Hin, Hi; left; reflexivity). rewrite (Hb j c0 w0 Hj H0 Hv).
      destruct (write_ok sh c0 w0 (dst j) (x j) H0 (Hdst j Hj)) as (c1 & E1 & _ & _ & H1). rewrite E1. cbn [bind].
      inversion Hn as [|? ? Hnj Hn']; subst.
      destruct (IH c1 (set w0 (dst j) (x j))) as (c' & w & E & Hw & Hw1 & Hw2).
      + intros y Hy. apply Hi. right. exact Hy.
      + exact Hn'.
      + exact H1.
      + intros ix Hix. unfold set. destruct (list_eq_dec Z.eq_dec ix (dst j)) as [Eq|_]; [exfalso; apply (Hix j Hj Eq)|apply Hv; exact Hix].
      + exists c', w. split; [exact E|]. split; [exact Hw|]. split.
        * intros k [ <- |Hk]; [|apply Hw1; exact Hk]. rewrite Hw2.
          -- unfold set. destruct (list_eq_dec Z.eq_dec (dst j) (dst j)); [reflexivity|congruence].
          -- intros k Hk Eq. apply Hinj in Eq; [subst k; contradiction|exact Hj|]. apply Hin, Hi. right. exact Hk.
        * intros ix Hix. rewrite Hw2 by (intros k Hk; apply Hix; right; exact Hk). unfold set.
          destruct (list_eq_dec Z.eq_dec ix (dst j)) as [Eq|_]; [|reflexivity]. exfalso. apply (Hix j); [left; reflexivity|exact Eq]. }
  destruct (G (indices_of TL tsh) c v (incl_refl _) (indices_of_nodup TL tsh HT) Hc (fun _ _ => eq_refl)) as (c' & w & E & Hw & H1 & H2).
  exists c', w. split; [exact E|]. split; [exact Hw|]. split; [intros j Hj; apply H1, Hin, Hj|]. intros ix Hix. apply H2. intros j Hj. apply Hix, Hin, Hj.
Qed.

Lemma region_set_ok (c : cont V) us ss rsh rhs : holds c sh v -> slices_of us sh = Ok ss -> map slice_size ss = tsh -> fits_region rsh tsh = Ok tt ->
  (forall j, in_bounds tsh j -> region_index ss j = Ok (dst j)) ->
  (forall c0 w0, holds c0 sh w0 -> (forall ix, (forall j, in_bounds tsh j -> ix <> dst j) -> w0 ix = v ix) ->
     forall j, in_bounds tsh j -> rhs c0 (bcast_index rsh j) = Ok (x j)) ->
  exists c' w, region_set TL tmp c us rsh rhs = Ok c' /\ holds c' sh w /\
    (forall j, in_bounds tsh j -> w (dst j) = x j) /\ (forall ix, (forall j, in_bounds tsh j -> ix <> dst j) -> w ix = v ix).
Proof.
  intros Hc Es Et Ef Hi Hr. unfold region_set. destruct Hc as (Hcons & Esh & Hv). rewrite Esh, Es. cbn [bind]. rewrite Et, Ef. cbn [bind].
  assert (Hc : holds c sh v) by (split; [exact Hcons|split; [exact Esh|exact Hv]]).
  destruct (tmp ss).
  - assert (E1 : forall l acc, incl l (indices_of TL tsh) ->
      for_each (fun j t => let* v := rhs c (bcast_index rsh j) in Ok (t ++ [(j, v)])) l acc = Ok (acc ++ map (fun j => (j, x j)) l)).
    { induction l as [|j l IH]; intros acc Hl; cbn [for_each map]; [rewrite app_nil_r; reflexivity|].
      rewrite (Hr c v Hc (fun _ _ => eq_refl) j) by (apply (indices_of_in TL); [exact HT|apply Hl; left; reflexivity]). cbn [bind].
      rewrite IH by (intros y Hy; apply Hl; right; exact Hy). rewrite <- app_assoc. reflexivity. }
    rewrite (E1 _ [] (incl_refl _)). cbn [bind app]. rewrite for_each_map. apply write_loop; [|exact Hc].
    intros j c0 w0 Hj _ _. rewrite Hi by exact Hj. reflexivity.
  - apply write_loop; [|exact Hc]. intros j c0 w0 Hj H0 Hw. rewrite (Hr c0 w0 H0 Hw j Hj), Hi by exact Hj. reflexivity.
Qed.
End Set_.

(** ** Copying along one axis *)

Lemma upd_map {A B} (f : A -> B) : forall l k y, map f (upd l k y) = upd (map f l) k (f y).
Proof. induction l as [|a l IH]; intros [|k] y; cbn; [reflexivity..|]. rewrite IH. reflexivity. Qed.
Lemma slices_axis : forall sh a u s, (a < length sh)%nat -> resolve u (nth a sh 0) = Ok s ->
  slices_of (along (length sh) a u) sh = Ok (upd (map SAll sh) a s).
Proof.
  unfold along. induction sh0 as [|d s0 IH]; intros a u s Ha E; [cbn in Ha; lia|]. destruct a as [|a]; cbn [length repeat upd slices_of nth map] in *.
  - rewrite E. cbn [bind]. assert (E0 : forall q, slices_of (repeat UAll (length q)) q = Ok (map SAll q)).
    { induction q as [|y q IHq]; [reflexivity|]. cbn. rewrite IHq. reflexivity. }
    rewrite E0. reflexivity.
  - cbn [resolve bind]. rewrite (IH a u s) by (try lia; exact E). reflexivity.
Qed.
Lemma all_index : forall q j, length j = length q -> region_index (map SAll q) j = Ok j.
Proof. induction q as [|d q IH]; intros [|y j] H; try discriminate H; [reflexivity|]. cbn. rewrite IH by (cbn in H; lia). reflexivity. Qed.
Lemma index_axis : forall q a s j y, (a < length q)%nat -> length j = length q -> slice_at s (nth a j 0) = Ok y ->
  region_index (upd (map SAll q) a s) j = Ok (upd j a y).
Proof.
  induction q as [|d q IH]; intros a s [|z j] y Ha L E; try discriminate L; [cbn in Ha; lia|]. destruct a as [|a]; cbn [map upd region_index nth] in *.
  - rewrite E. cbn [bind]. rewrite all_index by (cbn in L; lia). reflexivity.
  - cbn [slice_at bind]. rewrite (IH a s j y) by (try (cbn in *; lia); exact E). reflexivity.
Qed.
Lemma sizes_axis : forall q a s, map slice_size (upd (map SAll q) a s) = upd q a (slice_size s).
Proof. intros q a s. rewrite upd_map, map_map. cbn. rewrite map_id. reflexivity. Qed.
Lemma upd_upd {A} : forall (l : list A) a y z, upd (upd l a y) a z = upd l a z.
Proof. induction l as [|b l IH]; intros [|a] y z; cbn; [reflexivity..|]. rewrite IH. reflexivity. Qed.
Lemma upd_same {A} (d : A) : forall l a, upd l a (nth a l d) = l.
Proof. induction l as [|b l IH]; intros [|a]; cbn; [reflexivity..|]. rewrite IH. reflexivity. Qed.

Lemma fits_same : forall q a m m', (m' = m \/ m' = 1) -> fits_region (upd q a m') (upd q a m) = Ok tt.
Proof.
  assert (F : forall q, fits_region q q = Ok tt) by (induction q as [|d q IH]; cbn; [reflexivity|]; rewrite Z.eqb_refl; exact IH).
  induction q as [|d q IH]; intros a m m' H; [reflexivity|]. destruct a as [|a]; cbn [upd fits_region].
  - assert (E : (m' =? m) || (m' =? 1) = true) by (apply orb_true_iff; destruct H as [ -> | -> ]; [left|right]; apply Z.eqb_refl). rewrite E. apply F.
  - rewrite Z.eqb_refl. cbn [orb]. apply IH. exact H.
Qed.
Lemma bcast_in : forall rs ts j, in_bounds ts j -> length rs = length ts -> (forall k, (k < length ts)%nat -> nth k rs 0 = nth k ts 0 \/ nth k rs 0 = 1) ->
  in_bounds rs (bcast_index rs j) /\ forall k, (k < length ts)%nat -> nth k (bcast_index rs j) 0 = if nth k rs 0 =? 1 then 0 else nth k j 0.
Proof.
  induction rs as [|r rs IH]; intros ts j Hj L Hk; destruct ts as [|t ts]; try discriminate L; inversion Hj as [|? z ? j' Hz Hj']; subst; cbn [bcast_index].
  - split; [constructor|]. intros k Hk'. cbn in Hk'. lia.
  - destruct (IH ts j' Hj' ltac:(cbn in L; lia)) as [H1 H2]; [intros k Hlt; apply (Hk (S k)); cbn; lia|].
    split.
    + constructor; [|exact H1]. pose proof (Hk 0%nat ltac:(cbn; lia)) as H0. cbn in H0. destruct (r =? 1) eqn:E; [apply Z.eqb_eq in E|apply Z.eqb_neq in E]; lia.
    + intros [|k] Hlt; [reflexivity|]. cbn [nth]. apply H2. cbn in Hlt. lia.
Qed.

(** strided_view(out, {.., range(lo, lo + m), ..}) = strided_view(out, {.., s, ..}), where
    s selects other positions. *)
Lemma axis_copy (c : cont V) v a lo m us_t us_s s m' g : holds c sh v -> (a < length sh)%nat ->
  0 <= lo -> 0 < m -> lo + m <= nth a sh 0 ->
  resolve us_t (nth a sh 0) = Ok (SRange lo m) -> resolve us_s (nth a sh 0) = Ok s -> slice_size s = m' -> (m' = m \/ m' = 1) ->
  (forall k, 0 <= k < m -> slice_at s (if m' =? 1 then 0 else k) = Ok (g k) /\ 0 <= g k < nth a sh 0 /\ ~ (lo <= g k < lo + m)) ->
  exists c', region_copy TL tmp c (along (length sh) a us_t) (along (length sh) a us_s) = Ok c' /\
    holds c' sh (fun ix => if (lo <=? nth a ix 0) && (nth a ix 0 <? lo + m) then v (upd ix a (g (nth a ix 0 - lo))) else v ix).
Proof.
  intros Hc Ha Hlo Hm Htot Et Es Esz Hfit Hg. unfold region_copy. pose proof Hc as (_ & Esh & _). rewrite Esh.
  rewrite (slices_axis sh a us_s s Ha Es). cbn [bind]. rewrite sizes_axis, Esz.
  assert (Hub : forall j, in_bounds (upd sh a m) j -> length j = length sh /\ 0 <= nth a j 0 < m /\
    forall y, 0 <= y < nth a sh 0 -> in_bounds sh (upd j a y)).
  { intros j Hj. pose proof (in_bounds_length _ _ Hj) as Lj. rewrite upd_length in Lj. split; [exact Lj|].
    pose proof (in_bounds_nth _ _ a Hj ltac:(rewrite upd_length; exact Ha)) as Hn. rewrite nth_upd_same in Hn by exact Ha. split; [exact Hn|].
    intros y Hy. apply in_bounds_intro; [rewrite upd_length; exact Lj|]. intros i Hi. destruct (Nat.eq_dec i a) as [ -> |Ni].
    - rewrite nth_upd_same by lia. exact Hy.
    - rewrite nth_upd_other by congruence. pose proof (in_bounds_nth _ _ i Hj ltac:(rewrite upd_length; lia)) as Hn'. rewrite nth_upd_other in Hn' by congruence. exact Hn'. }
  destruct (region_set_ok v (upd sh a m) (fun j => upd j a (lo + nth a j 0)) (fun j => v (upd j a (g (nth a j 0)))))
    with (c := c) (us := along (length sh) a us_t) (ss := upd (map SAll sh) a (SRange lo m)) (rsh := upd sh a m')
         (rhs := fun (c : cont V) j => let* ix := region_index (upd (map SAll sh) a s) j in c_read c ix) as (c' & w & E & Hw & H1 & H2).
  - intros j Hj. destruct (Hub j Hj) as (Lj & Hn & Hb). apply Hb. lia.
  - intros i j Hi Hj Eq. destruct (Hub i Hi) as (Li & _). destruct (Hub j Hj) as (Lj & _).
    rewrite <- (upd_same 0 i a), <- (upd_same 0 j a). assert (En : nth a i 0 = nth a j 0).
    { apply (f_equal (fun l => nth a l 0)) in Eq. rewrite !nth_upd_same in Eq by lia. lia. }
    apply (f_equal (fun l => upd l a (nth a j 0))) in Eq. rewrite !upd_upd in Eq. rewrite En. exact Eq.
  - exact Hc.
  - apply slices_axis; assumption.
  - rewrite sizes_axis. reflexivity.
  - apply fits_same. exact Hfit.
  - intros j Hj. destruct (Hub j Hj) as (Lj & _). apply index_axis; [exact Ha|exact Lj|]. reflexivity.
  - intros c0 w0 H0 Hoff j Hj. destruct (Hub j Hj) as (Lj & Hn & Hb). destruct (Hg _ Hn) as (Eg & Bg & Ng).
    assert (Eb : bcast_index (upd sh a m') j = upd j a (if m' =? 1 then 0 else nth a j 0)).
    { destruct (bcast_in (upd sh a m') (upd sh a m) j Hj) as [B1 B2]; [rewrite !upd_length; reflexivity| |].
      - intros k Hk. rewrite upd_length in Hk. destruct (Nat.eq_dec k a) as [ -> |Nk]; [rewrite !nth_upd_same by lia; exact Hfit|rewrite !nth_upd_other by congruence; auto].
      - apply nth_ext with (d := 0) (d' := 0).
        + rewrite (in_bounds_length _ _ B1), !upd_length. lia.
        + intros k Hk. rewrite (in_bounds_length _ _ B1), upd_length in Hk. rewrite B2 by (rewrite upd_length; exact Hk).
          destruct (Nat.eq_dec k a) as [ -> |Nk]; [rewrite !nth_upd_same by lia; reflexivity|]. rewrite !nth_upd_other by congruence.
          pose proof (in_bounds_nth _ _ k Hj ltac:(rewrite upd_length; exact Hk)) as Hn'. rewrite nth_upd_other in Hn' by congruence.
          destruct (nth k sh 0 =? 1) eqn:E1; [apply Z.eqb_eq in E1; lia|reflexivity]. }
    rewrite Eb. rewrite (index_axis sh a s _ (g (nth a j 0))); [|exact Ha|rewrite upd_length; exact Lj|rewrite nth_upd_same by lia; exact Eg].
    cbn [bind]. rewrite upd_upd. rewrite (read_ok sh c0 w0); [|exact H0|apply Hb; exact Bg]. f_equal. apply Hoff.
    intros i Hi Eq. destruct (Hub i Hi) as (Li & Hni & _). apply (f_equal (fun l => nth a l 0)) in Eq. rewrite !nth_upd_same in Eq by lia. lia.
  - exists c'. split; [exact E|]. eapply holds_ext; [exact Hw|]. intros ix B. cbn beta. pose proof (in_bounds_length _ _ B) as Lx.
    destruct ((lo <=? nth a ix 0) && (nth a ix 0 <? lo + m)) eqn:Eb.
    + apply andb_true_iff in Eb. destruct Eb as [E1 E2]. apply Z.leb_le in E1. apply Z.ltb_lt in E2.
      assert (Bj : in_bounds (upd sh a m) (upd ix a (nth a ix 0 - lo))).
      { apply in_bounds_intro; [rewrite !upd_length; exact Lx|]. intros i Hi. rewrite upd_length in Hi. destruct (Nat.eq_dec i a) as [ -> |Ni].
        - rewrite !nth_upd_same by lia. lia.
        - rewrite !nth_upd_other by congruence. apply (in_bounds_nth _ _ i B). exact Hi. }
      specialize (H1 _ Bj). cbn beta in H1. rewrite nth_upd_same, !upd_upd in H1 by lia.
      replace (lo + (nth a ix 0 - lo)) with (nth a ix 0) in H1 by lia. rewrite upd_same in H1. exact H1.
    + apply H2. intros j Hj Eq. destruct (Hub j Hj) as (Lj & Hn & _). apply (f_equal (fun l => nth a l 0)) in Eq. rewrite nth_upd_same in Eq by lia.
      apply andb_false_iff in Eb. destruct Eb as [E1|E1]; [apply Z.leb_gt in E1|apply Z.ltb_ge in E1]; lia.
Qed.
End Region.
