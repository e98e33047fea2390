From Coq Require Import List ZArith Lia Bool Arith.
From Verif Require Import Prelude PreludeFacts Strides_Model Strides_Spec Strides_Proofs Access_Model Slice_Model Container_Model Container_Spec Container_Proofs
  Semantic_Spec Reduce_Spec Reduce5_Proofs Reduce13_Proofs Sort2_Proofs Chunk2_Proofs Select_Model Select_Spec Select_Proofs Select2_Proofs Pad_Model Pad_Spec Pad_Proofs.
Import ListNotations.
Open Scope Z_scope.

(** ** Ranges *)

Lemma range_ok lo m d : 0 <= lo -> 0 <= m -> lo + m <= d -> resolve (URange (Some lo) (Some (lo + m)) None) d = Ok (SRange lo m).
Proof.
  intros H0 H1 H2. cbn. unfold normalize, mk_range.
  destruct (0 <=? lo) eqn:E1; [|apply Z.leb_gt in E1; lia]. destruct (0 <=? lo + m) eqn:E2; [|apply Z.leb_gt in E2; lia].
  rewrite (Z.min_r d lo), (Z.min_r d (lo + m)), !Z.max_r by lia.
  destruct (lo <? lo + m) eqn:E3; [f_equal; f_equal; lia|]. apply Z.ltb_ge in E3. f_equal. f_equal. lia.
Qed.
Lemma back_core st n : 0 < n -> mk_stepped st (st - n) (-1) = Ok (SStep st n (-1)).
Proof.
  intros H. unfold mk_stepped, cdiv, crem. cbn [Z.eqb bind]. replace (st - n - st) with (- n) by lia.
  change (-1) with (- (1)). rewrite Z.quot_opp_opp, Z.rem_opp_opp by lia. rewrite Z.quot_1_r, Z.rem_1_r. cbn. rewrite andb_false_r. f_equal. f_equal. lia.
Qed.
Lemma back_ok st n d : 0 < n -> 0 <= st - n -> st < d -> resolve (URange (Some st) (Some (st - n)) (Some (-1))) d = Ok (SStep st n (-1)).
Proof.
  intros H0 H1 H2. cbn [resolve range_get]. unfold get_stepped_range. cbn [Z.ltb Z.compare].
  destruct (0 <=? st) eqn:E1; [|apply Z.leb_gt in E1; lia]. destruct (0 <=? st - n) eqn:E2; [|apply Z.leb_gt in E2; lia].
  rewrite !Z.min_r, !Z.max_r by lia. apply back_core. exact H0.
Qed.
Lemma back_all st d : 0 <= st -> st < d -> resolve (URange (Some st) None (Some (-1))) d = Ok (SStep st (st + 1) (-1)).
Proof.
  intros H0 H1. cbn [resolve range_get]. unfold get_stepped_range. cbn [Z.ltb Z.compare].
  destruct (0 <=? st) eqn:E1; [|apply Z.leb_gt in E1; lia]. destruct (0 <=? - (d + 1)) eqn:E2; [apply Z.leb_le in E2; lia|].
  rewrite (Z.min_r (d - 1) st), (Z.min_r (d - 1)), (Z.max_r (-1) st), Z.max_l by lia. replace (-1) with (st - (st + 1)) at 1 by lia. apply back_core. lia.
Qed.

(** ** The positions *)

Lemma pad_position_in mode n nb i : nb <= i < nb + n -> pad_position mode n nb i = i - nb.
Proof.
  intros H. unfold pad_position. destruct mode; try reflexivity.
  - rewrite Z.mod_small by lia. destruct (i - nb <? n) eqn:E; [reflexivity|apply Z.ltb_ge in E; lia].
  - destruct (Z.eq_dec n 1) as [ -> |N].
    + replace (i - nb) with 0 by lia. reflexivity.
    + rewrite Z.mod_small by lia. destruct (i - nb <? n) eqn:E; [reflexivity|apply Z.ltb_ge in E; lia].
  - rewrite Z.mod_small by lia. reflexivity.
  - rewrite Z.mod_small by lia. reflexivity.
  - rewrite Z.min_r, Z.max_r by lia. reflexivity.
Qed.
Lemma mod_neg x n : - n <= x < 0 -> x mod n = x + n.
Proof. intros H. symmetry. apply (Z.mod_unique x n (-1)); lia. Qed.
Lemma mod_up x n : n <= x < 2 * n -> x mod n = x - n.
Proof. intros H. symmetry. apply (Z.mod_unique x n 1); lia. Qed.

Ltac lt_true x y := let E := fresh in destruct (x <? y) eqn:E; [|apply Z.ltb_ge in E; lia].

Lemma before_ok mode n nb ne : mode <> p_constant -> width_ok mode n (nb, ne) -> 0 < nb -> 0 <= n ->
  exists u s g, before_slice mode n nb = Some u /\ resolve u (nb + n + ne) = Ok s /\ (slice_size s = nb \/ slice_size s = 1) /\
    forall k, 0 <= k < nb -> slice_at s (if slice_size s =? 1 then 0 else k) = Ok (g k) /\ nb <= g k < nb + n /\
      pad_position mode n nb (g k) = pad_position mode n nb k.
Proof.
  intros Hm (W1 & W2 & W) Hnb Hn. cbn [fst snd] in *.
  assert (I : forall k, 0 <= k < nb -> k = if nb =? 1 then 0 else k) by (intros k Hk; destruct (nb =? 1) eqn:E; [apply Z.eqb_eq in E; lia|reflexivity]).
  destruct mode; [contradiction| | | | |]; cbn [before_slice].
  - eexists _, (SStep (2 * nb - 1) nb (-1)), (fun k => 2 * nb - 1 - k). split; [reflexivity|]. split; [|split; [left; reflexivity|]].
    + replace (nb - 1) with (2 * nb - 1 - nb) by lia. apply back_ok; lia.
    + intros k Hk. cbn [slice_size slice_at]. rewrite <- (I k Hk). split; [f_equal; lia|]. split; [lia|]. rewrite pad_position_in by lia.
      unfold pad_position. rewrite mod_neg by lia. destruct (k - nb + 2 * n <? n) eqn:E; [apply Z.ltb_lt in E; lia|lia].
  - destruct W as [W|W]; [|lia]. eexists _, (SStep (2 * nb) nb (-1)), (fun k => 2 * nb - k). split; [reflexivity|]. split; [|split; [left; reflexivity|]].
    + replace (Some nb) with (Some (2 * nb - nb)) by (f_equal; lia). apply back_ok; lia.
    + intros k Hk. cbn [slice_size slice_at]. rewrite <- (I k Hk). split; [f_equal; lia|]. split; [lia|]. rewrite pad_position_in by lia.
      unfold pad_position. rewrite mod_neg by lia. destruct (k - nb + 2 * (n - 1) <? n) eqn:E; [apply Z.ltb_lt in E; lia|lia].
  - eexists _, (SRange n nb), (fun k => n + k). split; [reflexivity|]. split; [|split; [left; reflexivity|]].
    + rewrite (Z.add_comm nb n). apply range_ok; lia.
    + intros k Hk. cbn [slice_size slice_at]. rewrite <- (I k Hk). split; [reflexivity|]. split; [lia|]. rewrite pad_position_in by lia.
      unfold pad_position. rewrite mod_neg by lia. lia.
  - eexists _, (SRange n nb), (fun k => n + k). split; [reflexivity|]. split; [|split; [left; reflexivity|]].
    + rewrite (Z.add_comm nb n). apply range_ok; lia.
    + intros k Hk. cbn [slice_size slice_at]. rewrite <- (I k Hk). split; [reflexivity|]. split; [lia|]. rewrite pad_position_in by lia.
      unfold pad_position. rewrite mod_neg by lia. lia.
  - eexists _, (SRange nb 1), (fun _ => nb). split; [reflexivity|]. split; [apply range_ok; lia|]. split; [right; reflexivity|].
    intros k Hk. cbn [slice_size slice_at]. cbn [Z.eqb]. split; [f_equal; apply Z.add_0_r|]. split; [lia|]. rewrite pad_position_in by lia.
    unfold pad_position. lia.
Qed.
Lemma after_ok mode n nb ne : mode <> p_constant -> width_ok mode n (nb, ne) -> 0 < ne -> 0 <= n ->
  exists u s g, after_slice mode n nb ne (nb + n + ne) = Some u /\ resolve u (nb + n + ne) = Ok s /\ (slice_size s = ne \/ slice_size s = 1) /\
    forall k, 0 <= k < ne -> slice_at s (if slice_size s =? 1 then 0 else k) = Ok (g k) /\ nb <= g k < nb + n /\
      pad_position mode n nb (g k) = pad_position mode n nb (nb + n + k).
Proof.
  intros Hm (W1 & W2 & W) Hne Hn. cbn [fst snd] in *.
  assert (I : forall k, 0 <= k < ne -> k = if ne =? 1 then 0 else k) by (intros k Hk; destruct (ne =? 1) eqn:E; [apply Z.eqb_eq in E; lia|reflexivity]).
  destruct mode; [contradiction| | | | |]; cbn [after_slice].
  - eexists _, (SStep (nb + n - 1) ne (-1)), (fun k => nb + n - 1 - k). split; [reflexivity|]. split; [|split; [left; reflexivity|]].
    + destruct (ne =? nb + n) eqn:E.
      * apply Z.eqb_eq in E. rewrite back_all by lia. f_equal. f_equal. lia.
      * apply Z.eqb_neq in E. replace (nb + n - ne - 1) with (nb + n - 1 - ne) by lia. apply back_ok; lia.
    + intros k Hk. cbn [slice_size slice_at]. rewrite <- (I k Hk). split; [f_equal; lia|]. split; [lia|]. rewrite pad_position_in by lia.
      unfold pad_position. rewrite Z.mod_small by lia. destruct (nb + n + k - nb <? n) eqn:E; [apply Z.ltb_lt in E; lia|lia].
  - destruct W as [W|W]; [|lia]. eexists _, (SStep (nb + n - 2) ne (-1)), (fun k => nb + n - 2 - k). split; [reflexivity|]. split; [|split; [left; reflexivity|]].
    + destruct (ne =? nb + n - 1) eqn:E.
      * apply Z.eqb_eq in E. rewrite back_all by lia. f_equal. f_equal. lia.
      * apply Z.eqb_neq in E. replace (nb + n - ne - 2) with (nb + n - 2 - ne) by lia. apply back_ok; lia.
    + intros k Hk. cbn [slice_size slice_at]. rewrite <- (I k Hk). split; [f_equal; lia|]. split; [lia|]. rewrite pad_position_in by lia.
      unfold pad_position. destruct (Z.eq_dec k (n - 2)) as [Ek|Nk].
      * rewrite mod_up by lia. destruct (nb + n + k - nb - 2 * (n - 1) <? n) eqn:E; [lia|apply Z.ltb_ge in E; lia].
      * rewrite Z.mod_small by lia. destruct (nb + n + k - nb <? n) eqn:E; [apply Z.ltb_lt in E; lia|lia].
  - eexists _, (SRange nb ne), (fun k => nb + k). split; [reflexivity|]. split; [|split; [left; reflexivity|]].
    + apply range_ok; lia.
    + intros k Hk. cbn [slice_size slice_at]. rewrite <- (I k Hk). split; [reflexivity|]. split; [lia|]. rewrite pad_position_in by lia.
      unfold pad_position. rewrite mod_up by lia. lia.
  - eexists _, (SRange nb ne), (fun k => nb + k). split; [reflexivity|]. split; [|split; [left; reflexivity|]].
    + apply range_ok; lia.
    + intros k Hk. cbn [slice_size slice_at]. rewrite <- (I k Hk). split; [reflexivity|]. split; [lia|]. rewrite pad_position_in by lia.
      unfold pad_position. rewrite mod_up by lia. lia.
  - eexists _, (SRange (nb + n - 1) 1), (fun _ => nb + n - 1). split; [reflexivity|]. split; [|split; [right; reflexivity|]].
    + replace (nb + n + ne - ne - 1) with (nb + n - 1) by lia. replace (nb + n + ne - ne) with (nb + n - 1 + 1) by lia. apply range_ok; lia.
    + intros k Hk. cbn [slice_size slice_at]. cbn [Z.eqb]. split; [f_equal; apply Z.add_0_r|]. split; [lia|]. rewrite pad_position_in by lia.
      unfold pad_position. lia.
Qed.

(** ** The centre *)

Inductive centred : list Z -> list Z -> list Z -> list user_slice -> Prop :=
| centred_nil : centred [] [] [] []
| centred_cons n nb t u ns nbs ts us : 0 <= nb -> 0 <= n -> nb + n <= t -> resolve u t = Ok (SRange nb n) -> centred ns nbs ts us ->
    centred (n :: ns) (nb :: nbs) (t :: ts) (u :: us).
Fixpoint add2 (l j : list Z) : list Z := match l, j with a :: l', b :: j' => a + b :: add2 l' j' | _, _ => [] end.
Fixpoint ranges_of (nbs ns : list Z) : list slice := match nbs, ns with a :: l', b :: j' => SRange a b :: ranges_of l' j' | _, _ => [] end.

Lemma centred_slices ns nbs ts us : centred ns nbs ts us -> slices_of us ts = Ok (ranges_of nbs ns) /\ map slice_size (ranges_of nbs ns) = ns /\
  (forall j, in_bounds ns j -> region_index (ranges_of nbs ns) j = Ok (add2 nbs j) /\ in_bounds ts (add2 nbs j)) /\
  (forall i j, in_bounds ns i -> in_bounds ns j -> add2 nbs i = add2 nbs j -> i = j).
Proof.
  induction 1 as [|n nb t u ns nbs ts us H0 H1 H2 Hr H (E1 & E2 & E3 & E4)].
  - split; [reflexivity|]. split; [reflexivity|]. split.
    + intros j Hj. inversion Hj; subst. split; [reflexivity|constructor].
    + intros i j Hi Hj _. inversion Hi; inversion Hj; reflexivity.
  - cbn [slices_of ranges_of map slice_size]. rewrite Hr, E1, E2. split; [reflexivity|]. split; [reflexivity|]. split.
    + intros j Hj. inversion Hj as [|? x ? j' Hx Hj']; subst. cbn [region_index slice_at add2 bind]. destruct (E3 j' Hj') as [E5 E6]. rewrite E5. split; [reflexivity|].
      constructor; [lia|exact E6].
    + intros i j Hi Hj. inversion Hi as [|? x ? i' Hx Hi']; inversion Hj as [|? y ? j' Hy Hj']; subst. cbn [add2]. intros E. injection E as Ea Eb. f_equal; [lia|]. apply E4; assumption.
Qed.
Lemma fits_refl : forall q, fits_region q q = Ok tt.
Proof. induction q as [|d q IH]; cbn; [reflexivity|]. rewrite Z.eqb_refl. exact IH. Qed.
Lemma bcast_self : forall q j, in_bounds q j -> bcast_index q j = j.
Proof.
  induction 1 as [|n x q j Hx H IH]; cbn; [reflexivity|]. rewrite IH. destruct (n =? 1) eqn:E; [apply Z.eqb_eq in E; f_equal; lia|reflexivity].
Qed.

Section Make.
Context {V : Type} (TL : layout) (tmp : list slice -> bool) (HT : is_order TL).
Context (SL DL : layout) (fresh : list V -> Z -> list V) (Hfresh : resizes fresh) (n0 : nat) (v0 : V).

Lemma centre_set (c : cont V) sh v ns nbs us e ev : holds c sh v -> centred ns nbs sh us -> (forall j, in_bounds ns j -> e j = Ok (ev j)) ->
  exists c' w, region_set TL tmp c us ns (fun _ => e) = Ok c' /\ holds c' sh w /\ (forall j, in_bounds ns j -> w (add2 nbs j) = ev j) /\
    (forall ix, (forall j, in_bounds ns j -> ix <> add2 nbs j) -> w ix = v ix).
Proof.
  intros Hc Hce He. destruct (centred_slices _ _ _ _ Hce) as (E1 & E2 & E3 & E4).
  apply (region_set_ok TL tmp HT sh v ns (add2 nbs) ev) with (ss := ranges_of nbs ns).
  - intros j Hj. apply E3. exact Hj.
  - exact E4.
  - exact Hc.
  - exact E1.
  - exact E2.
  - apply fits_refl.
  - intros j Hj. apply E3. exact Hj.
  - intros c0 w0 _ _ j Hj. rewrite bcast_self by exact Hj. apply He. exact Hj.
Qed.

Lemma holds_self (c : cont V) : consistent c -> exists v, holds c (ct_shape c) v.
Proof.
  intros Hc. exists (fun ix => match elt c ix with Ok y => y | _ => v0 end). split; [exact Hc|]. split; [reflexivity|]. intros ix B.
  destruct Hc as (Hs & Ls & Lb & Ld & l & Hl & _ & Hoff). unfold elt. rewrite (Hoff ix B).
  pose proof (rank_bound l _ _ B) as Hr. rewrite <- Ld in Hr.
  destruct (nth_error (ct_data c) (Z.to_nat (rank l (ct_shape c) ix))) as [y|] eqn:E.
  - rewrite (rdz_ok _ _ y) by (try lia; exact E). reflexivity.
  - apply nth_error_None in E. lia.
Qed.
Lemma out_of_ok sh : is_shape sh -> exists c v, out_of SL DL fresh n0 v0 sh = Ok c /\ holds c sh v.
Proof.
  intros Hs. unfold out_of. destruct (resize_layout_ok (V := V) SL DL fresh Hfresh (c_default SL n0 v0) sh SL Hs) as [(_ & X & _)|(_ & r & E & C & _ & S & _)]; [congruence|].
  destruct (holds_self r C) as [v Hv]. rewrite S in Hv. exists r, v. split; [exact E|exact Hv].
Qed.
Lemma out_filled_ok sh x : is_shape sh -> exists c, out_filled SL DL fresh n0 v0 sh x = Ok c /\ holds c sh (fun _ => x).
Proof.
  intros Hs. destruct (out_of_ok sh Hs) as (c & v & E & H). unfold out_filled. rewrite E. cbn [bind]. eexists. split; [reflexivity|].
  destruct H as ((H1 & H2 & H3 & H4 & H5) & Esh & Hv). split; [|split; [exact Esh|]].
  - split; [exact H1|]. split; [exact H2|]. split; [exact H3|]. split; [cbn; rewrite map_length; exact H4|exact H5].
  - intros ix B. specialize (Hv ix B). unfold elt in *. cbn. unfold rdz, rd in *.
    destruct (element_offset (ct_strides c) ix <? 0); [discriminate|]. rewrite nth_error_map. destruct (nth_error (ct_data c) _); [reflexivity|discriminate].
Qed.
End Make.
