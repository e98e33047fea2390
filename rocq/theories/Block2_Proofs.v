(** Blockwise reducers: the cells of a chunk of the result. *)
From Coq Require Import List ZArith Lia Bool Arith Sorted.
From Verif Require Import Prelude PreludeFacts Strides_Model Strides_Spec Strides_Proofs Access_Model Slice_Model Container_Model Container_Spec Container_Proofs
  Reduce_Model Reduce_Spec Reduce_Proofs Reduce3_Proofs Reduce5_Proofs Reduce9_Proofs Reduce13_Proofs Chunk_Model Chunk_Spec Chunk_Proofs Chunk2_Proofs Chunk3_Proofs
  Block_Model Block_Spec Block_Proofs.
Import ListNotations.
Open Scope Z_scope.

(** ** Boxes and reduction *)

Lemma red_shift keep axes : forall q cs sh j k, length cs = length q -> length sh = length q -> length j = length q ->
  rix keep axes k (shift (boxes q cs sh) j) = shift (boxes (rix keep axes k q) (rsh keep axes k cs) (rsh keep axes k sh)) (rix keep axes k j).
Proof.
  induction q as [|x q IH]; intros [|c cs] [|s sh] [|y j] k H1 H2 H3; try discriminate.
  - rewrite !rix_nil. reflexivity.
  - cbn [boxes shift fst]. rewrite !rix_cons, !rsh_cons. cbn [length] in *.
    destruct (in_dec _ _ _), keep; cbn [boxes shift fst]; rewrite IH by lia; reflexivity.
Qed.
Lemma red_box keep axes : forall q cs sh k, length cs = length q -> length sh = length q ->
  sv_shape (boxes (rix keep axes k q) (rsh keep axes k cs) (rsh keep axes k sh)) = rsh keep axes k (sv_shape (boxes q cs sh)).
Proof.
  induction q as [|x q IH]; intros [|c cs] [|s sh] k H1 H2; try discriminate.
  - rewrite !rix_nil, !rsh_nil. reflexivity.
  - cbn [boxes sv_shape map fst snd]. rewrite !rix_cons, !rsh_cons. cbn [length] in *. fold (sv_shape (boxes q cs sh)).
    destruct (in_dec _ _ _), keep; cbn [boxes sv_shape map fst snd]; rewrite <- IH by lia; reflexivity.
Qed.

(** ** The number of elements of a block *)

Fixpoint paxes (axes : list Z) (k : Z) (sh : list Z) : Z :=
  match sh with [] => 1 | d :: sh' => (if in_dec Z.eq_dec k axes then d else 1) * paxes axes (k + 1) sh' end.

Lemma flat_map_const_length {A B} (g : A -> list B) n : forall l, (forall a, length (g a) = n) -> length (flat_map g l) = (length l * n)%nat.
Proof. induction l; intros H; cbn; [reflexivity|]. rewrite app_length, H, IHl by exact H. reflexivity. Qed.
Lemma nest_length axes : forall sh k jx, is_shape sh -> length jx = length sh -> Z.of_nat (length (nest axes k sh jx)) = paxes axes k sh.
Proof.
  induction sh as [|d sh IH]; intros k [|j jx] Hs L; try discriminate; [reflexivity|]. inversion Hs; subst. cbn [nest paxes].
  destruct (in_dec _ _ _).
  - rewrite (flat_map_const_length _ (length (nest axes (k + 1) sh jx))) by (intros; apply map_length).
    rewrite seq_length, Nat2Z.inj_mul, IH by (try assumption; cbn in L; lia). rewrite Z2Nat.id by assumption. reflexivity.
  - rewrite map_length, IH by (try assumption; cbn in L; lia). lia.
Qed.
Lemma block_length keep axes sh ix : is_shape sh -> in_bounds (red_shape keep axes sh) ix ->
  Z.of_nat (length (block row_major keep axes sh ix)) = paxes axes 0 sh.
Proof.
  intros Hs Hb. unfold block, indices_of. destruct keep; cbn [red_shape red_index] in *.
  - change (Z.of_nat (length (filter (fun jx => eqb_idx (replaced axes 0 0 jx) ix) (row_indices sh))) = paxes axes 0 sh).
    rewrite block_replaced by exact Hb. apply nest_length; [exact Hs|]. rewrite (in_bounds_length _ _ Hb). apply replaced_length.
  - change (Z.of_nat (length (filter (fun jx => eqb_idx (without axes 0 jx) ix) (row_indices sh))) = paxes axes 0 sh).
    rewrite (block_without axes sh 0 ix (repeat 0 (length sh)) Hb) by apply repeat_length. apply nest_length; [exact Hs|].
    rewrite fillw_length; [apply repeat_length|]. rewrite (in_bounds_length _ _ Hb), without_length, repeat_length. reflexivity.
Qed.

Lemma paxes_none axes : forall sh k, (forall a, In a axes -> a < k) -> paxes axes k sh = 1.
Proof.
  induction sh as [|d sh IH]; intros k H; [reflexivity|]. cbn [paxes]. destruct (in_dec _ _ _) as [Hi|_]; [apply H in Hi; lia|].
  rewrite IH; [reflexivity|]. intros a Ha. apply H in Ha. lia.
Qed.
Lemma paxes_drop a axes : forall sh k, a < k -> paxes (a :: axes) k sh = paxes axes k sh.
Proof.
  induction sh as [|d sh IH]; intros k H; [reflexivity|]. cbn [paxes]. rewrite IH by lia.
  destruct (in_dec Z.eq_dec k (a :: axes)) as [H1|H1], (in_dec Z.eq_dec k axes) as [H2|H2]; try reflexivity; exfalso.
  - destruct H1; [lia|contradiction].
  - apply H1. right. exact H2.
Qed.
Lemma axes_size_ok sh axes : valid_axes (length sh) axes -> axes_size sh axes = Ok (paxes axes 0 sh).
Proof.
  intros [Ha Hb]. unfold axes_size.
  assert (G : forall sh2 sh1 axes n, sh = sh1 ++ sh2 -> StronglySorted Z.lt axes -> Forall (fun a => Z.of_nat (length sh1) <= a < Z.of_nat (length sh)) axes ->
    for_each (fun a n => let* s := rdz sh a in Ok (n * s)) axes n = Ok (n * paxes axes (Z.of_nat (length sh1)) sh2)).
  { clear axes Ha Hb. induction sh2 as [|d sh2 IH]; intros sh1 axes n E Hs Hr.
    - destruct axes as [|a axes]; [cbn; f_equal; lia|]. inversion Hr; subst. rewrite app_nil_r in *. lia.
    - destruct axes as [|a axes]; [rewrite paxes_none by (intros a []); cbn; f_equal; lia|].
      inversion Hs as [|? ? Hs' Hlt]; subst. inversion Hr as [|? ? Hra Hr']; subst.
      assert (EZ : Z.of_nat (length sh1) + 1 = Z.of_nat (length (sh1 ++ [d]))) by (rewrite app_length; cbn; lia).
      cbn [paxes]. rewrite EZ. destruct (in_dec _ _ _) as [Hin|Hout].
      + assert (a = Z.of_nat (length sh1)).
        { destruct Hin as [|Hin]; [assumption|]. rewrite Forall_forall in Hlt. apply Hlt in Hin. lia. }
        subst a. cbn [for_each]. rewrite (rdz_ok _ _ d).
        * cbn [bind]. rewrite (IH (sh1 ++ [d]) axes).
          -- rewrite paxes_drop by lia. f_equal. lia.
          -- rewrite <- app_assoc. reflexivity.
          -- exact Hs'.
          -- rewrite Forall_forall in *. intros b Hb. specialize (Hlt b Hb). specialize (Hr' b Hb). rewrite !app_length in *. cbn [length] in *. lia.
        * lia.
        * rewrite Nat2Z.id, nth_error_app2, Nat.sub_diag by lia. reflexivity.
      + rewrite (IH (sh1 ++ [d])).
        * f_equal. lia.
        * rewrite <- app_assoc. reflexivity.
        * exact Hs.
        * assert (a <> Z.of_nat (length sh1)) by (intros ->; apply Hout; left; reflexivity).
          rewrite Forall_forall in *. intros b Hb. assert (Z.of_nat (length sh1) < b).
          { destruct Hb as [ <- |Hb]; [lia|]. specialize (Hlt b Hb). lia. }
          specialize (Hr b Hb). rewrite !app_length in *. cbn [length] in *. lia. }
  rewrite (G sh [] axes 1 eq_refl Ha Hb). f_equal. cbn [length]. change (Z.of_nat 0) with 0. lia.
Qed.

(** ** The cells *)

Section Cells.
  Context {J C R : Type} (o : J -> Z) (upd_cell : J -> R * C -> R * C).

  Lemma merge_cells L : forall k0 (cs : list C) (d : list R), NoDup L -> (k0 + length L <= length cs)%nat ->
    (forall j, In j L -> 0 <= o j < Z.of_nat (length d)) ->
    (forall i j, In i L -> In j L -> Z.to_nat (o i) = Z.to_nat (o j) -> i = j) ->
    exists cs' d', for_each (fun j '(k, (cs, d)) =>
          let* r := rdz d (o j) in
          let* c := rd cs k in
          let '(r', c') := upd_cell j (r, c) in
          let* d' := wrz d (o j) r' in
          let* cs' := wr cs k c' in
          Ok (S k, (cs', d'))) L (k0, (cs, d)) = Ok ((k0 + length L)%nat, (cs', d')) /\
      length cs' = length cs /\ length d' = length d /\
      (forall i j r c, nth_error L i = Some j -> nth_error d (Z.to_nat (o j)) = Some r -> nth_error cs (k0 + i) = Some c ->
         nth_error d' (Z.to_nat (o j)) = Some (fst (upd_cell j (r, c))) /\ nth_error cs' (k0 + i) = Some (snd (upd_cell j (r, c)))) /\
      (forall p, (forall j, In j L -> p <> Z.to_nat (o j)) -> nth_error d' p = nth_error d p) /\
      (forall k, (k < k0)%nat -> nth_error cs' k = nth_error cs k).
  Proof.
    induction L as [|j L IH]; intros k0 cs d Hn Hc Ho Hi.
    - exists cs, d. cbn [for_each length]. rewrite Nat.add_0_r. split; [reflexivity|]. split; [reflexivity|]. split; [reflexivity|]. split; [|split; reflexivity]. intros [|i] j r c Hx; discriminate Hx.
    - inversion Hn as [|? ? Hnj Hn']; subst. cbn [for_each length] in *.
      assert (Hj : 0 <= o j < Z.of_nat (length d)) by (apply Ho; left; reflexivity).
      destruct (nth_error d (Z.to_nat (o j))) as [r|] eqn:Er; [|apply nth_error_None in Er; lia].
      destruct (nth_error cs k0) as [c|] eqn:Ec; [|apply nth_error_None in Ec; lia].
      rewrite (rdz_ok _ _ _ (proj1 Hj) Er). cbn [bind]. rewrite (rd_ok _ _ _ Ec). cbn [bind].
      destruct (upd_cell j (r, c)) as [r' c'] eqn:Eu. rewrite (wrz_ok _ _ _ Hj). cbn [bind]. rewrite wr_ok by lia. cbn [bind].
      destruct (IH (S k0) (upd cs k0 c') (upd d (Z.to_nat (o j)) r')) as (cs' & d' & E & L1 & L2 & H1 & H2 & H3).
      + exact Hn'.
      + rewrite upd_length. lia.
      + intros x Hx. rewrite upd_length. apply Ho. right. exact Hx.
      + intros x y Hx Hy. apply Hi; right; assumption.
      + exists cs', d'. rewrite E. rewrite upd_length in L1. rewrite upd_length in L2. split; [do 2 f_equal; lia|]. split; [exact L1|]. split; [exact L2|].
        assert (Hne : forall x, In x L -> Z.to_nat (o j) <> Z.to_nat (o x)).
        { intros x Hx Eq. apply Hi in Eq; [subst; contradiction|left; reflexivity|right; exact Hx]. }
        split; [|split].
        * intros [|i] x r0 c0 Hx Hr Hc0; cbn [nth_error] in Hx.
          -- injection Hx as <-. rewrite Er in Hr. injection Hr as <-. rewrite Nat.add_0_r in *. rewrite Ec in Hc0. injection Hc0 as <-. rewrite Eu. cbn [fst snd].
             split; [rewrite H2 by exact Hne; apply nth_error_upd_same; lia|rewrite H3 by lia; apply nth_error_upd_same; lia].
          -- replace (k0 + S i)%nat with (S k0 + i)%nat in * by lia. apply H1; [exact Hx| |].
             ++ rewrite nth_error_upd_other; [exact Hr|]. apply not_eq_sym. intros Eq. apply (Hne x); [eapply nth_error_In; exact Hx|congruence].
             ++ rewrite nth_error_upd_other by lia. exact Hc0.
        * intros p Hp. rewrite H2 by (intros x Hx; apply Hp; right; exact Hx). apply nth_error_upd_other.
          intros Eq. apply (Hp j); [left; reflexivity|congruence].
        * intros k Hk. rewrite H3 by lia. apply nth_error_upd_other. lia.
  Qed.

  Context (g : R -> R).
  Lemma final_cells L : forall d : list R, NoDup L ->
    (forall j, In j L -> 0 <= o j < Z.of_nat (length d)) ->
    (forall i j, In i L -> In j L -> Z.to_nat (o i) = Z.to_nat (o j) -> i = j) ->
    exists d', for_each (fun j d => let* r := rdz d (o j) in wrz d (o j) (g r)) L d = Ok d' /\ length d' = length d /\
      (forall j r, In j L -> nth_error d (Z.to_nat (o j)) = Some r -> nth_error d' (Z.to_nat (o j)) = Some (g r)) /\
      (forall p, (forall j, In j L -> p <> Z.to_nat (o j)) -> nth_error d' p = nth_error d p).
  Proof.
    induction L as [|j L IH]; intros d Hn Ho Hi.
    - exists d. cbn [for_each]. repeat split; try reflexivity; intros j r [].
    - inversion Hn as [|? ? Hnj Hn']; subst. cbn [for_each].
      assert (Hj : 0 <= o j < Z.of_nat (length d)) by (apply Ho; left; reflexivity).
      destruct (nth_error d (Z.to_nat (o j))) as [r|] eqn:Er; [|apply nth_error_None in Er; lia].
      rewrite (rdz_ok _ _ _ (proj1 Hj) Er). cbn [bind]. rewrite (wrz_ok _ _ _ Hj). cbn [bind].
      destruct (IH (upd d (Z.to_nat (o j)) (g r))) as (d' & E & L2 & H1 & H2).
      + exact Hn'.
      + intros x Hx. rewrite upd_length. apply Ho. right. exact Hx.
      + intros x y Hx Hy. apply Hi; right; assumption.
      + exists d'. split; [exact E|]. rewrite upd_length in L2. split; [exact L2|].
        assert (Hne : forall x, In x L -> Z.to_nat (o j) <> Z.to_nat (o x)).
        { intros x Hx Eq. apply Hi in Eq; [subst; contradiction|left; reflexivity|right; exact Hx]. }
        split.
        * intros x r0 [ <- |Hx] Hr.
          -- rewrite Er in Hr. injection Hr as <-. rewrite H2 by exact Hne. apply nth_error_upd_same. lia.
          -- apply H1; [exact Hx|]. rewrite nth_error_upd_other; [exact Hr|]. apply not_eq_sym. intros Eq. apply (Hne x Hx). congruence.
        * intros p Hp. rewrite H2 by (intros x Hx; apply Hp; right; exact Hx). apply nth_error_upd_other.
          intros Eq. apply (Hp j); [left; reflexivity|congruence].
  Qed.
End Cells.

Lemma merged_snoc {T B C R} (f : bfun T B C R) l v r : merged f (l ++ [v]) r = bf_merge f v (length l =? 0)%nat (merged f l r).
Proof. destruct l as [|x l]; [reflexivity|]. cbn [app merged length Nat.eqb]. rewrite fold_left_app. reflexivity. Qed.

(** ** A chunk of the result *)

Section Chunk.
  Context {T B C R : Type} (TL : layout) (HTL : is_order TL) (f : bfun T B C R) (ev : list Z -> T).
  Context (esh cs axes : list Z) (keep : bool) (H : chunkable esh cs) (Hv : valid_axes (length esh) axes) (Ha : addressable esh).
  Context (c : cont R) (Hc : consistent c) (Hsh : ct_shape c = red_shape keep axes esh).
  Let rcs := red_shape keep axes cs.
  Let rsh0 := red_shape keep axes esh.

  Definition blocks_of (q : list Z) : list (list Z) :=
    all_blocks (map fst (lohi keep axes 0 esh (ceils esh cs) q)) (map snd (lohi keep axes 0 esh (ceils esh cs) q)).
  Definition part (j p : list Z) : list (list Z) :=
    map (shift (boxes p cs esh)) (block row_major keep axes (sv_shape (boxes p cs esh)) j).
  Definition value (j p : list Z) : B := bf_compute f (Z.of_nat (length (part j p))) (map ev (part j p)).

  Lemma chunkable_len : length cs = length esh. Proof. apply chunkable_length. exact H. Qed.
  Lemma rchunkable : chunkable rsh0 rcs.
  Proof. apply (chunkable_red keep axes esh cs 0 H). Qed.
  Lemma rceils : ceils rsh0 rcs = red_shape keep axes (ceils esh cs).
  Proof. apply (ceils_red keep axes esh cs 0 H). Qed.

  Lemma blocks_in q p : in_bounds (ceils rsh0 rcs) q -> In p (blocks_of q) <-> in_bounds (ceils esh cs) p /\ red_index keep axes p = q.
  Proof.
    intros Hq. rewrite rceils in Hq. pose proof (range_in keep axes esh cs 0 q p H Hq) as E. cbv zeta in E. unfold blocks_of, all_blocks.
    change (red_index keep axes p) with (rix keep axes 0 p). rewrite <- E. rewrite in_map_iff. split.
    - intros (j & <- & Hj). exists j. split; [apply row_indices_in; exact Hj|reflexivity].
    - intros (j & Hj & ->). exists j. split; [reflexivity|apply row_indices_in; exact Hj].
  Qed.

  Lemma box_shape q p : in_bounds (ceils rsh0 rcs) q -> In p (blocks_of q) ->
    sv_shape (boxes q rcs rsh0) = red_shape keep axes (sv_shape (boxes p cs esh)).
  Proof.
    intros Hq Hp. apply blocks_in in Hp as [Hp <-]; [|exact Hq]. pose proof (in_bounds_length _ _ Hp) as L. rewrite (ceils_length _ _ H) in L.
    apply (red_box keep axes p cs esh 0); [rewrite chunkable_len; lia|lia].
  Qed.
  Lemma box_is p : in_bounds (ceils esh cs) p -> is_shape (sv_shape (boxes p cs esh)) /\ length (sv_shape (boxes p cs esh)) = length esh.
  Proof.
    intros Hp. split; [apply box_le; assumption|]. unfold sv_shape. rewrite map_length. apply boxes_length; [exact H|].
    rewrite (in_bounds_length _ _ Hp). apply ceils_length. exact H.
  Qed.

  Lemma small_dims : Forall (fun d => 0 <= d < 2 ^ 64) (ceils esh cs).
  Proof.
    destruct Ha as [_ Ha']. clear - H Ha'. induction H as [|s c0 sh cs0 [Hs Hc0] H' IH]; [constructor|]. inversion Ha'; subst. cbn [ceils].
    constructor; [|apply IH; assumption]. pose proof (Z.div_pos s c0 ltac:(lia) ltac:(lia)). pose proof (Z.mod_pos_bound s c0 ltac:(lia)).
    pose proof (Z.div_mod s c0 ltac:(lia)). destruct (Z.ltb_spec 0 (s mod c0)); nia.
  Qed.

  Let off j := Z.to_nat (element_offset (ct_strides c) j).

  Lemma chunk_ok q n d st : in_bounds (ceils rsh0 rcs) q -> length d = length (ct_data c) -> length st = length esh ->
    exists d', assign_to_chunk TL f
        (mk_breducer (mk_chunking esh cs (ceils esh cs)) axes keep rsh0 rcs (the_map keep axes 0 (length esh)) st)
        (ct_strides c) ev (mk_it q n (boxes q rcs rsh0)) d = Ok d' /\ length d' = length (ct_data c) /\
      (forall j r, in_bounds (sv_shape (boxes q rcs rsh0)) j -> nth_error d (off (shift (boxes q rcs rsh0) j)) = Some r ->
         nth_error d' (off (shift (boxes q rcs rsh0) j)) = Some (bf_final f (paxes axes 0 esh) (fst (merged f (map (value j) (blocks_of q)) r)))) /\
      (forall p, (forall j, in_bounds (sv_shape (boxes q rcs rsh0)) j -> p <> off (shift (boxes q rcs rsh0) j)) -> nth_error d' p = nth_error d p).
  Proof.
    intros Hq Ld Ls. unfold assign_to_chunk. cbn [it_slices it_index b_in b_axes b_keep g_shape].
    assert (Hqc : in_bounds (ceils (ct_shape c) rcs) q) by (rewrite Hsh; exact Hq).
    assert (Hrc : chunkable (ct_shape c) rcs) by (rewrite Hsh; exact rchunkable).
    assert (Lq : length q = length (red_shape keep axes esh)).
    { rewrite (in_bounds_length _ _ Hq). rewrite (ceils_length rsh0 rcs rchunkable). reflexivity. }
    assert (EA : map (normalize_axis (length esh)) axes = axes).
    { destruct Hv as [_ F]. clear - F. induction F as [|a l Ha0 F IH]; [reflexivity|]. cbn [map]. rewrite IH. f_equal. unfold normalize_axis. destruct (Z.ltb_spec a 0); lia. }
    rewrite EA. unfold rsh0 at 1, rcs at 1. rewrite (range_ok esh cs axes keep st q H Lq). cbn [bind].
    set (r := lohi keep axes 0 esh (ceils esh cs) q).
    assert (Lr : length (map snd r) = length (map fst r)) by (rewrite !map_length; reflexivity).
    pose proof (subz_lohi keep axes esh cs 0 q H) as Hd. fold r in Hd.
    assert (Hd1 : Forall (fun d => 0 <= d < 2 ^ 64) (subz (map snd r) (map fst r))).
    { pose proof small_dims as Sm. clear - Hd Sm. induction Hd as [|x y l l' Hxy Hd IH]; [constructor|]. inversion Sm; subst. constructor; [lia|]. apply IH. assumption. }
    assert (Hd2 : is_shape (subz (map snd r) (map fst r))) by (eapply Forall_impl; [|exact Hd1]; cbn; intros; lia).
    rewrite mi_count_ok by assumption. cbn [bind]. pose proof (all_blocks_length (map fst r) (map snd r) Hd2) as LB. rewrite <- LB, Nat2Z.id. clear LB.
    set (rsl := boxes q rcs rsh0). set (L := indices_of TL (sv_shape rsl)).
    assert (HL : forall j, In j L <-> in_bounds (sv_shape rsl) j) by (intros j; apply indices_of_in; exact HTL).
    assert (HN : NoDup L) by (apply indices_of_nodup; exact HTL).
    assert (Hoff : forall j, In j L -> 0 <= element_offset (ct_strides c) (shift rsl j) < Z.of_nat (length d)).
    { intros j Hj. rewrite Ld. apply cons_off; [exact Hc|]. rewrite Hsh. apply box_bounds; [exact rchunkable|exact Hq|]. apply HL. exact Hj. }
    assert (Hinj : forall i j, In i L -> In j L -> Z.to_nat (element_offset (ct_strides c) (shift rsl i)) = Z.to_nat (element_offset (ct_strides c) (shift rsl j)) -> i = j).
    { intros i j Hi Hj E. apply HL in Hi, Hj. apply cons_inj in E; [|exact Hc|rewrite Hsh; apply box_bounds; [exact rchunkable|exact Hq|assumption]..].
      apply (box_inj rsh0 rcs q q i j rchunkable) in E; try assumption. apply E. }
    destruct (mi_loop (map fst r) (map snd r) Lr Hd2
      (fun n '(cs', d') => length cs' = length L /\ length d' = length d /\
         (forall k j r, nth_error L k = Some j -> nth_error d (off (shift rsl j)) = Some r ->
            nth_error d' (off (shift rsl j)) = Some (fst (merged f (map (value j) (firstn n (blocks_of q))) r)) /\
            nth_error cs' k = Some (snd (merged f (map (value j) (firstn n (blocks_of q))) r))) /\
         (forall p, (forall j, In j L -> p <> off (shift rsl j)) -> nth_error d' p = nth_error d p))
      (fun (_ : nat) '(cur, first, s) =>
        let* it := input_iter (mk_breducer (mk_chunking esh cs (ceils esh cs)) axes keep rsh0 rcs (the_map keep axes 0 (length esh)) st) cur in
        let* z := make_reducer (sv_shape (it_slices it)) axes keep (None (A := R)) in
        let* w := axes_size (sv_shape (it_slices it)) axes in
        let* s' := merge_chunk TL f (ct_strides c) rsl (it_slices it) axes keep (r_shape z) w ev first s in
        let* cur' := mi_next (map fst r) (map snd r) cur in
        Ok (cur', false, s')) (repeat (bf_start f) (length L), d)) as (q1 & fst1 & [cs' d'] & E & L1 & L2 & H1 & H2).
    - split; [apply repeat_length|]. split; [reflexivity|]. split; [|reflexivity]. intros k j r0 Hk Hr. cbn [firstn map merged fst snd]. split; [exact Hr|].
      apply nth_error_repeat. apply nth_error_Some. rewrite Hk. discriminate.
    - intros i m p [cs1 d1] Hm (M1 & M2 & M3 & M4).
      assert (Hin : In p (blocks_of q)) by (eapply nth_error_In; exact Hm).
      pose proof Hin as Hin'. apply blocks_in in Hin' as [Hpb Hpr]; [|exact Hq]. destruct (box_is p Hpb) as [Hbs Hbl].
      destruct (input_iter_ok esh cs axes keep rsh0 rcs (the_map keep axes 0 (length esh)) st p H Ls) as (n1 & Ei).
      { rewrite (in_bounds_length _ _ Hpb). apply ceils_length. exact H. }
      rewrite Ei. cbn [bind it_slices]. rewrite make_reducer_ok; [|rewrite Hbl; apply Ha|rewrite Hbl; exact Hv]. cbn [bind r_shape].
      rewrite axes_size_ok by (rewrite Hbl; exact Hv). cbn [bind]. unfold merge_chunk.
      rewrite <- (box_shape q p Hq Hin). fold rsl. destruct (list_eq_dec _ _ _) as [_|Ne]; [|exfalso; apply Ne; reflexivity].
      destruct (merge_cells (fun j => element_offset (ct_strides c) (shift rsl j))
        (fun j => bf_merge f (bf_compute f (paxes axes 0 (sv_shape (boxes p cs esh))) (map (fun jx => ev (shift (boxes p cs esh) jx)) (block row_major keep axes (sv_shape (boxes p cs esh)) j))) (m =? 0)%nat)
        L 0 cs1 d1) as (cs2 & d2 & E2 & N1 & N2 & N3 & N4 & _).
      + exact HN.
      + lia.
      + intros j Hj. rewrite M2. apply Hoff. exact Hj.
      + exact Hinj.
      + exists (cs2, d2). split.
        * split; [congruence|]. split; [congruence|]. split.
          -- intros k j r0 Hk Hr. destruct (M3 k j r0 Hk Hr) as [G1 G2]. destruct (N3 k j _ _ Hk G1 G2) as [F1 F2].
             assert (Ef : firstn (S m) (blocks_of q) = firstn m (blocks_of q) ++ [p]).
             { clear - Hm. unfold blocks_of. fold r. revert Hm. generalize (all_blocks (map fst r) (map snd r)).
               induction m as [|m IH]; intros [|x l] Hm; try discriminate; cbn in *; [congruence|]. f_equal. apply IH. exact Hm. }
             rewrite Ef, map_app. cbn [map]. rewrite merged_snoc, map_length.
             assert (El : (length (firstn m (blocks_of q)) =? 0)%nat = (m =? 0)%nat).
             { assert (m < length (blocks_of q))%nat by (apply nth_error_Some; unfold blocks_of; fold r; rewrite Hm; discriminate). rewrite firstn_length, Nat.min_l by lia. reflexivity. }
             rewrite El.
             assert (Ev : value j p = bf_compute f (paxes axes 0 (sv_shape (boxes p cs esh))) (map (fun jx => ev (shift (boxes p cs esh) jx)) (block row_major keep axes (sv_shape (boxes p cs esh)) j))).
             { unfold value, part. rewrite map_length, map_map. rewrite block_length; [reflexivity|exact Hbs|]. rewrite <- (box_shape q p Hq Hin). fold rsl.
               apply HL. eapply nth_error_In. exact Hk. }
             rewrite Ev. rewrite <- surjective_pairing in F1, F2. split; [exact F1|exact F2].
          -- intros p0 Hp0. rewrite N4 by exact Hp0. apply M4. exact Hp0.
        * cbn beta zeta in E2. cbn zeta. fold L. rewrite E2. cbn [bind]. reflexivity.
    - cbn beta in E. rewrite E. cbn [bind]. rewrite axes_size_ok by exact Hv. cbn [bind]. unfold on_cell.
      destruct (final_cells (fun j => element_offset (ct_strides c) (shift rsl j)) (bf_final f (paxes axes 0 esh)) L d' HN) as (d2 & E2 & N1 & N2 & N3).
      + intros j Hj. rewrite L2. apply Hoff. exact Hj.
      + exact Hinj.
      + exists d2. split; [exact E2|]. split; [congruence|]. split.
        * intros j r0 Hj Hr. apply HL in Hj. destruct (In_nth_error _ _ Hj) as (k & Hk). destruct (H1 k j r0 Hk Hr) as [G1 _].
          apply N2; [exact Hj|]. rewrite firstn_all2 in G1 by (unfold blocks_of; fold r; lia). exact G1.
        * intros p Hp. rewrite N3, H2; [reflexivity|intros j Hj; apply Hp, HL, Hj..].
  Qed.

  (** ** All chunks of the result *)
  Definition total (ix : list Z) (r : R) : R :=
    bf_final f (paxes axes 0 esh) (fst (merged f (map (value (mods ix rcs)) (blocks_of (divs ix rcs))) r)).

  Lemma assign_ok : exists b c', make_breducer esh cs axes keep = Ok b /\ b_shape b = red_shape keep axes esh /\
    assign_to TL f b ev c = Ok c' /\ consistent c' /\ (ct_shape c' = ct_shape c /\ ct_strides c' = ct_strides c /\ ct_layout c' = ct_layout c) /\
    forall ix r, in_bounds rsh0 ix -> elt c ix = Ok r -> elt c' ix = Ok (total ix r).
  Proof.
    destruct (make_ok esh cs axes keep H Hv) as (st & Eb & Ls). rewrite Eb. eexists. 
    assert (Hrc : chunkable (ct_shape c) rcs) by (rewrite Hsh; exact rchunkable).
    assert (K : exists c', assign_to TL f (mk_breducer (mk_chunking esh cs (ceils esh cs)) axes keep (red_shape keep axes esh) (red_shape keep axes cs) (the_map keep axes 0 (length esh)) st) ev c = Ok c' /\
      consistent c' /\ (ct_shape c' = ct_shape c /\ ct_strides c' = ct_strides c /\ ct_layout c' = ct_layout c) /\ forall ix r, in_bounds rsh0 ix -> elt c ix = Ok r -> elt c' ix = Ok (total ix r)).
    2: { destruct K as (c' & K1 & K2 & K3 & K4). exists c'. split; [reflexivity|]. split; [reflexivity|]. auto. }
    unfold assign_to. cbn [b_chunk]. fold rcs. unfold view_chunking. rewrite (grid_ok _ _ Hrc). cbn [bind g_grid]. rewrite compute_size_prod.
    set (b := mk_breducer _ _ _ _ _ _ _).
    destruct (loop_ok (ct_shape c) rcs Hrc
      (fun n d => length d = length (ct_data c) /\ forall ix, in_bounds rsh0 ix ->
         (row_pos (ceils rsh0 rcs) (divs ix rcs) < n -> forall r, nth_error (ct_data c) (off ix) = Some r -> nth_error d (off ix) = Some (total ix r)) /\
         (n <= row_pos (ceils rsh0 rcs) (divs ix rcs) -> nth_error d (off ix) = nth_error (ct_data c) (off ix)))
      (fun it d => assign_to_chunk TL f b (ct_strides c) ev it d) (ct_data c)) as (it & it' & d' & E1 & E2 & L & HP).
    - split; [reflexivity|]. intros ix Hb. split; [|reflexivity]. intros Hn. exfalso. destruct (decomp _ _ _ rchunkable Hb) as (Hq & _).
      pose proof (rank_bound row_major _ _ Hq) as Hrb. cbn in Hrb. lia.
    - rewrite Hsh. change (red_shape keep axes esh) with rsh0. intros q d Hq (Ld & Hd).
      destruct (chunk_ok q (row_pos (ceils rsh0 rcs) q) d st Hq Ld Ls) as (d' & E & L & C1 & C2).
      exists d'. split; [exact E|]. split; [exact L|]. intros ix Hb. destruct (Hd ix Hb) as [D1 D2].
      destruct (decomp _ _ _ rchunkable Hb) as (X1 & X2 & X3 & _).
      destruct (list_eq_dec Z.eq_dec (divs ix rcs) q) as [Eq|Ne].
      + split; [|intros; rewrite Eq in *; lia]. intros _ r Hr. rewrite Eq in *. specialize (C1 (mods ix rcs) r X2). rewrite X3 in C1.
        unfold total. rewrite Eq. apply C1. rewrite D2 by lia. exact Hr.
      + assert (row_pos (ceils rsh0 rcs) (divs ix rcs) <> row_pos (ceils rsh0 rcs) q).
        { intros Eq. apply Ne. apply (rank_inj row_major (ceils rsh0 rcs)); assumption. }
        assert (Es : nth_error d' (off ix) = nth_error d (off ix)).
        { apply C2. intros j Hj Eq. apply Ne. unfold off in Eq. apply cons_inj in Eq; [|exact Hc|rewrite Hsh; exact Hb|rewrite Hsh; apply box_bounds; [exact rchunkable|exact Hq|exact Hj]].
          rewrite Eq. apply (recomp _ _ _ _ rchunkable Hq Hj). }
        rewrite Es. split; [intros Hn; apply D1; lia|intros Hn; apply D2; lia].
    - rewrite E1. cbn [bind]. cbn beta in E2. rewrite E2. cbn [bind]. eexists. split; [reflexivity|].
      split; [apply upd_with_buffer_consistent; assumption|]. split; [repeat split|]. intros ix r Hb Hr. unfold elt in *. cbn [with_buffer ct_data ct_strides].
      assert (Ho : 0 <= element_offset (ct_strides c) ix < Z.of_nat (length (ct_data c))) by (apply cons_off; [exact Hc|rewrite Hsh; exact Hb]).
      apply rdz_ok; [lia|]. apply (HP ix Hb).
      + destruct (decomp _ _ _ rchunkable Hb) as (Hq & _). rewrite Hsh. apply (rank_bound row_major _ _ Hq).
      + destruct (nth_error (ct_data c) (off ix)) as [r'|] eqn:E; [|apply nth_error_None in E; unfold off in E; lia].
        rewrite (rdz_ok _ _ _ (proj1 Ho) E) in Hr. congruence.
  Qed.
End Chunk.
