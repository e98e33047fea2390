(** Blockwise reducers: the blocks make up the reduced elements; the functors. *)
From Coq Require Import List ZArith Lia Bool Arith Sorted Permutation QArith Qfield.
From Verif Require Import Prelude PreludeFacts Strides_Model Strides_Spec Strides_Proofs Access_Model Slice_Model Container_Model Container_Spec Container_Proofs
  Reduce_Model Reduce_Spec Reduce_Proofs Reduce3_Proofs Reduce5_Proofs Reduce9_Proofs Reduce13_Proofs Chunk_Model Chunk_Spec Chunk_Proofs Chunk2_Proofs Chunk3_Proofs
  Block_Model Block_Spec Block_Proofs Block2_Proofs.
Import ListNotations.
Open Scope Z_scope.

Lemma nodup_map_in {A B} (g : A -> B) : forall l, NoDup l -> (forall x y, In x l -> In y l -> g x = g y -> x = y) -> NoDup (map g l).
Proof.
  induction l as [|a l IH]; intros Hn Hg; [constructor|]. inversion Hn; subst. cbn. constructor.
  - intros Hi. apply in_map_iff in Hi as (x & E & Hx). apply Hg in E; [subst; contradiction|right; exact Hx|left; reflexivity].
  - apply IH; [assumption|]. intros x y Hx Hy. apply Hg; right; assumption.
Qed.
Lemma nodup_concat {A B} (g : A -> list B) : forall l, NoDup l -> (forall x, In x l -> NoDup (g x)) ->
  (forall x y b, In x l -> In y l -> In b (g x) -> In b (g y) -> x = y) -> NoDup (concat (map g l)).
Proof.
  induction l as [|a l IH]; intros Hn Hg Hd; [constructor|]. inversion Hn as [|? ? Ha Hn']; subst. cbn.
  assert (G : forall (l1 l2 : list B), NoDup l1 -> NoDup l2 -> (forall x, In x l1 -> ~ In x l2) -> NoDup (l1 ++ l2)).
  { induction l1 as [|z l1 IH1]; intros l2 N1 N2 Hdd; [exact N2|]. inversion N1; subst. cbn. constructor.
    - rewrite in_app_iff. intros [X|X]; [contradiction|]. apply (Hdd z); [left; reflexivity|exact X].
    - apply IH1; auto. intros x Hx. apply Hdd. right. exact Hx. }
  apply G.
  - apply Hg. left. reflexivity.
  - apply IH; [exact Hn'|intros; apply Hg; right; assumption|]. intros x y b Hx Hy. apply Hd; right; assumption.
  - intros b Hb Hc. apply in_concat in Hc as (m & Hm & Hbm). apply in_map_iff in Hm as (y & <- & Hy).
    apply Ha. rewrite (Hd a y b); [exact Hy|left; reflexivity|right; exact Hy|exact Hb|exact Hbm].
Qed.

Lemma box_pos esh cs p : chunkable esh cs -> in_bounds (ceils esh cs) p -> Forall (fun d => 0 < d) (sv_shape (boxes p cs esh)).
Proof.
  intros H. revert p. induction H as [|s c sh cs0 [Hs Hc] H' IH]; intros p Hp; cbn [ceils] in Hp; inversion Hp as [|? x ? p' Hx Hp']; subst; [constructor|].
  cbn [boxes sv_shape map fst snd]. constructor; [|apply IH; exact Hp']. assert (x * c < s) by (apply ceil_spec; lia). lia.
Qed.

Lemma in_block keep axes sh ix jx : In jx (block row_major keep axes sh ix) <-> in_bounds sh jx /\ red_index keep axes jx = ix.
Proof.
  unfold block, indices_of. rewrite filter_In, row_indices_in. destruct (list_eq_dec _ _ _) as [E|E]; intuition congruence.
Qed.
Lemma block_nodup keep axes sh ix : NoDup (block row_major keep axes sh ix).
Proof. apply NoDup_filter. apply (row_indices_nodup sh). Qed.

Lemma addz_inj : forall b x y, length x = length b -> length y = length b -> addz b x = addz b y -> x = y.
Proof.
  induction b as [|b0 b IH]; intros [|x0 x] [|y0 y] Hx Hy E; try discriminate; [reflexivity|]. cbn in E. injection E as E0 E.
  f_equal; [lia|]. apply IH; [cbn in *; lia..|exact E].
Qed.
Section Parts.
  Context {T B C R : Type} (TL : layout) (HTL : is_order TL) (f : bfun T B C R) (ev : list Z -> T).
  Context (esh cs axes : list Z) (keep : bool) (H : chunkable esh cs) (Hv : valid_axes (length esh) axes) (Ha : addressable esh).
  Let rcs := red_shape keep axes cs.
  Let rsh0 := red_shape keep axes esh.
  Let blocks q := blocks_of esh cs axes keep q.
  Let prt j p := part esh cs axes keep j p.

  Lemma blocks_nodup q : NoDup (blocks q).
  Proof.
    unfold blocks, blocks_of, all_blocks. apply nodup_map_in; [apply row_indices_nodup|]. intros x y Hx Hy E.
    apply row_indices_in in Hx, Hy. apply in_bounds_length in Hx, Hy. rewrite subz_length in Hx, Hy by (rewrite !map_length; reflexivity).
    apply addz_inj in E; assumption.
  Qed.

  Lemma box_length p : in_bounds (ceils esh cs) p -> length (boxes p cs esh) = length esh /\ length p = length esh.
  Proof.
    intros Hp. pose proof (in_bounds_length _ _ Hp) as L. rewrite (ceils_length _ _ H) in L. split; [apply boxes_length; [exact H|exact L]|exact L].
  Qed.

  Lemma parts_perm ix : in_bounds rsh0 ix ->
    Permutation (concat (map (prt (mods ix rcs)) (blocks (divs ix rcs)))) (block row_major keep axes esh ix).
  Proof.
    intros Hb. pose proof (chunkable_red keep axes esh cs 0 H) as Hr. change (chunkable rsh0 rcs) in Hr.
    destruct (decomp _ _ _ Hr Hb) as (Hq & Hj & Es & _). set (q := divs ix rcs) in *. set (j := mods ix rcs) in *.
    assert (Hin : forall p, In p (blocks q) <-> in_bounds (ceils esh cs) p /\ red_index keep axes p = q) by (intros p; apply blocks_in; [exact H|exact Hq]).
    pose proof (chunkable_length _ _ H) as Lc.
    assert (Hred : forall p jb, in_bounds (ceils esh cs) p -> in_bounds (sv_shape (boxes p cs esh)) jb ->
      red_index keep axes (shift (boxes p cs esh) jb) = shift (boxes (red_index keep axes p) rcs rsh0) (red_index keep axes jb)).
    { intros p jb Hp Hjb. destruct (box_length p Hp) as [L1 L2]. apply (red_shift keep axes p cs esh jb 0); try lia.
      rewrite (in_bounds_length _ _ Hjb). unfold sv_shape. rewrite map_length. lia. }
    assert (Hprt : forall p x, In p (blocks q) -> In x (prt j p) <-> exists jb, x = shift (boxes p cs esh) jb /\ in_bounds (sv_shape (boxes p cs esh)) jb /\ red_index keep axes jb = j).
    { intros p x Hp. unfold prt, part. rewrite in_map_iff. split.
      - intros (jb & <- & Hjb). apply in_block in Hjb. eauto.
      - intros (jb & -> & Hjb). exists jb. split; [reflexivity|]. apply in_block. exact Hjb. }
    apply NoDup_Permutation.
    - apply nodup_concat; [apply blocks_nodup| |].
      + intros p Hp. unfold prt, part. apply nodup_map_in; [apply block_nodup|]. intros x y Hx Hy E. apply in_block in Hx as [Hx _], Hy as [Hy _].
        apply Hin in Hp as [Hp _]. apply (box_inj esh cs p p x y H Hp Hp Hx Hy) in E. apply E.
      + intros p p' x Hp Hp' Hx Hx'. apply (Hprt p x Hp) in Hx as (y & -> & Hy & _). apply (Hprt p' _ Hp') in Hx' as (y' & E & Hy' & _).
        apply Hin in Hp as [Hp _], Hp' as [Hp' _]. apply (box_inj esh cs p p' y y' H Hp Hp' Hy Hy') in E. apply E.
    - apply block_nodup.
    - intros x. rewrite in_block, in_concat. split.
      + intros (m & Hm & Hx). apply in_map_iff in Hm as (p & <- & Hp). apply (Hprt p x Hp) in Hx as (jb & -> & Hjb & Ej).
        pose proof Hp as Hp'. apply Hin in Hp' as [Hp1 Hp2]. split; [apply box_bounds; assumption|]. rewrite Hred by assumption. rewrite Hp2, Ej. exact Es.
      + intros [Hx Ex]. destruct (decomp _ _ _ H Hx) as (Gq & Gj & Gs & _). set (p := divs x cs) in *. set (jb := mods x cs) in *.
        assert (Eix : shift (boxes (red_index keep axes p) rcs rsh0) (red_index keep axes jb) = ix) by (rewrite <- Hred, Gs by assumption; exact Ex).
        assert (B1 : in_bounds (ceils rsh0 rcs) (red_index keep axes p)).
        { pose proof (ceils_red keep axes esh cs 0 H) as Ec. change (ceils rsh0 rcs = rsh keep axes 0 (ceils esh cs)) in Ec. rewrite Ec. apply rix_bounds. exact Gq. }
        assert (B2 : in_bounds (sv_shape (boxes (red_index keep axes p) rcs rsh0)) (red_index keep axes jb)).
        { destruct (box_length p Gq) as [L1 L2]. pose proof (red_box keep axes p cs esh 0 ltac:(lia) ltac:(lia)) as Eb.
          change (sv_shape (boxes (red_index keep axes p) rcs rsh0) = rsh keep axes 0 (sv_shape (boxes p cs esh))) in Eb. rewrite Eb. apply rix_bounds. exact Gj. }
        destruct (recomp _ _ _ _ Hr B1 B2) as (_ & D1 & D2 & _). rewrite Eix in D1, D2. fold q in D1. fold j in D2.
        assert (Hp : In p (blocks q)) by (apply Hin; split; [exact Gq|congruence]).
        exists (prt j p). split; [apply in_map; exact Hp|]. apply Hprt; [exact Hp|]. exists jb. split; [congruence|]. split; [exact Gj|congruence].
  Qed.

  Lemma paxes_pos : forall sh k, Forall (fun d => 0 < d) sh -> 0 < paxes axes k sh.
  Proof. induction sh as [|d sh IH]; intros k Hp; [cbn; lia|]. inversion Hp; subst. cbn [paxes]. specialize (IH (k + 1) H3). destruct (in_dec _ _ _); nia. Qed.
  Lemma part_nonempty ix p : in_bounds rsh0 ix -> In p (blocks (divs ix rcs)) -> prt (mods ix rcs) p <> [].
  Proof.
    intros Hb Hp E. pose proof (chunkable_red keep axes esh cs 0 H) as Hr. change (chunkable rsh0 rcs) in Hr.
    destruct (decomp _ _ _ Hr Hb) as (Hq & Hj & _ & _). pose proof (box_shape esh cs axes keep H (divs ix rcs) p Hq Hp) as Eb. fold rcs rsh0 in Eb. rewrite Eb in Hj.
    apply (blocks_in esh cs axes keep H (divs ix rcs) p Hq) in Hp as [Hp _]. pose proof (box_pos esh cs p H Hp) as Hpos.
    pose proof (block_length keep axes (sv_shape (boxes p cs esh)) (mods ix rcs) ltac:(apply box_le; assumption) Hj) as L.
    unfold prt, part in E. apply map_eq_nil in E. rewrite E in L. pose proof (paxes_pos _ 0 Hpos). cbn in L. lia.
  Qed.
  Lemma paxes_filled : filled_axes esh axes -> 0 < paxes axes 0 esh.
  Proof.
    intros Hf. unfold filled_axes in Hf. rewrite Forall_forall in Hf.
    assert (G : forall sh k, (forall i, (i < length sh)%nat -> In (k + Z.of_nat i) axes -> 0 < nth i sh 0) -> 0 < paxes axes k sh).
    { induction sh as [|d sh IH]; intros k Hk; [cbn; lia|]. cbn [paxes].
      assert (0 < paxes axes (k + 1) sh).
      { apply IH. intros i Hi Hin. apply (Hk (S i)); [cbn; lia|]. replace (k + Z.of_nat (S i)) with (k + 1 + Z.of_nat i) by lia. exact Hin. }
      destruct (in_dec _ _ _) as [Hin|]; [|lia]. specialize (Hk 0%nat ltac:(cbn; lia)). replace (k + Z.of_nat 0) with k in Hk by lia. specialize (Hk Hin). cbn in Hk. nia. }
    apply G. intros i Hi Hin. specialize (Hf _ Hin). replace (Z.to_nat (0 + Z.of_nat i)) with i in Hf by lia. exact Hf.
  Qed.

  Lemma parts_lemma (c : cont R) : consistent c -> ct_shape c = red_shape keep axes esh ->
    exists b c', make_breducer esh cs axes keep = Ok b /\ b_shape b = red_shape keep axes esh /\
      assign_to TL f b ev c = Ok c' /\ consistent c' /\
      ct_shape c' = ct_shape c /\ ct_strides c' = ct_strides c /\ ct_layout c' = ct_layout c /\
      forall ix, in_bounds (red_shape keep axes esh) ix -> exists r parts, elt c ix = Ok r /\
        Permutation (concat parts) (block row_major keep axes esh ix) /\ Forall (fun p => p <> []) parts /\
        (filled_axes esh axes -> parts <> []) /\
        elt c' ix = Ok (bf_final f (Z.of_nat (length (block row_major keep axes esh ix)))
          (fst (merged f (map (fun p => bf_compute f (Z.of_nat (length p)) (map ev p)) parts) r))).
  Proof.
    intros Hc Hsh. destruct (assign_ok TL HTL f ev esh cs axes keep H Hv Ha c Hc Hsh) as (b & c' & E1 & E2 & E3 & E4 & (E5 & E6 & E7) & E8).
    exists b, c'. repeat (split; [assumption|]). intros ix Hb.
    assert (Ho : 0 <= element_offset (ct_strides c) ix < Z.of_nat (length (ct_data c))) by (apply cons_off; [exact Hc|rewrite Hsh; exact Hb]).
    destruct (nth_error (ct_data c) (Z.to_nat (element_offset (ct_strides c) ix))) as [r|] eqn:Er; [|apply nth_error_None in Er; lia].
    assert (Ee : elt c ix = Ok r) by (unfold elt; apply rdz_ok; [lia|exact Er]).
    exists r, (map (prt (mods ix rcs)) (blocks (divs ix rcs))). split; [exact Ee|]. pose proof (parts_perm ix Hb) as HP. split; [exact HP|].
    assert (Hesh : is_shape esh) by (eapply chunkable_shape; exact H).
    split; [|split].
    - apply Forall_forall. intros p Hp. apply in_map_iff in Hp as (p' & <- & Hp'). apply part_nonempty; assumption.
    - intros Hf E. rewrite E in HP. cbn in HP. pose proof (block_length keep axes esh ix Hesh Hb) as L. apply Permutation_length in HP. unfold block in L. cbn [indices_of] in L, HP. rewrite <- HP in L.
      pose proof (paxes_filled Hf). cbn in L. lia.
    - rewrite (E8 ix r Hb Ee). unfold total. rewrite block_length by assumption. rewrite map_map. reflexivity.
  Qed.
End Parts.

(** ** The functors made of a reduction *)

Section Simple.
  Context {T R : Type} (ok : T -> Prop) (f : rfun T R) (op : R -> R -> R) (fin : Z -> R -> R).
  Context (Ho : order_free f) (Hm : merges ok f op).

  Lemma simple_fold : forall (rest : list (list T)) r, Forall (fun p => p <> []) rest -> Forall (Forall ok) rest ->
    fold_left (fun s v => bf_merge (simple f op fin) v false s) (map (fun p => fold_left (rf_reduce f) p (rf_init f)) rest) (r, tt) =
    (fold_left (rf_reduce f) (concat rest) r, tt).
  Proof.
    induction rest as [|p rest IH]; intros r Hn Hk; [reflexivity|]. inversion Hn; subst. inversion Hk; subst. cbn [map fold_left concat simple bf_merge].
    rewrite fold_left_app. rewrite Hm by assumption. apply IH; assumption.
  Qed.
  Lemma simple_merged (parts : list (list T)) r : parts <> [] -> Forall (fun p => p <> []) parts -> Forall (Forall ok) parts ->
    fst (merged (simple f op fin) (map (fun p => fold_left (rf_reduce f) p (rf_init f)) parts) r) = fold_left (rf_reduce f) (concat parts) (rf_init f).
  Proof.
    intros Hne Hn Hk. destruct parts as [|p rest]; [contradiction|]. inversion Hn; subst. inversion Hk; subst. cbn [map merged concat]. cbn [simple bf_merge bf_start].
    pose proof (simple_fold rest (fold_left (rf_reduce f) p (rf_init f)) ltac:(assumption) ltac:(assumption)) as E. cbn [simple bf_merge] in E.
    rewrite E. rewrite fold_left_app. reflexivity.
  Qed.
End Simple.

Lemma simple_lemma {T R} (TL : layout) (ok : T -> Prop) (f : rfun T R) (op : R -> R -> R) (fin : Z -> R -> R) keep axes esh cs ev (c : cont R) :
  is_order TL -> order_free f -> merges ok f op -> chunkable esh cs -> valid_axes (length esh) axes -> addressable esh -> filled_axes esh axes ->
  (forall jx, in_bounds esh jx -> ok (ev jx)) -> consistent c -> ct_shape c = red_shape keep axes esh ->
  gives TL (simple f op fin) keep axes esh cs ev c (fun l v => l <> [] /\ Forall ok l /\ v = fin (Z.of_nat (length l)) (fold_left (rf_reduce f) l (rf_init f))).
Proof.
  intros HTL Ho Hm H Hv Ha Hf Hok Hc Hsh.
  destruct (parts_lemma TL HTL (simple f op fin) ev esh cs axes keep H Hv Ha c Hc Hsh) as (b & c' & E1 & E2 & E3 & E4 & E5 & E6 & E7 & E8).
  exists b, c'. repeat (split; [assumption|]). intros ix Hb. destruct (E8 ix Hb) as (r & parts & _ & HP & Hn & Hne & E). specialize (Hne Hf).
  eexists. split; [exact E|]. cbn [simple bf_final bf_compute].
  assert (Hall : forall jx, In jx (block row_major keep axes esh ix) -> ok (ev jx)).
  { intros jx Hj. apply in_block in Hj as [Hj _]. apply Hok. exact Hj. }
  assert (Hblk : block row_major keep axes esh ix <> []).
  { intros E0. rewrite E0 in HP. apply Permutation_sym, Permutation_nil in HP. destruct parts as [|p parts]; [contradiction|]. inversion Hn; subst.
    cbn in HP. apply app_eq_nil in HP as [HP _]. contradiction. }
  split; [intros E0; apply map_eq_nil in E0; contradiction|]. split; [apply Forall_forall; intros x Hx; apply in_map_iff in Hx as (jx & <- & Hj); auto|].
  rewrite map_length. f_equal. change (fun p : list (list Z) => fold_left (rf_reduce f) (map ev p) (rf_init f)) with (fun p => (fun q => fold_left (rf_reduce f) q (rf_init f)) (map ev p)).
  rewrite <- (map_map (map ev) (fun q => fold_left (rf_reduce f) q (rf_init f))). fold (@simple T R f op fin).
  rewrite (simple_merged ok f op fin Hm).
  - apply Ho. rewrite <- concat_map. apply Permutation_map. exact HP.
  - intros E0. apply map_eq_nil in E0. contradiction.
  - apply Forall_forall. intros x Hx. apply in_map_iff in Hx as (p & <- & Hp). rewrite Forall_forall in Hn. intros E0. apply map_eq_nil in E0. apply (Hn p Hp E0).
  - apply Forall_forall. intros x Hx. apply in_map_iff in Hx as (p & <- & Hp). apply Forall_forall. intros y Hy. apply in_map_iff in Hy as (jx & <- & Hj).
    apply Hall. eapply Permutation_in; [exact HP|]. apply in_concat. eauto.
Qed.

Lemma gives_impl {T B C R} TL (f : bfun T B C R) keep axes esh cs ev c (v1 v2 : list T -> R -> Prop) :
  (forall l v, v1 l v -> v2 l v) -> gives TL f keep axes esh cs ev c v1 -> gives TL f keep axes esh cs ev c v2.
Proof.
  intros Hi (b & c' & E1 & E2 & E3 & E4 & E5 & E6 & E7 & E8). exists b, c'. repeat (split; [assumption|]). intros ix Hb.
  destruct (E8 ix Hb) as (v & E & Hv). eauto.
Qed.

Lemma swap_free {T R} (f : rfun T R) : (forall r x y, rf_reduce f (rf_reduce f r x) y = rf_reduce f (rf_reduce f r y) x) -> order_free f.
Proof.
  intros Hs l l' HP. generalize (rf_init f) as a. induction HP; intros a; cbn [fold_left]; [reflexivity|apply IHHP|rewrite Hs; reflexivity|rewrite IHHP1; apply IHHP2].
Qed.
