From Coq Require Import List ZArith Lia Bool Arith.
From Verif Require Import Prelude PreludeFacts Strides_Model Strides_Spec Strides_Proofs Access_Model Slice_Model Container_Model Container_Spec Container_Proofs
  Semantic_Spec Reduce_Spec Reduce3_Proofs Reduce5_Proofs Reduce9_Proofs Reduce13_Proofs Sort2_Proofs Chunk_Model Chunk_Spec Chunk_Proofs Chunk2_Proofs.
Import ListNotations.
Open Scope Z_scope.

(** ** Creation *)

Section Create.
  Context {V : Type} (SL GL DL : layout) (fresh : list V -> Z -> list V) (v0 : V).
  Context (Hfresh : resizes fresh).

  Lemma resize_chunks_ok cs lay l : is_shape cs -> (SL = dynamic \/ lay = SL) ->
    exists r, resize_chunks SL DL fresh cs lay l = Ok r /\ length r = length l /\ Forall (fun c => consistent c /\ ct_shape c = cs) r.
  Proof.
    intros Hcs Hlay. induction l as [|c l (r & E & L & F)]; cbn [resize_chunks]; [exists []; auto|].
    destruct (resize_layout_ok SL DL fresh Hfresh c cs lay Hcs) as [(H1 & H2 & _)|(_ & c' & E' & Hc & _ & Es & _)]; [destruct Hlay; contradiction|].
    rewrite E', E. cbn [bind]. exists (c' :: r). cbn [length]. rewrite L. auto.
  Qed.
  Lemma fresh_chunks_resizes : resizes (fresh_chunks SL v0).
  Proof.
    intros d n Hn. unfold fresh_chunks. destruct (n =? _) eqn:E; [apply Z.eqb_eq in E; lia|]. rewrite repeat_length. lia.
  Qed.
  Lemma k_resize_ok g sh cs lay : consistent g -> lay_ok GL g -> chunkable sh cs -> (SL = dynamic \/ lay = SL) ->
    exists k, k_resize SL GL DL fresh v0 g sh cs lay = Ok k /\ wf k /\ k_shape k = sh /\ k_chunk_shape k = cs.
  Proof.
    intros Hg Hgl Hs Hlay. unfold k_resize. rewrite (grid_ok sh cs Hs). cbn [bind].
    destruct (resize_ok GL DL (fresh_chunks SL v0) fresh_chunks_resizes g (ceils sh cs) false Hg Hgl (ceils_shape sh cs Hs))
      as (g1 & E & Hg1 & _ & Es & _).
    rewrite E. cbn [bind]. destruct (resize_chunks_ok cs lay (ct_data g1) (chunkable_cs sh cs Hs) Hlay) as (r & Er & L & F).
    rewrite Er. cbn [bind]. eexists. split; [reflexivity|]. split; [|split; reflexivity]. split; [exact Hs|].
    cbn [k_chunks k_shape k_chunk_shape with_chunks ct_shape ct_data]. split; [|split; [exact Es|exact F]].
    destruct Hg1 as (G1 & G2 & G3 & G4 & G5). split; [exact G1|split; [exact G2|split; [exact G3|split; [|exact G5]]]].
    cbn [with_chunks ct_data ct_shape]. rewrite L. exact G4.
  Qed.
  Lemma k_create_ok sh cs lay : chunkable sh cs -> (SL = dynamic \/ lay = SL) ->
    exists k, k_create SL GL DL fresh v0 sh cs lay = Ok k /\ wf k /\ k_shape k = sh /\ k_chunk_shape k = cs.
  Proof.
    intros Hs Hlay. apply k_resize_ok; [| |exact Hs|exact Hlay]; apply (default_consistent (V:=cont V) GL 0 (new_chunk SL v0)).
  Qed.
End Create.

(** ** Assignment *)

Section Assign.
  Context {V : Type} (ev : list Z -> V).

  Lemma chunk_ends_ok sh cs gr q : chunkable sh cs -> in_bounds (ceils sh cs) q ->
    chunk_ends (mk_chunking sh cs gr) q = Ok (sv_shape (boxes q cs sh)).
  Proof.
    intros H Hq. unfold chunk_ends. pose proof (ceils_length _ _ H) as Lg. pose proof (in_bounds_length _ _ Hq) as Lq.
    assert (Lb : length (boxes q cs sh) = length sh) by (apply boxes_length; [exact H|lia]).
    destruct (for_up_inv (fun i l => l = firstn i (sv_shape (boxes q cs sh)))
      (fun i l => let* e := chunk_end_at (mk_chunking sh cs gr) q i in Ok (l ++ [e])) 0 (length q) []) as (l & E & Hl); [reflexivity| |].
    - intros i l Hi ->. destruct (nth_error q i) as [x|] eqn:Ex; [|apply nth_error_None in Ex; lia].
      destruct (boxes_nth sh cs H q i x ltac:(lia) Ex) as (c & s & Ec & Es & Eb).
      unfold chunk_end_at. cbn [g_chunk g_shape]. rewrite (rd_ok _ _ _ Ec), (rd_ok _ _ _ Es), (rd_ok _ _ _ Ex). cbn [bind].
      eexists. split; [reflexivity|].
      assert (Hc : 0 <= s < 2 ^ 64 /\ 0 < c < 2 ^ 64).
      { clear - H Ec Es. revert i Ec Es. induction H as [|s' c' sh cs H0 H IH]; intros [|i] Ec Es; try discriminate Ec; cbn in *.
        - injection Ec as <-. injection Es as <-. exact H0.
        - eapply IH; eassumption. }
      assert (Hxb : 0 <= x /\ x * c < s).
      { clear - H Hq Ec Es Ex. revert q i Hq Ec Es Ex. induction H as [|s' c' sh cs [H0 H1] H IH]; intros q i Hq Ec Es Ex; destruct i as [|i]; try discriminate Ec;
          cbn [ceils] in Hq; inversion Hq as [|? y ? q' Hy Hq']; subst; cbn [nth_error] in *.
        - injection Ec as <-. injection Es as <-. injection Ex as <-. split; [lia|]. apply ceil_spec; lia.
        - eapply IH; eassumption. }
      assert (Hsv : nth_error (sv_shape (boxes q cs sh)) i = Some (Z.min ((x + 1) * c) s - x * c)).
      { unfold sv_shape. rewrite nth_error_map, Eb. reflexivity. }
      assert (E2 : Z.min c (to_size_t (s - x * c)) = Z.min ((x + 1) * c) s - x * c) by (rewrite to_size_t_id by nia; lia).
      rewrite E2. clear - Hsv. revert i Hsv. generalize (sv_shape (boxes q cs sh)) (Z.min ((x + 1) * c) s - x * c).
      induction l as [|y l IH]; intros z [|i] E; try discriminate E; cbn in *; [congruence|]. f_equal. apply IH. exact E.
    - rewrite E, Hl. f_equal. apply firstn_all2. cbn. unfold sv_shape. rewrite map_length. lia.
  Qed.

  Lemma assign_chunk_ok (k : chunked V) q : wf k -> in_bounds (ct_shape (k_chunks k)) q ->
    exists k', assign_chunk row_major ev (mk_it q (row_pos (ct_shape (k_chunks k)) q) (boxes q (k_chunk_shape k) (k_shape k))) k = Ok k' /\ wf k' /\
      k_shape k' = k_shape k /\ k_chunk_shape k' = k_chunk_shape k /\ ct_shape (k_chunks k') = ct_shape (k_chunks k) /\
      length (ct_data (k_chunks k')) = length (ct_data (k_chunks k)) /\
      (forall j, in_bounds (sv_shape (boxes q (k_chunk_shape k) (k_shape k))) j -> cell k' q j = Ok (ev (shift (boxes q (k_chunk_shape k) (k_shape k)) j))) /\
      (forall q' j, in_bounds (ct_shape (k_chunks k)) q' -> q' <> q -> cell k' q' j = cell k q' j).
  Proof.
    intros Hw Hq. pose proof Hw as (Hs & Hg & Eg & Hf). destruct (wf_chunk k q Hw Hq) as (c & Ec & Hc & Es).
    unfold assign_chunk. cbn [it_slices it_linear it_index]. set (bx := boxes q (k_chunk_shape k) (k_shape k)) in *.
    assert (Eo : chunk_offset row_major k (row_pos (ct_shape (k_chunks k)) q) = Ok (element_offset (ct_strides (k_chunks k)) q)).
    { unfold chunk_offset. pose proof (rank_bound row_major _ _ Hq) as Hr. cbn [rank] in Hr.
      rewrite (rdz_ok _ _ q); [reflexivity|lia|]. apply row_indices_nth. exact Hq. }
    rewrite Eo. cbn [bind]. rewrite Ec. cbn [bind].
    assert (Hq' : in_bounds (ceils (k_shape k) (k_chunk_shape k)) q) by (rewrite <- Eg; exact Hq).
    assert (Hin : forall j, in_bounds (sv_shape bx) j -> in_bounds (ct_shape c) j).
    { intros j Hj. rewrite Es. apply (recomp _ _ q j Hs Hq' Hj). }
    destruct (copy_ok row_major (ct_strides c) (fun j => j) (sv_shape bx) (fun j => Ok (ev (shift bx j))) (fun j => ev (shift bx j)) (ct_data c)) as (d & Ed & Ld & Hd & _).
    { left; reflexivity. }
    { reflexivity. }
    { intros j Hj. apply cons_off; [exact Hc|apply Hin; exact Hj]. }
    { intros i j Hi Hj. apply cons_inj; [exact Hc|apply Hin; assumption..]. }
    destruct (with_cell_ok k q c d Hw Hq Ec Ld) as (k' & E & Hw' & S1 & S2 & S3 & S4 & Hsame & Hother).
    assert (El : length (ct_shape c) = length (sv_shape bx)).
    { unfold sv_shape. rewrite map_length, Es, (chunkable_length _ _ Hs). unfold bx. rewrite (boxes_length _ _ Hs); [reflexivity|].
      rewrite (in_bounds_length _ _ Hq'). apply ceils_length. exact Hs. }
    exists k'. split.
    { rewrite El, Nat.eqb_refl. cbn [negb]. destruct (zlist_eqb (sv_shape bx) (k_chunk_shape k)).
      - rewrite Ed. exact E.
      - unfold chunking_of. rewrite (chunk_ends_ok _ _ _ _ Hs Hq'). cbn [bind]. fold bx. rewrite (proj2 (zlist_eqb_eq _ _) eq_refl), Ed. exact E. }
    split; [exact Hw'|split; [exact S1|split; [exact S2|split; [exact S3|split; [exact S4|split; [|exact Hother]]]]]].
    intros j Hj. rewrite Hsame. apply rdz_ok; [apply cons_off; [exact Hc|apply Hin; exact Hj]|]. apply Hd. exact Hj.
  Qed.

  Lemma assign_ok (k : chunked V) : wf k ->
    exists k', k_assign row_major ev k = Ok k' /\ wf k' /\ is_array k' (k_shape k) (k_chunk_shape k) ev.
  Proof.
    intros Hw. pose proof Hw as (Hs & Hg & Eg & Hf). unfold k_assign, chunking_of. rewrite Eg.
    assert (EN : Z.of_nat (length (ct_data (k_chunks k))) = prod (ceils (k_shape k) (k_chunk_shape k))).
    { destruct Hg as (_ & _ & _ & G4 & _). rewrite G4, Eg. reflexivity. }
    rewrite EN.
    destruct (loop_ok (k_shape k) (k_chunk_shape k) Hs
      (fun n k' => wf k' /\ k_shape k' = k_shape k /\ k_chunk_shape k' = k_chunk_shape k /\
         forall q j, in_bounds (ct_shape (k_chunks k)) q -> row_pos (ct_shape (k_chunks k)) q < n ->
           in_bounds (sv_shape (boxes q (k_chunk_shape k) (k_shape k))) j -> cell k' q j = Ok (ev (shift (boxes q (k_chunk_shape k) (k_shape k)) j)))
      (fun it k => assign_chunk row_major ev it k) k) as (it & it' & k' & E1 & E2 & Hw' & S1 & S2 & Hv).
    - split; [exact Hw|]. split; [reflexivity|]. split; [reflexivity|]. intros q j Hq Hn _. exfalso. pose proof (rank_bound row_major _ _ Hq). cbn in *. lia.
    - intros q k1 Hq (Hw1 & S1 & S2 & Hv). pose proof Hw1 as (_ & _ & Eg1 & _). rewrite S1, S2 in Eg1.
      destruct (assign_chunk_ok k1 q Hw1) as (k2 & E & Hw2 & T1 & T2 & T3 & _ & Hn & Ho); [rewrite Eg1; exact Hq|].
      rewrite Eg1, S1, S2 in *. exists k2. split; [exact E|]. split; [exact Hw2|]. split; [exact T1|]. split; [exact T2|].
      intros q' j Hq' Hr Hj. rewrite Eg in *. destruct (list_eq_dec Z.eq_dec q' q) as [ -> |N]; [apply Hn; exact Hj|].
      rewrite Ho by assumption. apply Hv; [assumption| |assumption].
      assert (row_pos (ceils (k_shape k) (k_chunk_shape k)) q' <> row_pos (ceils (k_shape k) (k_chunk_shape k)) q).
      { intros Eq. apply N. apply (rank_inj row_major (ceils (k_shape k) (k_chunk_shape k))); assumption. }
      lia.
    - rewrite E1. cbn [bind]. rewrite E2. cbn [bind]. exists k'. split; [reflexivity|]. split; [exact Hw'|]. split; [exact S1|]. split; [exact S2|].
      intros ix Hb. rewrite get_cell by (try rewrite S1; assumption). rewrite S2.
      destruct (decomp _ _ _ Hs Hb) as (H1 & H2 & H3 & _). rewrite Hv; [rewrite H3; reflexivity|rewrite Eg; exact H1| |exact H2].
      rewrite Eg. apply (rank_bound row_major _ _ H1).
  Qed.
End Assign.

(** ** Views in chunks *)

Section View.
  Context {V : Type}.

  Lemma box_bounds sh cs q j1 : chunkable sh cs -> in_bounds (ceils sh cs) q -> in_bounds (sv_shape (boxes q cs sh)) j1 -> in_bounds sh (shift (boxes q cs sh) j1).
  Proof. intros H Hq Hj. apply (recomp _ _ _ _ H Hq Hj). Qed.
  Lemma box_inj sh cs q q' j j' : chunkable sh cs -> in_bounds (ceils sh cs) q -> in_bounds (ceils sh cs) q' ->
    in_bounds (sv_shape (boxes q cs sh)) j -> in_bounds (sv_shape (boxes q' cs sh)) j' ->
    shift (boxes q cs sh) j = shift (boxes q' cs sh) j' -> q = q' /\ j = j'.
  Proof.
    intros H Hq Hq' Hj Hj' E. destruct (recomp _ _ _ _ H Hq Hj) as (_ & E1 & E2 & _). destruct (recomp _ _ _ _ H Hq' Hj') as (_ & E3 & E4 & _).
    rewrite E in E1, E2. split; congruence.
  Qed.

  (** One chunk of the view. *)
  Lemma view_step (c : cont V) cs q (src : list Z -> res V) (vals : list Z -> V) (d : list V) : consistent c -> chunkable (ct_shape c) cs -> in_bounds (ceils (ct_shape c) cs) q ->
    (forall j, in_bounds (sv_shape (boxes q cs (ct_shape c))) j -> src j = Ok (vals (shift (boxes q cs (ct_shape c)) j))) ->
    length d = length (ct_data c) ->
    exists d', copy_into row_major (ct_strides c) (shift (boxes q cs (ct_shape c))) (sv_shape (boxes q cs (ct_shape c))) src d = Ok d' /\
      length d' = length (ct_data c) /\
      (forall ix, in_bounds (ct_shape c) ix -> divs ix cs = q -> nth_error d' (Z.to_nat (element_offset (ct_strides c) ix)) = Some (vals ix)) /\
      (forall ix, in_bounds (ct_shape c) ix -> divs ix cs <> q ->
         nth_error d' (Z.to_nat (element_offset (ct_strides c) ix)) = nth_error d (Z.to_nat (element_offset (ct_strides c) ix))).
  Proof.
    intros Hc Hs Hq Hsrc Ld. set (bx := boxes q cs (ct_shape c)) in *.
    destruct (copy_ok row_major (ct_strides c) (shift bx) (sv_shape bx) src (fun j => vals (shift bx j)) d) as (d' & E & L & Hv & Ho).
    - left; reflexivity.
    - exact Hsrc.
    - intros j Hj. rewrite Ld. apply cons_off; [exact Hc|]. apply box_bounds; assumption.
    - intros i j Hi Hj E. apply cons_inj in E; [|exact Hc|apply box_bounds; assumption..].
      apply (box_inj (ct_shape c) cs q q i j) in E; try assumption. apply E.
    - exists d'. split; [exact E|]. split; [congruence|]. split.
      + intros ix Hb <-. destruct (decomp _ _ _ Hs Hb) as (_ & H2 & H3 & _). fold bx in H2, H3. rewrite <- H3. apply Hv. exact H2.
      + intros ix Hb N. apply Ho. intros j Hj Eq. apply N. apply cons_inj in Eq; [|exact Hc|exact Hb|apply box_bounds; assumption].
        rewrite Eq. apply (recomp _ _ _ _ Hs Hq Hj).
  Qed.

  Let P (c : cont V) cs (vals : list Z -> V) (n : Z) (d : list V) :=
    length d = length (ct_data c) /\
    forall ix, in_bounds (ct_shape c) ix -> row_pos (ceils (ct_shape c) cs) (divs ix cs) < n ->
      nth_error d (Z.to_nat (element_offset (ct_strides c) ix)) = Some (vals ix).

  Lemma P_step (c : cont V) cs vals q (src : list Z -> res V) d : consistent c -> chunkable (ct_shape c) cs -> in_bounds (ceils (ct_shape c) cs) q ->
    (forall j, in_bounds (sv_shape (boxes q cs (ct_shape c))) j -> src j = Ok (vals (shift (boxes q cs (ct_shape c)) j))) ->
    P c cs vals (row_pos (ceils (ct_shape c) cs) q) d ->
    exists d', copy_into row_major (ct_strides c) (shift (boxes q cs (ct_shape c))) (sv_shape (boxes q cs (ct_shape c))) src d = Ok d' /\
      P c cs vals (row_pos (ceils (ct_shape c) cs) q + 1) d'.
  Proof.
    intros Hc Hs Hq Hsrc [Ld Hd]. destruct (view_step c cs q src vals d Hc Hs Hq Hsrc Ld) as (d' & E & L & Hn & Ho).
    exists d'. split; [exact E|]. split; [exact L|]. intros ix Hb Hr.
    destruct (list_eq_dec Z.eq_dec (divs ix cs) q) as [Eq|N]; [apply Hn; assumption|]. rewrite Ho by assumption. apply Hd; [exact Hb|].
    destruct (decomp _ _ _ Hs Hb) as (H1 & _).
    assert (row_pos (ceils (ct_shape c) cs) (divs ix cs) <> row_pos (ceils (ct_shape c) cs) q).
    { intros Eq. apply N. apply (rank_inj row_major (ceils (ct_shape c) cs)); assumption. }
    lia.
  Qed.
  Lemma P_final (c : cont V) cs vals d : consistent c -> chunkable (ct_shape c) cs -> P c cs vals (prod (ceils (ct_shape c) cs)) d ->
    consistent (with_buffer c d) /\ forall ix, in_bounds (ct_shape c) ix -> elt (with_buffer c d) ix = Ok (vals ix).
  Proof.
    intros Hc Hs [L Hd]. split; [apply upd_with_buffer_consistent; assumption|]. intros ix Hb. unfold elt. cbn [with_buffer ct_data ct_strides].
    apply rdz_ok; [apply cons_off; assumption|]. apply Hd; [exact Hb|]. destruct (decomp _ _ _ Hs Hb) as (H1 & _). apply (rank_bound row_major _ _ H1).
  Qed.
  Lemma P_init (c : cont V) cs vals : chunkable (ct_shape c) cs -> P c cs vals 0 (ct_data c).
  Proof.
    intros Hs. split; [reflexivity|]. intros ix Hb Hn. exfalso. destruct (decomp _ _ _ Hs Hb) as (H1 & _). pose proof (rank_bound row_major _ _ H1). cbn in *. lia.
  Qed.

  Lemma view_assign_ok (c : cont V) cs ev : consistent c -> chunkable (ct_shape c) cs ->
    exists c', view_assign row_major c cs ev = Ok c' /\ consistent c' /\ ct_shape c' = ct_shape c /\ ct_layout c' = ct_layout c /\
      forall ix, in_bounds (ct_shape c) ix -> elt c' ix = Ok (ev ix).
  Proof.
    intros Hc Hs. unfold view_assign, view_chunking. rewrite (grid_ok _ _ Hs). cbn [bind g_grid]. rewrite compute_size_prod.
    destruct (loop_ok (ct_shape c) cs Hs (P c cs ev)
      (fun it d => copy_into row_major (ct_strides c) (shift (it_slices it)) (sv_shape (it_slices it)) (fun j => Ok (ev (shift (it_slices it) j))) d) (ct_data c))
      as (it & it' & d' & E1 & E2 & HP).
    - apply P_init. exact Hs.
    - intros q d Hq HP. cbn [it_slices]. apply P_step; [exact Hc|exact Hs|exact Hq|reflexivity|exact HP].
    - rewrite E1. cbn [bind]. rewrite E2. cbn [bind]. eexists. split; [reflexivity|].
      destruct (P_final _ _ _ _ Hc Hs HP) as [H1 H2]. split; [exact H1|]. split; [reflexivity|]. split; [reflexivity|exact H2].
  Qed.

  (** The chunks of a chunked array, read in the traversal order. *)
  Lemma view_assign_chunked_ok (c : cont V) (k : chunked V) ev : consistent c -> wf k -> k_shape k = ct_shape c ->
    (forall ix, in_bounds (k_shape k) ix -> k_get k ix = Ok (ev ix)) ->
    exists c', view_assign_chunked row_major c k = Ok c' /\ consistent c' /\ ct_shape c' = ct_shape c /\ ct_layout c' = ct_layout c /\
      forall ix, in_bounds (ct_shape c) ix -> elt c' ix = Ok (ev ix).
  Proof.
    intros Hc Hw Ek Hev. pose proof Hw as (Hs & Hg & Eg & Hf). rewrite Ek in *. unfold view_assign_chunked, view_chunking. rewrite (grid_ok _ _ Hs). cbn [bind g_grid]. rewrite compute_size_prod.
    set (cs := k_chunk_shape k) in *. set (gr := ceils (ct_shape c) cs) in *.
    destruct (loop_ok (ct_shape c) cs Hs (fun n s => fst s = n /\ P c cs ev n (snd s))
      (fun it s => let* o := chunk_offset row_major k (fst s) in
                   let* c2 := rdz (ct_data (k_chunks k)) o in
                   let* d' := copy_into row_major (ct_strides c) (shift (it_slices it)) (sv_shape (it_slices it))
                             (fun j => rdz (ct_data c2) (element_offset (ct_strides c2) j)) (snd s) in Ok (fst s + 1, d')) (0, ct_data c))
      as (it & it' & [n d'] & E1 & E2 & En & HP).
    - split; [reflexivity|]. apply P_init. exact Hs.
    - intros q [n d] Hq [En HP]. cbn [fst snd] in *. subst n. cbn [it_slices].
      assert (Hq' : in_bounds (ct_shape (k_chunks k)) q) by (rewrite Eg; exact Hq).
      assert (Eo : chunk_offset row_major k (row_pos (ceils (ct_shape c) cs) q) = Ok (element_offset (ct_strides (k_chunks k)) q)).
      { unfold chunk_offset. rewrite Eg. pose proof (rank_bound row_major _ _ Hq) as Hr. cbn [rank] in Hr.
        rewrite (rdz_ok _ _ q); [reflexivity|exact (proj1 Hr)|]. apply row_indices_nth. exact Hq. }
      rewrite Eo. cbn [bind]. destruct (wf_chunk k q Hw Hq') as (c2 & Ec & Hc2 & Es2). rewrite Ec. cbn [bind].
      destruct (P_step c cs ev q (fun j => rdz (ct_data c2) (element_offset (ct_strides c2) j)) d Hc Hs Hq) as (d' & E & HP'); [|exact HP|].
      + intros j Hj. destruct (recomp _ _ _ _ Hs Hq Hj) as (R1 & R2 & R3 & R4). specialize (Hev _ R1). rewrite get_cell in Hev by (try rewrite Ek; assumption).
        fold cs in Hev. rewrite R2, R3 in Hev. unfold cell in Hev. rewrite Ec in Hev. exact Hev.
      + rewrite E. cbn [bind]. eexists. split; [reflexivity|]. cbn [fst snd]. auto.
    - fold gr in E1, E2, HP. rewrite E1. cbn [bind].
      assert (Conv : forall m i0 s0 r, for_up (fun (_ : nat) '(it, s) =>
          let* s' := (let* o := chunk_offset row_major k (fst s) in let* c2 := rdz (ct_data (k_chunks k)) o in
             let* d' := copy_into row_major (ct_strides c) (shift (it_slices it)) (sv_shape (it_slices it)) (fun j => rdz (ct_data c2) (element_offset (ct_strides c2) j)) (snd s) in Ok (fst s + 1, d')) in
          let* it' := it_next (mk_chunking (ct_shape c) cs gr) (prod gr) it in Ok (it', s')) m r (i0, s0) =
        (let* '(i1, n1, d1) := for_up (fun (_ : nat) '(it, i2, d) => let sl := it_slices it in
                let* o := chunk_offset row_major k i2 in
                let* c2 := rdz (ct_data (k_chunks k)) o in
                let* d' := copy_into row_major (ct_strides c) (shift sl) (sv_shape sl)
                             (fun j => rdz (ct_data c2) (element_offset (ct_strides c2) j)) d in
                let* it' := it_next (mk_chunking (ct_shape c) cs gr) (prod gr) it in
                Ok (it', i2 + 1, d')) m r (i0, fst s0, snd s0) in Ok (i1, (n1, d1)))).
      { intros m i0 s0 r. revert m i0 s0. induction r as [|r IH]; intros m i0 [n0 d0]; [reflexivity|]. cbn [for_up fst snd].
        destruct (chunk_offset row_major k n0) as [o| |]; cbn [bind]; try reflexivity.
        destruct (rdz (ct_data (k_chunks k)) o) as [c2| |]; cbn [bind]; try reflexivity.
        destruct (copy_into _ _ _ _ _ _) as [d1| |]; cbn [bind]; try reflexivity.
        destruct (it_next _ _ _) as [i1| |]; cbn [bind]; try reflexivity. apply IH. }
      rewrite Conv in E2. cbn [fst snd] in E2.
      destruct (for_up _ 0 _ _) as [[[i1 n1] d1]| |]; cbn [bind] in E2; try discriminate E2. injection E2 as <- <- <-. cbn [bind].
      cbn [snd fst] in HP. eexists. split; [reflexivity|].
      destruct (P_final _ _ _ _ Hc Hs HP) as [H1 H2]. split; [exact H1|]. split; [reflexivity|]. split; [reflexivity|exact H2].
  Qed.
End View.
