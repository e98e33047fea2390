From Coq Require Import List ZArith Lia Bool Arith.
From Verif Require Import Prelude PreludeFacts Strides_Model Strides_Spec Strides_Proofs Access_Model Slice_Model Container_Model Container_Spec Container_Proofs
  Semantic_Spec Reduce_Spec Reduce3_Proofs Reduce5_Proofs Reduce9_Proofs Reduce13_Proofs Reduce15_Proofs Sort2_Proofs Chunk_Model Chunk_Spec Chunk_Proofs Chunk2_Proofs Chunk3_Proofs.
Import ListNotations.
Open Scope Z_scope.

Section Hist.
  Context {V : Type} (SL GL DL : layout) (fresh : list V -> Z -> list V) (v0 : V).
  Context (Hfresh : resizes fresh).

  Lemma from_lemma sh ev cs lay : chunkable sh cs -> (SL = dynamic \/ lay = SL) ->
    exists k, k_from SL GL DL row_major fresh v0 sh ev cs lay = Ok k /\ wf k /\ is_array k sh cs ev.
  Proof.
    intros Hs Hl. unfold k_from. destruct (k_create_ok SL GL DL fresh v0 Hfresh sh cs lay Hs Hl) as (k & E & Hw & E1 & E2).
    unfold k_create in E. rewrite E. cbn [bind]. destruct (assign_ok ev k Hw) as (k' & E' & Hw' & Ha). rewrite E1, E2 in Ha. exists k'. auto.
  Qed.

  Lemma run_lemma os : forall k sh cs ev, (SL = dynamic \/ DL = SL) -> wf k -> is_array k sh cs ev -> kops_ok cs os (sh, ev) ->
    exists k', run_kops SL GL DL row_major fresh v0 os k = Ok k' /\ wf k' /\
      is_array k' (fst (abs_kops os (sh, ev))) cs (snd (abs_kops os (sh, ev))).
  Proof.
    induction os as [|o os IH]; intros k sh cs ev HL Hw Ha Hok; [exists k; auto|].
    cbn [run_kops abs_kops kops_ok] in *. destruct Hok as [Ho Hos]. pose proof Ha as (A1 & A2 & A3).
    assert (G : exists k', run_kop SL GL DL row_major fresh v0 o k = Ok k' /\ wf k' /\
      is_array k' (fst (abs_kop o (sh, ev))) cs (snd (abs_kop o (sh, ev)))).
    { destruct o as [ix v|ev'|sh' ev'|f]; cbn [run_kop abs_kop kop_ok fst snd] in *.
      - destruct (set_ok k ix v Hw) as (k' & E & Hw' & S1 & S2 & Hv); [rewrite A1; exact Ho|]. exists k'. split; [exact E|split; [exact Hw'|]].
        split; [congruence|split; [congruence|]]. intros jx Hj. rewrite Hv by (rewrite A1; exact Hj). destruct (list_eq_dec _ _ _); [reflexivity|apply A3; exact Hj].
      - destruct (assign_ok ev' k Hw) as (k' & E & Hw' & Ha'). rewrite A1, A2 in Ha'. exists k'. auto.
      - unfold k_assign_op. rewrite A2. apply from_lemma; assumption.
      - destruct (scalar_ok k f Hw) as [Hw' Hv]. exists (k_scalar f k). split; [reflexivity|split; [exact Hw'|]]. split; [exact A1|split; [exact A2|]].
        intros jx Hj. apply Hv; [rewrite A1; exact Hj|apply A3; exact Hj]. }
    destruct G as (k' & E & Hw' & Ha'). rewrite E. cbn [bind]. destruct (abs_kop o (sh, ev)) as [sh' ev'] eqn:Eo. cbn [fst snd] in *.
    apply IH; assumption.
  Qed.

  Lemma from_history_lemma sh ev cs lay os : chunkable sh cs -> (SL = dynamic \/ (lay = SL /\ DL = SL)) -> kops_ok cs os (sh, ev) ->
    exists k k', k_from SL GL DL row_major fresh v0 sh ev cs lay = Ok k /\ is_array k sh cs ev /\
      run_kops SL GL DL row_major fresh v0 os k = Ok k' /\ is_array k' (fst (abs_kops os (sh, ev))) cs (snd (abs_kops os (sh, ev))).
  Proof.
    intros Hs HL Hos. destruct (from_lemma sh ev cs lay Hs ltac:(tauto)) as (k & E & Hw & Ha).
    destruct (run_lemma os k sh cs ev ltac:(tauto) Hw Ha Hos) as (k' & E' & _ & Ha'). exists k, k'. auto.
  Qed.
  Lemma wf_array (k : chunked V) : wf k -> exists ev, is_array k (k_shape k) (k_chunk_shape k) ev.
  Proof.
    intros Hw. exists (fun ix => match k_get k ix with Ok v => v | _ => v0 end). split; [reflexivity|split; [reflexivity|]].
    intros ix Hb. destruct (wf_total k ix Hw Hb) as (v & E). rewrite E. reflexivity.
  Qed.
  Lemma create_history_lemma sh cs lay os : chunkable sh cs -> (SL = dynamic \/ (lay = SL /\ DL = SL)) ->
    exists k ev, k_create SL GL DL fresh v0 sh cs lay = Ok k /\ is_array k sh cs ev /\
      (kops_ok cs os (sh, ev) -> exists k', run_kops SL GL DL row_major fresh v0 os k = Ok k' /\
         is_array k' (fst (abs_kops os (sh, ev))) cs (snd (abs_kops os (sh, ev)))).
  Proof.
    intros Hs HL. destruct (k_create_ok SL GL DL fresh v0 Hfresh sh cs lay Hs ltac:(tauto)) as (k & E & Hw & E1 & E2).
    destruct (wf_array k Hw) as (ev & Ha). rewrite E1, E2 in Ha. exists k, ev. split; [exact E|split; [exact Ha|]]. intros Hos.
    destruct (run_lemma os k sh cs ev ltac:(tauto) Hw Ha Hos) as (k' & E' & _ & Ha'). exists k'. auto.
  Qed.

  Lemma view_history_lemma (c : cont V) ev cs lay os : consistent c -> chunkable (ct_shape c) cs -> (SL = dynamic \/ (lay = SL /\ DL = SL)) ->
    kops_ok cs os (ct_shape c, ev) -> fst (abs_kops os (ct_shape c, ev)) = ct_shape c ->
    exists k k' c', k_from SL GL DL row_major fresh v0 (ct_shape c) ev cs lay = Ok k /\ run_kops SL GL DL row_major fresh v0 os k = Ok k' /\
      view_assign_chunked row_major c k' = Ok c' /\ consistent c' /\ ct_shape c' = ct_shape c /\ ct_layout c' = ct_layout c /\
      forall ix, in_bounds (ct_shape c) ix -> elt c' ix = Ok (snd (abs_kops os (ct_shape c, ev)) ix).
  Proof.
    intros Hc Hs HL Hos Hsame. destruct (from_lemma (ct_shape c) ev cs lay Hs ltac:(tauto)) as (k & E & Hw & Ha).
    destruct (run_lemma os k (ct_shape c) cs ev ltac:(tauto) Hw Ha Hos) as (k' & E' & Hw' & (B1 & B2 & B3)). rewrite Hsame in *.
    destruct (view_assign_chunked_ok c k' (snd (abs_kops os (ct_shape c, ev))) Hc Hw' B1) as (c' & Ec & H1 & H2 & H3 & H4).
    { intros ix Hb. apply B3. rewrite <- B1. exact Hb. }
    exists k, k', c'. auto 8.
  Qed.
End Hist.

(** The chunk iterator visits boxes that partition the indices. *)
Lemma partition_lemma sh cs : chunkable sh cs ->
  exists g, view_chunking sh cs = Ok g /\
    (forall n, (n < Z.to_nat (prod (g_grid g)))%nat -> exists it, it_after g (prod (g_grid g)) n = Ok it /\ it_linear it = Z.of_nat n /\
       nth_error (row_indices (g_grid g)) n = Some (it_index it) /\ (forall ix, in_box (it_slices it) ix -> in_bounds sh ix)) /\
    (forall ix, in_bounds sh ix -> exists n it, (n < Z.to_nat (prod (g_grid g)))%nat /\ it_after g (prod (g_grid g)) n = Ok it /\ in_box (it_slices it) ix /\
       forall m it', (m < Z.to_nat (prod (g_grid g)))%nat -> it_after g (prod (g_grid g)) m = Ok it' -> in_box (it_slices it') ix -> m = n).
Proof.
  intros Hs. unfold view_chunking. rewrite (grid_ok _ _ Hs). cbn [bind]. eexists. split; [reflexivity|]. cbn [g_grid]. split.
  - intros n Hn. destruct (it_after_ok sh cs Hs n Hn) as (q & E & Hq & Hr). eexists. split; [exact E|]. cbn [it_linear it_index it_slices].
    split; [exact Hr|]. split.
    + rewrite <- (Nat2Z.id n), <- Hr. apply row_indices_nth. exact Hq.
    + intros ix Hix. apply (box_in _ _ _ _ Hs Hq) in Hix. apply Hix.
  - intros ix Hb. destruct (decomp _ _ _ Hs Hb) as (H1 & _). pose proof (rank_bound row_major _ _ H1) as Hr. cbn [rank] in Hr.
    set (n := Z.to_nat (row_pos (ceils sh cs) (divs ix cs))). destruct (it_after_ok sh cs Hs n ltac:(lia)) as (q & E & Hq & Hn).
    assert (Eq : q = divs ix cs) by (apply (rank_inj row_major (ceils sh cs)); [assumption..|cbn [rank]; lia]). subst q.
    exists n. eexists. split; [lia|]. split; [exact E|]. split; [apply box_in; auto|].
    intros m it' Hm E' Hix. destruct (it_after_ok sh cs Hs m Hm) as (q & E2 & Hq2 & Hn2). rewrite E2 in E'. injection E' as <-. cbn [it_slices] in Hix.
    apply (box_in _ _ _ _ Hs Hq2) in Hix as [_ Eq]. subst q. lia.
Qed.

(** ** Witnesses *)
Definition ek_fresh := fill_fresh.
Definition num (ix : list Z) : Z := fold_left (fun a x => 10 * a + x) ix 0.
Definition get_or (k : res (chunked Z)) (ix : list Z) : res Z := let* k := k in k_get k ix.

Ltac vm2 := match goal with |- _ /\ _ => refine (conj _ _); vm2 | |- _ => vm_compute; reflexivity end.
Definition k24 := k_from row_major row_major row_major row_major ek_fresh 0 [2; 4] num [1; 2] row_major.

(** A missing leading index is not 0. *)
Lemma fewer_lemma : get_or k24 [0; 3] = Ok 3 /\ get_or k24 [3] = Ok 12.
Proof. vm2. Qed.
(** More indices than axes read past the chunk shape. *)
Lemma more_lemma : get_or k24 [0; 0; 3] = UB.
Proof. vm2. Qed.
(** The layout of the chunks cannot be chosen. *)
Lemma layout_lemma : k_create row_major row_major row_major ek_fresh 0 [2; 4] [1; 2] column_major = Throw runtime_error.
Proof. vm2. Qed.
(** Nor can a chunked array of column major chunks be assigned to. *)
Lemma assign_layout_lemma :
  is_ok (k_create column_major row_major row_major ek_fresh 0 [2; 4] [1; 2] column_major) = true /\
  (let* k := k_create column_major row_major row_major ek_fresh 0 [2; 4] [1; 2] column_major in
   k_assign_op column_major row_major row_major row_major ek_fresh 0 k [2; 4] num) = Throw runtime_error.
Proof. vm2. Qed.
(** A zero chunk extent, an array of more dimensions. *)
Lemma zero_chunk_lemma : k_create row_major row_major row_major ek_fresh 0 [2; 4] [1; 0] row_major = UB.
Proof. vm2. Qed.
Lemma more_dims_lemma : is_ok k24 = true /\
  (let* k := k24 in k_assign_op row_major row_major row_major row_major ek_fresh 0 k [2; 4; 2] num) = UB.
Proof. vm2. Qed.
(** With a column major default traversal the chunks are mixed up. *)
Lemma traversal_lemma : get_or (k_from row_major row_major row_major column_major ek_fresh 0 [2; 4] num [1; 2] row_major) [0; 2] = Ok 10.
Proof. vm2. Qed.
Ltac fl := cbn; repeat split; repeat constructor; try discriminate.
