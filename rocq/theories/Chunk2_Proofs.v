From Coq Require Import List ZArith Lia Bool Arith.
From Verif Require Import Prelude PreludeFacts Strides_Model Strides_Spec Strides_Proofs Access_Model Slice_Model Container_Model Container_Spec Container_Proofs
  Semantic_Spec Reduce_Spec Reduce3_Proofs Reduce5_Proofs Reduce9_Proofs Reduce13_Proofs Sort2_Proofs Chunk_Model Chunk_Spec Chunk_Proofs.
Import ListNotations.
Open Scope Z_scope.

(** ** Copying into a buffer *)

Lemma cons_off {A} (c : cont A) ix : consistent c -> in_bounds (ct_shape c) ix ->
  0 <= element_offset (ct_strides c) ix < Z.of_nat (length (ct_data c)).
Proof.
  intros (_ & _ & _ & L & l & _ & _ & E) H. rewrite E by exact H. pose proof (rank_bound l _ _ H). lia.
Qed.
Lemma cons_inj {A} (c : cont A) i j : consistent c -> in_bounds (ct_shape c) i -> in_bounds (ct_shape c) j ->
  Z.to_nat (element_offset (ct_strides c) i) = Z.to_nat (element_offset (ct_strides c) j) -> i = j.
Proof.
  intros Hc Hi Hj Eq. pose proof (cons_off c i Hc Hi). pose proof (cons_off c j Hc Hj).
  destruct Hc as (_ & _ & _ & L & l & _ & _ & E). apply (rank_inj l (ct_shape c)); [assumption..|].
  rewrite <- !E by assumption. lia.
Qed.

Lemma copy_ok {V} TL st w sh (src : list Z -> res V) vals d : is_order TL ->
  (forall j, in_bounds sh j -> src j = Ok (vals j)) ->
  (forall j, in_bounds sh j -> 0 <= element_offset st (w j) < Z.of_nat (length d)) ->
  (forall i j, in_bounds sh i -> in_bounds sh j -> Z.to_nat (element_offset st (w i)) = Z.to_nat (element_offset st (w j)) -> i = j) ->
  exists d', copy_into TL st w sh src d = Ok d' /\ length d' = length d /\
    (forall j, in_bounds sh j -> nth_error d' (Z.to_nat (element_offset st (w j))) = Some (vals j)) /\
    (forall p, (forall j, in_bounds sh j -> p <> Z.to_nat (element_offset st (w j))) -> nth_error d' p = nth_error d p).
Proof.
  intros HT Hsrc Hoff Hinj. unfold copy_into.
  assert (Hin : forall j, In j (indices_of TL sh) <-> in_bounds sh j) by (intros j; apply indices_of_in; exact HT).
  pose proof (indices_of_nodup TL sh HT) as Hnd.
  assert (G : forall l d0, incl l (indices_of TL sh) -> NoDup l -> length d0 = length d ->
    exists d', for_each (fun j d => let* v := src j in wrz d (element_offset st (w j)) v) l d0 = Ok d' /\ length d' = length d /\
      (forall j, In j l -> nth_error d' (Z.to_nat (element_offset st (w j))) = Some (vals j)) /\
      (forall p, (forall j, In j l -> p <> Z.to_nat (element_offset st (w j))) -> nth_error d' p = nth_error d0 p)).
  { induction l as [|j l IH]; intros d0 Hi Hn HL; cbn [for_each].
    - exists d0. repeat split; try assumption. intros j [].
    - assert (Hj : in_bounds sh j) by (apply Hin, Hi; left; reflexivity).
      rewrite (Hsrc j Hj). cbn [bind]. rewrite wrz_ok by (rewrite HL; apply Hoff; exact Hj). cbn [bind].
      inversion Hn as [|? ? Hnj Hn']; subst.
      destruct (IH (upd d0 (Z.to_nat (element_offset st (w j))) (vals j))) as (d' & E & L & Hv & Ho);
        [intros x Hx; apply Hi; right; exact Hx|exact Hn'|rewrite upd_length; exact HL|].
      exists d'. split; [exact E|]. split; [exact L|]. split.
      + intros x [ <- |Hx]; [|apply Hv; exact Hx]. rewrite Ho.
        * apply nth_error_upd_same. rewrite HL. specialize (Hoff j Hj). lia.
        * intros y Hy Eq. apply Hinj in Eq; [subst y; contradiction|exact Hj|]. apply Hin, Hi. right. exact Hy.
      + intros p Hp. rewrite Ho by (intros y Hy; apply Hp; right; exact Hy). apply nth_error_upd_other.
        intros Eq. apply (Hp j); [left; reflexivity|congruence]. }
  destruct (G (indices_of TL sh) d (incl_refl _) Hnd eq_refl) as (d' & E & L & Hv & Ho).
  exists d'. split; [exact E|]. split; [exact L|]. split.
  - intros j Hj. apply Hv, Hin, Hj.
  - intros p Hp. apply Ho. intros j Hj. apply Hp, Hin, Hj.
Qed.

(** ** Well-formed chunked arrays *)

Definition wf {V} (k : chunked V) : Prop :=
  chunkable (k_shape k) (k_chunk_shape k) /\ consistent (k_chunks k) /\
  ct_shape (k_chunks k) = ceils (k_shape k) (k_chunk_shape k) /\
  Forall (fun c => consistent c /\ ct_shape c = k_chunk_shape k) (ct_data (k_chunks k)).

Definition cell {V} (k : chunked V) (q j : list Z) : res V :=
  let* c := rdz (ct_data (k_chunks k)) (element_offset (ct_strides (k_chunks k)) q) in
  rdz (ct_data c) (element_offset (ct_strides c) j).

Lemma get_indexes_ok {V} (k : chunked V) : forall sh cs ix dim, chunkable sh cs -> in_bounds sh ix -> skipn dim (k_chunk_shape k) = cs ->
  get_indexes k dim ix = Ok (divs ix cs, mods ix cs).
Proof.
  intros sh cs ix dim H. revert ix dim. induction H as [|s c sh cs [Hs Hc] H IH]; intros ix dim Hb Hk; inversion Hb as [|? x ? ix' Hx Hb']; subst; [reflexivity|].
  cbn [get_indexes]. unfold in_dimension.
  assert (E : nth_error (k_chunk_shape k) dim = Some c).
  { pose proof (nth_error_skipn (k_chunk_shape k) dim 0) as E0. rewrite Nat.add_0_r in E0. rewrite <- E0, Hk. reflexivity. }
  rewrite (rd_ok _ _ _ E). cbn [bind]. destruct (c =? 0) eqn:E0; [apply Z.eqb_eq in E0; lia|]. cbn [bind].
  assert (E2 : skipn (S dim) (k_chunk_shape k) = cs).
  { clear - Hk. revert Hk. generalize (k_chunk_shape k). induction dim as [|dim IH]; intros [|z l] Hk; try discriminate Hk; cbn in *; [congruence|].
    apply IH. exact Hk. }
  rewrite (IH ix' (S dim) Hb' E2). cbn [bind divs mods].
  assert (Ex : to_size_t x = x) by (apply to_size_t_id; lia). rewrite Ex.
  pose proof (Z.div_mod x c ltac:(lia)). pose proof (Z.mod_pos_bound x c ltac:(lia)).
  replace (x - x / c * c) with (x mod c) by lia. rewrite to_size_t_id by lia. reflexivity.
Qed.

Lemma get_cell {V} (k : chunked V) ix : wf k -> in_bounds (k_shape k) ix ->
  k_get k ix = cell k (divs ix (k_chunk_shape k)) (mods ix (k_chunk_shape k)).
Proof.
  intros (Hs & _) Hb. unfold k_get. rewrite (get_indexes_ok k _ _ _ 0 Hs Hb eq_refl). reflexivity.
Qed.

Lemma wf_chunk {V} (k : chunked V) q : wf k -> in_bounds (ct_shape (k_chunks k)) q ->
  exists c, rdz (ct_data (k_chunks k)) (element_offset (ct_strides (k_chunks k)) q) = Ok c /\ consistent c /\ ct_shape c = k_chunk_shape k.
Proof.
  intros (Hs & Hg & Eg & Hf) Hq. pose proof (cons_off _ _ Hg Hq) as Ho.
  destruct (nth_error (ct_data (k_chunks k)) (Z.to_nat (element_offset (ct_strides (k_chunks k)) q))) as [c|] eqn:E;
    [|apply nth_error_None in E; lia].
  exists c. split; [apply rdz_ok; [lia|exact E]|]. rewrite Forall_forall in Hf. apply Hf. eapply nth_error_In. exact E.
Qed.

Lemma wf_total {V} (k : chunked V) ix : wf k -> in_bounds (k_shape k) ix -> exists v, k_get k ix = Ok v.
Proof.
  intros Hw Hb. rewrite get_cell by assumption. pose proof Hw as (Hs & Hg & Eg & Hf). destruct (decomp _ _ _ Hs Hb) as (H1 & _ & _ & H4).
  rewrite <- Eg in H1. destruct (wf_chunk k _ Hw H1) as (c & E & Hc & Ec). unfold cell. rewrite E. cbn [bind]. rewrite <- Ec in H4.
  pose proof (cons_off _ _ Hc H4). rewrite Ec in *.
  destruct (nth_error (ct_data c) (Z.to_nat (element_offset (ct_strides c) (mods ix (k_chunk_shape k))))) as [v|] eqn:Ev;
    [|apply nth_error_None in Ev; lia].
  exists v. apply rdz_ok; [lia|exact Ev].
Qed.

Lemma upd_with_buffer_consistent {V} (c : cont V) d : consistent c -> length d = length (ct_data c) -> consistent (with_buffer c d).
Proof.
  intros (H1 & H2 & H3 & H4 & H5) L. unfold with_buffer. split; [exact H1|]. split; [exact H2|]. split; [exact H3|]. split; [|exact H5].
  cbn [ct_data ct_shape]. rewrite L. exact H4.
Qed.

(** Replacing the buffer of one chunk. *)
Lemma with_cell_ok {V} (k : chunked V) q c d : wf k -> in_bounds (ct_shape (k_chunks k)) q ->
  rdz (ct_data (k_chunks k)) (element_offset (ct_strides (k_chunks k)) q) = Ok c -> length d = length (ct_data c) ->
  exists k', with_cell k (element_offset (ct_strides (k_chunks k)) q) (with_buffer c d) = Ok k' /\ wf k' /\
    k_shape k' = k_shape k /\ k_chunk_shape k' = k_chunk_shape k /\ ct_shape (k_chunks k') = ct_shape (k_chunks k) /\
    length (ct_data (k_chunks k')) = length (ct_data (k_chunks k)) /\
    (forall j, cell k' q j = rdz d (element_offset (ct_strides c) j)) /\
    (forall q' j, in_bounds (ct_shape (k_chunks k)) q' -> q' <> q -> cell k' q' j = cell k q' j).
Proof.
  intros Hw Hq Ec Ld. pose proof Hw as (Hs & Hg & Eg & Hf). pose proof (cons_off _ _ Hg Hq) as Ho.
  unfold with_cell. rewrite wrz_ok by exact Ho. cbn [bind]. eexists. split; [reflexivity|].
  set (o := Z.to_nat (element_offset (ct_strides (k_chunks k)) q)) in *.
  assert (Ec' : nth_error (ct_data (k_chunks k)) o = Some c).
  { unfold rdz in Ec. destruct (_ <? 0); [discriminate Ec|]. apply rd_ok_inv in Ec. exact Ec. }
  split; [|split; [reflexivity|split; [reflexivity|split; [reflexivity|split; [apply upd_length|split]]]]].
  - split; [exact Hs|]. cbn [k_chunks k_shape k_chunk_shape with_chunks ct_shape ct_data]. split; [|split; [exact Eg|]].
    + destruct Hg as (G1 & G2 & G3 & G4 & G5). split; [exact G1|split; [exact G2|split; [exact G3|split; [|exact G5]]]].
      cbn [with_chunks ct_data ct_shape]. rewrite upd_length. exact G4.
    + apply Forall_forall. intros x Hx. apply In_nth_error in Hx as (p & Hp). rewrite Forall_forall in Hf.
      destruct (Nat.eq_dec p o) as [ -> |N].
      * rewrite nth_error_upd_same in Hp by lia. injection Hp as <-. destruct (Hf c) as [Hc Es]; [eapply nth_error_In; exact Ec'|].
        split; [apply upd_with_buffer_consistent; assumption|exact Es].
      * rewrite nth_error_upd_other in Hp by lia. apply Hf. eapply nth_error_In. exact Hp.
  - intros j. unfold cell. cbn [k_chunks with_chunks ct_data ct_strides]. rewrite (rdz_ok _ _ (with_buffer c d)); [reflexivity|lia|].
    apply nth_error_upd_same. lia.
  - intros q' j Hq' N. unfold cell. cbn [k_chunks with_chunks ct_data ct_strides].
    assert (E : rdz (upd (ct_data (k_chunks k)) o (with_buffer c d)) (element_offset (ct_strides (k_chunks k)) q') =
                rdz (ct_data (k_chunks k)) (element_offset (ct_strides (k_chunks k)) q')).
    { unfold rdz. destruct (_ <? 0); [reflexivity|]. unfold rd. rewrite nth_error_upd_other; [reflexivity|].
      intros E. apply N. symmetry. apply (cons_inj (k_chunks k)); assumption. }
    rewrite E. reflexivity.
Qed.

Lemma rdz_upd {A} (d : list A) o p v : 0 <= o < Z.of_nat (length d) -> 0 <= p ->
  rdz (upd d (Z.to_nat o) v) p = if Z.eq_dec p o then Ok v else rdz d p.
Proof.
  intros Ho Hp. destruct (Z.eq_dec p o) as [ -> |N]; [apply rdz_ok; [lia|apply nth_error_upd_same; lia]|].
  unfold rdz. destruct (p <? 0); [reflexivity|]. unfold rd. rewrite nth_error_upd_other by lia. reflexivity.
Qed.

Lemma divs_mods_inj sh cs ix jx : chunkable sh cs -> in_bounds sh ix -> in_bounds sh jx -> divs ix cs = divs jx cs -> mods ix cs = mods jx cs -> ix = jx.
Proof.
  intros H Hi Hj E1 E2. destruct (decomp _ _ _ H Hi) as (_ & _ & <- & _). destruct (decomp _ _ _ H Hj) as (_ & _ & E & _).
  rewrite E1, E2. exact E.
Qed.

(** Writing one element. *)
Lemma set_ok {V} (k : chunked V) ix v : wf k -> in_bounds (k_shape k) ix ->
  exists k', k_set k ix v = Ok k' /\ wf k' /\ k_shape k' = k_shape k /\ k_chunk_shape k' = k_chunk_shape k /\
    forall jx, in_bounds (k_shape k) jx -> k_get k' jx = if list_eq_dec Z.eq_dec jx ix then Ok v else k_get k jx.
Proof.
  intros Hw Hb. pose proof Hw as (Hs & Hg & Eg & Hf). unfold k_set. rewrite (get_indexes_ok k _ _ _ 0 Hs Hb eq_refl). cbn [bind].
  destruct (decomp _ _ _ Hs Hb) as (H1 & _ & _ & H4). rewrite <- Eg in H1. destruct (wf_chunk k _ Hw H1) as (c & Ec & Hc & Es).
  rewrite Ec. cbn [bind]. rewrite <- Es in H4. pose proof (cons_off _ _ Hc H4) as Ho. rewrite Es in *.
  rewrite wrz_ok by exact Ho. cbn [bind].
  destruct (with_cell_ok k _ c _ Hw H1 Ec (upd_length (ct_data c) (Z.to_nat (element_offset (ct_strides c) (mods ix (k_chunk_shape k)))) v))
    as (k' & E & Hw' & S1 & S2 & S3 & _ & Hsame & Hother).
  exists k'. split; [exact E|]. split; [exact Hw'|]. split; [exact S1|]. split; [exact S2|].
  intros jx Hj. rewrite (get_cell k'), (get_cell k) by (try rewrite S1; assumption). rewrite S2.
  destruct (decomp _ _ _ Hs Hj) as (J1 & _ & _ & J4). rewrite <- Eg in J1.
  destruct (list_eq_dec Z.eq_dec (divs jx (k_chunk_shape k)) (divs ix (k_chunk_shape k))) as [Ed|Nd].
  - rewrite Ed, Hsame. rewrite <- Es in J4, H4. pose proof (cons_off _ _ Hc J4) as Jo. rewrite Es in Jo. rewrite rdz_upd by lia.
    destruct (Z.eq_dec _ _) as [Eo|No].
    + destruct (list_eq_dec Z.eq_dec jx ix) as [_|N]; [reflexivity|]. exfalso. apply N. eapply divs_mods_inj; [exact Hs|assumption..|].
      rewrite Es in J4, H4. apply (cons_inj c); [exact Hc|rewrite Es; assumption..|]. rewrite Eo. reflexivity.
    + destruct (list_eq_dec Z.eq_dec jx ix) as [ -> |_]; [congruence|]. unfold cell. rewrite Ec. reflexivity.
  - rewrite Hother by assumption. destruct (list_eq_dec Z.eq_dec jx ix) as [ -> |_]; [congruence|reflexivity].
Qed.

(** a op= scalar *)
Lemma scalar_ok {V} (k : chunked V) f : wf k ->
  wf (k_scalar f k) /\ forall ix v, in_bounds (k_shape k) ix -> k_get k ix = Ok v -> k_get (k_scalar f k) ix = Ok (f v).
Proof.
  intros Hw. pose proof Hw as (Hs & Hg & Eg & Hf). assert (Hw' : wf (k_scalar f k)).
  { split; [exact Hs|]. cbn [k_scalar k_chunks k_shape k_chunk_shape with_chunks ct_shape ct_data]. split; [|split; [exact Eg|]].
    - destruct Hg as (G1 & G2 & G3 & G4 & G5). split; [exact G1|split; [exact G2|split; [exact G3|split; [|exact G5]]]].
      cbn [with_chunks ct_data ct_shape]. rewrite map_length. exact G4.
    - apply Forall_map. eapply Forall_impl; [|exact Hf]. intros c [Hc Es]. split; [apply upd_with_buffer_consistent; [exact Hc|apply map_length]|exact Es]. }
  split; [exact Hw'|]. intros ix v Hb Hv. rewrite get_cell in Hv |- * by assumption.
  cbn [k_scalar k_chunk_shape]. unfold cell in *. cbn [k_scalar k_chunks with_chunks ct_data ct_strides].
  set (o := element_offset (ct_strides (k_chunks k)) _) in *. unfold rdz in *. destruct (o <? 0) eqn:Eo; [discriminate Hv|].
  unfold rd in *. rewrite nth_error_map. destruct (nth_error (ct_data (k_chunks k)) (Z.to_nat o)) as [c|]; cbn [bind option_map] in *; [|discriminate Hv].
  cbn [with_buffer ct_strides ct_data]. set (p := element_offset (ct_strides c) _) in *. destruct (p <? 0); [discriminate Hv|]. rewrite nth_error_map.
  destruct (nth_error (ct_data c) _); [|discriminate Hv]. cbn. injection Hv as ->. reflexivity.
Qed.
