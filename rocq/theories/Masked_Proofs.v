From Coq Require Import List ZArith Lia Bool Arith.
From Verif Require Import Prelude PreludeFacts Strides_Model Strides_Spec Strides_Proofs Layout_Model Broadcast_Model Broadcast_Spec Broadcast_Proofs Broadcast2_Proofs
  Slice_Model Stepper_Model Stepper_Spec Stepper_Proofs Stepper2_Proofs Stepper3_Proofs Stepper4_Proofs Container_Model Container_Spec Container_Proofs
  Assign_Model Assign_Spec Semantic_Model Semantic_Spec Semantic_Proofs Semantic2_Proofs Semantic3_Proofs Semantic5_Proofs
  Reduce_Spec Reduce5_Proofs Reduce13_Proofs Functor_Model Functor_Spec Functor_Proofs Functor2_Proofs Masked_Model Masked_Spec.
Import ListNotations.
Open Scope Z_scope.

(** ** Positions *)

Lemma skip_position (c : container) sh ix : strided_ok c -> fits (k_shape c) sh -> length ix = length sh ->
  k_begin c + dot (skipn (k_offset c sh) ix) (k_strides c) = position c (bc_index (k_shape c) ix).
Proof.
  intros (S1 & S2 & S3) Hf Hlen. unfold position. f_equal. unfold bc_index, k_offset. rewrite Hlen. symmetry.
  apply dot_zero_unit; auto.
  - rewrite skipn_length. destruct Hf as [HL _]. lia.
  - intros j Hj. apply S3. assumption.
Qed.

Lemma skipn_twice {A} : forall n m (l : list A), skipn n (skipn m l) = skipn (n + m) l.
Proof.
  intros n m l. revert l. induction m as [|m IH]; intros l; [rewrite Nat.add_0_r; reflexivity|].
  destruct l as [|x l]; [rewrite !skipn_nil; reflexivity|]. rewrite Nat.add_succ_r. cbn [skipn]. apply IH.
Qed.
Lemma zero_unit_skip : forall n s ix, (n <= length s)%nat -> length ix = length s -> skipn n (zero_unit s ix) = zero_unit (skipn n s) (skipn n ix).
Proof.
  induction n as [|n IH]; intros s ix Hn Hl; [reflexivity|]. destruct s as [|d s], ix as [|i ix]; cbn in *; try lia. apply IH; lia.
Qed.
Lemma zero_unit_twice : forall s t ix, length s = length t -> length ix = length t -> (forall j, (j < length s)%nat -> nth j s 0 = 1 \/ nth j s 0 = nth j t 0) ->
  zero_unit s (zero_unit t ix) = zero_unit s ix.
Proof.
  induction s as [|d s IH]; intros t ix L1 L2 H; [reflexivity|]. destruct t as [|e t], ix as [|i ix]; cbn in *; try lia.
  rewrite (IH t ix) by (try lia; intros j Hj; apply (H (S j)); lia). f_equal.
  destruct (H 0%nat ltac:(lia)) as [E|E]; cbn in E; destruct (Z.eqb_spec d 1); destruct (Z.eqb_spec e 1); try reflexivity; lia.
Qed.
Lemma zero_unit_length : forall s ix, length ix = length s -> length (zero_unit s ix) = length s.
Proof. induction s as [|d s IH]; intros [|i ix] H; cbn in *; try lia. rewrite IH; lia. Qed.
Lemma bc_twice s t ix : fits s t -> (length t <= length ix)%nat -> bc_index s (bc_index t ix) = bc_index s ix.
Proof.
  intros Hf Hl. pose proof (fits_nth s t Hf) as Hn. destruct Hf as [HL HA]. unfold bc_index at 1 2 3.
  set (jx := skipn (length ix - length t) ix). assert (Lj : length jx = length t) by (unfold jx; rewrite skipn_length; lia).
  rewrite (zero_unit_length t jx Lj).
  rewrite zero_unit_skip by lia.
  replace (skipn (length ix - length s) ix) with (skipn (length t - length s) jx).
  2:{ unfold jx. rewrite skipn_twice. f_equal. lia. }
  apply zero_unit_twice; rewrite ?skipn_length; try lia.
  intros j Hj. destruct (Hn j Hj) as [E|E]; [left; exact E|right]. rewrite E. set (m := (length t - length s)%nat).
  assert (Hm : forall (l : list Z) m j, nth (j + m) l 0 = nth j (skipn m l) 0).
  { clear. induction l as [|x l IH]; intros [|m] j; cbn [skipn]; rewrite ?Nat.add_0_r; try reflexivity; [destruct j; reflexivity|]. rewrite Nat.add_succ_r. cbn [nth]. apply IH. }
  apply Hm.
Qed.

(** ** The loop *)

Lemma iterate_ok {V A} (k : mview V) L (f : list Z -> Z -> Z -> A -> res A) n s : is_order L -> is_shape (mv_shape k) ->
  strided_ok (mv_data k) -> strided_ok (mask_cont (mv_mask k)) -> fits (k_shape (mask_cont (mv_mask k))) (mv_shape k) -> (n <= mv_size k)%nat ->
  mv_iterate k L f n s = for_each (fun ix s => f ix (position (mv_data k) ix) (flag_place k ix) s) (firstn n (indices_of L (mv_shape k))) s.
Proof.
  intros HL Hsh H1 H2 Hf Hn. unfold mv_size in Hn. rewrite compute_size_prod in Hn.
  assert (Hok : operands_ok (mv_shape k) (mv_pair k)).
  { cbn. split; [split; [apply fits_self|exact H1]|]. split; [split; assumption|exact I]. }
  assert (Hl : L = row_major \/ L = column_major) by (destruct HL; auto).
  assert (G : Forall (fun d => 0 < d) (mv_shape k) -> forall n j ix st s,
            valid L (mv_shape k) (x_at (mv_shape k) (mv_pair k)) (x_endst (mv_shape k) L (mv_pair k)) (Z.of_nat j) ix st ->
            Z.of_nat j + Z.of_nat n <= prod (mv_shape k) ->
            mv_loop k L f n ix st s = for_each (fun ix s => f ix (position (mv_data k) ix) (flag_place k ix) s) (firstn n (skipn j (indices_of L (mv_shape k)))) s).
  { intros Hpos. clear n s Hn. induction n as [|n IH]; intros j ix st s Hv Hle; [reflexivity|].
    pose proof Hv as [(Hb & Hp & Ha)|(Hp & _)]; [|lia].
    rewrite posn_order in Hp.
    assert (En : nth_error (indices_of L (mv_shape k)) j = Some ix).
    { rewrite <- (indices_of_nth L (mv_shape k) ix Hl Hb), Hp, Nat2Z.id. reflexivity. }
    assert (Es : skipn j (indices_of L (mv_shape k)) = ix :: skipn (S j) (indices_of L (mv_shape k))).
    { clear - En. revert j En. induction (indices_of L (mv_shape k)) as [|y l IH]; intros [|j] En; try discriminate; cbn in *.
      - injection En as ->. reflexivity.
      - apply IH. exact En. }
    rewrite Es. cbn [firstn for_each].
    cbn [mv_pair x_at] in Ha. destruct st as [| | |ss]; try contradiction.
    destruct ss as [|s1 ss]; try contradiction. destruct Ha as [A1 Ha].
    destruct ss as [|s2 ss]; try contradiction. destruct Ha as [A2 Ha].
    destruct ss as [|s3 ss]; try contradiction.
    destruct s1 as [|p| |]; try contradiction. destruct s2 as [|q| |]; try contradiction.
    destruct A1 as [L1 ->]. destruct A2 as [L2 ->].
    rewrite !skip_position in * by (auto; apply fits_self).
    pose proof (bc_index_self (k_shape (mv_data k)) ix Hb) as Eb. rewrite Eb in *.
    change (position (mask_cont (mv_mask k)) (bc_index (k_shape (mask_cont (mv_mask k))) ix)) with (flag_place k ix) in *.
    cbn [mv_loop].
    destruct (f ix (position (mv_data k) ix) (flag_place k ix) s) as [s'| |]; cbn [bind]; try reflexivity.
    destruct (walk_ok L (mv_shape k) (mv_pair k) Hl Hpos Hok 1 (Z.of_nat j) ix _ Hv) as (ix' & st' & E & Hv'); [lia|].
    cbn [walk] in E.
    destruct (match L with row_major => row_increment _ _ _ _ | _ => _ end) as [[ix2 st2]| |] eqn:Ei; cbn [bind] in E; try discriminate.
    injection E as <- <-. cbn [bind].
    apply IH; [|lia]. replace (Z.of_nat (S j)) with (Z.of_nat j + Z.of_nat 1) by lia. exact Hv'. }
  destruct n as [|n]; [reflexivity|].
  assert (Hpos : Forall (fun d => 0 < d) (mv_shape k)) by (apply prod_nonneg_pos; [exact Hsh|lia]).
  unfold mv_iterate. destruct (x_begin_valid L (mv_shape k) (mv_pair k) Hl Hok Hpos) as (b & Eb & Hv). injection Eb as Eb. subst b. destruct Hv as [_ Hv].
  apply (G Hpos (S n) 0%nat _ _ s Hv). lia.
Qed.
Lemma iterate_all {V A} (k : mview V) L (f : list Z -> Z -> Z -> A -> res A) s : is_order L -> is_shape (mv_shape k) ->
  strided_ok (mv_data k) -> strided_ok (mask_cont (mv_mask k)) -> fits (k_shape (mask_cont (mv_mask k))) (mv_shape k) ->
  mv_iterate k L f (mv_size k) s = for_each (fun ix s => f ix (position (mv_data k) ix) (flag_place k ix) s) (indices_of L (mv_shape k)) s.
Proof.
  intros HL Hsh H1 H2 Hf. rewrite iterate_ok by auto. rewrite firstn_all2; [reflexivity|].
  unfold mv_size. rewrite compute_size_prod. pose proof (indices_of_length L (mv_shape k)) as E. destruct HL as [ -> | -> ]; specialize (E ltac:(auto) Hsh); lia.
Qed.
