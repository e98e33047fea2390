(** Proofs about the axis iterators. *)
From Coq Require Import List ZArith Lia Bool.
From Verif Require Import Prelude PreludeFacts Strides_Model Strides_Spec Strides_Proofs Access_Model Container_Model Container_Spec
  Stepper_Proofs SView_Model SView_Spec SView_Proofs Accum2_Proofs Manip4_Proofs AxisIt_Model AxisIt_Spec.
Import ListNotations.
Open Scope Z_scope.

(** * Lists around an axis *)
Lemma split_axis (l : list Z) axis n : nth_error l axis = Some n ->
  exists p q, l = p ++ n :: q /\ length p = axis.
Proof. intros H. apply nth_error_split in H. destruct H as (p & q & E & L). exists p, q. auto. Qed.

Lemma firstn_mid (p : list Z) n q : firstn (length p) (p ++ n :: q) = p.
Proof. rewrite firstn_app, Nat.sub_diag, firstn_all, app_nil_r. reflexivity. Qed.
Lemma skipn_mid (p : list Z) n q : skipn (S (length p)) (p ++ n :: q) = q.
Proof.
  replace (p ++ n :: q) with ((p ++ [n]) ++ q) by (rewrite <- app_assoc; reflexivity).
  rewrite skipn_app, skipn_all2 by (rewrite app_length; cbn; lia). rewrite app_length. cbn [length].
  replace (S (length p) - (length p + 1))%nat with 0%nat by lia. reflexivity.
Qed.
Lemma without_mid p n q : without (length p) (p ++ n :: q) = p ++ q.
Proof. unfold without. rewrite firstn_mid, skipn_mid. reflexivity. Qed.
Lemma insert_mid p j q : insert_at (length p) j (p ++ q) = p ++ j :: q.
Proof.
  unfold insert_at. rewrite firstn_app, Nat.sub_diag, firstn_all, app_nil_r.
  rewrite skipn_app, skipn_all, Nat.sub_diag. reflexivity.
Qed.
Lemma drop_axis_ok l axis n : nth_error l axis = Some n -> drop_axis axis l = Ok (without axis l).
Proof. intros H. unfold drop_axis. rewrite (rd_ok _ _ _ H). reflexivity. Qed.

Lemma to_size_t_small x : 0 <= x < 2 ^ 64 -> to_size_t x = x.
Proof. intros H. unfold to_size_t. apply Z.mod_small, H. Qed.

Lemma to_size_t_add a b : to_size_t (to_size_t a + to_size_t b) = to_size_t (a + b).
Proof. unfold to_size_t. symmetry. apply Z.add_mod. lia. Qed.
Lemma to_size_t_mul a b : to_size_t (to_size_t a * b) = to_size_t (a * b).
Proof. unfold to_size_t. apply Z.mul_mod_idemp_l. lia. Qed.

(** * xaxis_iterator *)
Section Axis.
Context (e : xexp) (axis : nat) (n s : Z).
Hypothesis We : wf_exp e.
Hypothesis De : x_direct e = true.
Hypothesis En : nth_error (x_shape e) axis = Some n.
Hypothesis Es : nth_error (x_strides e) axis = Some s.

Let wsh := without axis (x_shape e).
Let wst := without axis (x_strides e).

Lemma without_len : length wst = length wsh.
Proof.
  unfold wsh, wst, without. rewrite !app_length, !firstn_length, !skipn_length. destruct We as [_ H]. rewrite (H De). reflexivity.
Qed.

Definition axis_state (index offset : Z) : axis_it :=
  mk_axis_it index (to_size_t s)
    (mk_sview e row_major wsh (adapted wsh wst) (spec_backstrides (adapted wsh wst) wsh) offset (x_layout e)).

Lemma axis_make_ok index offset : axis_make e axis index offset = Ok (axis_state index offset).
Proof.
  unfold axis_make, derive_view. rewrite (rd_ok _ _ _ Es). cbn [bind].
  rewrite (drop_axis_ok _ _ _ En), (drop_axis_ok _ _ _ Es). cbn [bind].
  rewrite make_view_ok by apply without_len. reflexivity.
Qed.

Lemma axis_nexts_ok : forall k index offset, axis_nexts k (axis_state index (to_size_t offset)) =
  axis_state (index + Z.of_nat k) (to_size_t (offset + Z.of_nat k * s)).
Proof.
  induction k as [|k IH]; intros index offset; cbn [axis_nexts].
  - f_equal; [lia|]. f_equal. lia.
  - unfold axis_next at 1. cbn [ai_index ai_add ai_view axis_state w_offset set_offset w_base w_flat w_shape w_strides w_back w_layout].
    rewrite to_size_t_add. change (mk_axis_it _ _ _) with (axis_state (index + 1) (to_size_t (offset + s))).
    rewrite IH. f_equal; [lia|]. f_equal. lia.
Qed.

Lemma begin_ok : 0 <= x_offset e < 2 ^ 64 -> axis_begin e axis = Ok (axis_state 0 (to_size_t (x_offset e))).
Proof. intros H. unfold axis_begin. rewrite axis_make_ok, to_size_t_small by exact H. reflexivity. Qed.

Lemma axis_lemma k :
  (forall i, 0 <= i < n -> 0 <= x_offset e + i * s < 2 ^ 64) ->
  Z.of_nat k < n ->
  exists b, axis_begin e axis = Ok b /\
    w_shape (axis_deref (axis_nexts k b)) = without axis (x_shape e) /\
    forall rest, in_bounds (without axis (x_shape e)) rest ->
      reads (axis_deref (axis_nexts k b)) rest (x_elem e (insert_at axis (Z.of_nat k) rest)).
Proof.
  intros Ho Hk. assert (H0 : 0 <= x_offset e < 2 ^ 64) by (specialize (Ho 0 ltac:(lia)); lia).
  rewrite begin_ok by exact H0. eexists. split; [reflexivity|]. rewrite axis_nexts_ok. cbn [axis_deref ai_view axis_state w_shape].
  split; [reflexivity|]. intros rest Hr.
  destruct (split_axis _ _ _ En) as (p & q & E & Lp). destruct (split_axis _ _ _ Es) as (sp & sq & E' & Lsp).
  pose proof Hr as Hr0. rewrite E in Hr. rewrite <- Lp, without_mid in Hr. apply in_bounds_split in Hr. destruct Hr as (rp & rq & -> & Hp & Hq).
  pose proof (in_bounds_length _ _ Hp) as L1. pose proof (in_bounds_length _ _ Hq) as L2.
  assert (Lr : length rp = axis) by congruence.
  assert (Hin : in_bounds (x_shape e) (insert_at axis (Z.of_nat k) (rp ++ rq))).
  { rewrite E, <- Lr, insert_mid. apply in_bounds_app; [exact Hp|]. constructor; [lia|exact Hq]. }
  apply (reads_of row_major e); auto.
  - cbn [w_strides]. rewrite adapted_length. symmetry. apply in_bounds_length, Hr0.
  - cbn [w_offset w_strides]. rewrite to_size_t_small by (apply Ho; lia). rewrite dot_adapted by (auto using without_len).
    unfold get_offset, src_strides. rewrite De. unfold wst. rewrite E'. rewrite <- Lr at 2. rewrite insert_mid.
    rewrite <- Lsp at 1. rewrite without_mid. rewrite !dot_app by lia. cbn [dot]. lia.
Qed.

Lemma axis_end_lemma : 0 <= x_offset e < 2 ^ 64 -> 0 <= n -> exists b en,
  axis_begin e axis = Ok b /\ axis_end e axis = Ok en /\
  forall k, axis_equal (axis_nexts k b) en = true <-> Z.of_nat k = n /\ x_offset e = 0.
Proof.
  intros H0 Hn. exists (axis_state 0 (to_size_t (x_offset e))), (axis_state n (to_size_t (s * n))).
  split; [apply begin_ok, H0|]. split.
  { unfold axis_end. rewrite (rd_ok _ _ _ En), (rd_ok _ _ _ Es). cbn [bind]. rewrite axis_make_ok, to_size_t_mul. reflexivity. }
  intros k. rewrite axis_nexts_ok. unfold axis_equal. cbn [ai_index ai_view axis_state w_offset].
  rewrite andb_true_iff, !Z.eqb_eq. split.
  - intros [A B]. split; [lia|]. replace (Z.of_nat k) with n in B by lia.
    unfold to_size_t in B. replace (x_offset e + n * s) with (s * n + x_offset e) in B by lia.
    assert (D : (s * n + x_offset e - s * n) mod 2 ^ 64 = 0).
    { rewrite Zminus_mod, B, Z.sub_diag. reflexivity. }
    replace (s * n + x_offset e - s * n) with (x_offset e) in D by lia. rewrite Z.mod_small in D by exact H0. exact D.
  - intros [A B]. split; [lia|]. f_equal. nia.
Qed.
End Axis.
