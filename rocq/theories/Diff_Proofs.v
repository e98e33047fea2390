From Coq Require Import List ZArith Bool Lia.
From Verif Require Import Prelude PreludeFacts Strides_Model Strides_Spec Strides_Proofs Access_Model Broadcast_Model Broadcast_Spec Slice_Model Slice_Spec View_Spec SView_Model SView_Spec
  SView_Proofs SView2_Proofs SView3_Proofs SView4_Proofs Reshape_Model Reshape_Proofs Manip_Model Stepper_Model Stepper_Spec Container_Model Container_Spec Assign_Model Assign_Spec
  Semantic_Model Semantic_Spec Semantic_Proofs Semantic2_Proofs Semantic3_Proofs Stats_Model Diff_Model Diff_Spec.
Import ListNotations.
Open Scope Z_scope.

(** ** Slices with one range *)

Lemma at_axis_length f : forall l p, length (at_axis p f l) = length l.
Proof. induction l as [|x l IH]; intros [|p]; cbn; auto. Qed.

Lemma map_rep {A B} (f : A -> B) a n : map f (repeat a n) = repeat (f a) n.
Proof. induction n; cbn; f_equal; auto. Qed.

Lemma slice_axis_ok dim p u : (p < dim)%nat ->
  slice_axis dim (Z.of_nat p) u = Ok (map Pick (repeat UAll p ++ u :: repeat UAll (dim - 1 - p))).
Proof.
  intros H. unfold slice_axis. rewrite wrz_ok by (rewrite repeat_length; lia). f_equal. rewrite Nat2Z.id.
  revert dim H. induction p as [|p IH]; intros [|dim] H; try lia; cbn.
  - rewrite !Nat.sub_0_r, map_rep. reflexivity.
  - f_equal. rewrite IH by lia. replace (dim - 0 - S p)%nat with (dim - 1 - p)%nat by lia. reflexivity.
Qed.

(** The axes of an array with the range [a, b) on axis p *)
Definition one_range (p : nat) (a b : option Z) (dim : nat) : list user_slice := repeat UAll p ++ URange a b None :: repeat UAll (dim - 1 - p).

Lemma expand_picks us d : expand d (map Pick us) = us.
Proof. unfold expand. generalize (map Pick us) at 1. intros l. revert l. induction us as [|u us IH]; intros l; cbn; [reflexivity|]. f_equal. apply IH. Qed.

Lemma ellipses_picks us : ellipses (map Pick us) = 0%nat.
Proof. unfold ellipses. induction us; cbn; auto. Qed.

Lemma all_valid n : forall sh, length sh = n -> valid false (repeat UAll n) sh.
Proof. induction n; intros [|x sh] E; cbn in *; try lia; constructor; auto. Qed.

Lemma one_range_valid p a b : forall sh, (p < length sh)%nat -> valid false (one_range p a b (length sh)) sh.
Proof.
  unfold one_range. induction p as [|p IH]; intros [|n sh] H; cbn in *; try lia.
  - constructor; [cbn; lia|left; reflexivity|]. apply all_valid. lia.
  - constructor. replace (length sh - 0 - S p)%nat with (length sh - 1 - p)%nat by lia. apply IH. lia.
Qed.

Lemma all_shape n : forall sh w, view_shape (repeat UAll n) sh w -> w = sh.
Proof. induction n; intros sh w H; cbn in H; inversion H; subst; auto. f_equal. auto. Qed.

Lemma selected_length n a b len f : py_selects n a b 1 len f -> len = Z.max 0 (py_stop n 1 b - py_start n 1 a).
Proof.
  intros (H0 & H & _). unfold before in H. cbn [Z.ltb Z.compare] in H.
  destruct (Z.eq_dec len (Z.max 0 (py_stop n 1 b - py_start n 1 a))) as [E|E]; [exact E|exfalso].
  pose proof (H (Z.max 0 (py_stop n 1 b - py_start n 1 a)) ltac:(lia)).
  pose proof (H len ltac:(lia)). lia.
Qed.

Lemma one_range_shape p a b : forall sh w, (p < length sh)%nat -> view_shape (one_range p a b (length sh)) sh w ->
  w = at_axis p (fun n => Z.max 0 (py_stop n 1 b - py_start n 1 a)) sh.
Proof.
  unfold one_range. induction p as [|p IH]; intros [|n sh] w H Hv; cbn in *; try lia.
  - inversion Hv; subst. f_equal; [|eapply all_shape; eassumption]. eapply selected_length; eassumption.
  - inversion Hv; subst. f_equal. apply IH; [lia|]. replace (length sh - 1 - p)%nat with (length sh - 0 - S p)%nat by lia. assumption.
Qed.

Lemma all_source n : forall sh ix jx, source_index (repeat UAll n) sh ix jx -> jx = ix.
Proof. induction n; intros sh ix jx H; cbn in H; inversion H; subst; auto. f_equal. eauto. Qed.

Lemma one_range_source p a b : forall sh ix jx c, (p < length sh)%nat -> source_index (one_range p a b (length sh)) sh ix jx ->
  py_start (nth p sh 0) 1 a = c -> jx = further p c ix.
Proof.
  unfold one_range, further. induction p as [|p IH]; intros [|n sh] ix jx c H Hs E; cbn in *; try lia.
  - inversion Hs; subst. cbn. f_equal; [cbn; lia|]. eapply all_source; eassumption.
  - inversion Hs; subst. cbn. f_equal. eapply IH; [|shelve|reflexivity]. lia.
    Unshelve. replace (length sh - 1 - p)%nat with (length sh - 0 - S p)%nat by lia. assumption.
Qed.

(** ** Strided views as operands *)

Lemma strided_view_parts T e ss junk w : T = row_major \/ T = column_major -> wf_exp e -> (ellipses ss <= 1)%nat ->
  valid false (expand (length (x_shape e)) ss) (x_shape e) -> strided_view T e ss junk = Ok w ->
  w_base w = e /\ strided_ok (mk_container (w_shape w) (w_strides w) (w_back w) (w_offset w)).
Proof.
  intros HT He Hel Hv. unfold strided_view. rewrite get_strides_ok. cbn [bind].
  pose proof (src_strides_length T e He) as Hsl.
  destruct (fill_args_ok (x_shape e) (src_strides T e) (get_offset e) (x_layout e) ss junk Hsl Hel Hv)
    as (d & u & x & sh' & st' & m & Hf & Hm & F).
  rewrite Hf. cbn [bind].
  assert (HL : length (x ++ st') = length (u ++ sh')).
  { destruct (filled_lens _ _ _ _ _ _ _ _ F). rewrite !app_length, (filled_rest _ _ _ _ _ _ _ _ F Hsl). lia. }
  rewrite make_view_ok by exact HL. intros E. injection E as <-. cbn. split; [reflexivity|].
  apply spec_strided; [apply adapted_length|]. intros j Hj E. rewrite adapted_nth by exact Hj. rewrite E. reflexivity.
Qed.
