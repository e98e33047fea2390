(** Lazy reduction: statements for the properties, counterexamples. *)
From Coq Require Import List ZArith Lia Bool Sorted.
From Verif Require Import Prelude PreludeFacts Strides_Model Strides_Spec Strides_Proofs Access_Model Broadcast_Spec Stepper_Model Stepper_Spec Stepper_Proofs
  Stepper4_Proofs Reduce_Model Reduce_Spec Reduce_Proofs Reduce3_Proofs Reduce4_Proofs Reduce5_Proofs Reduce6_Proofs.
Import ListNotations.
Open Scope Z_scope.

Lemma lazy_elements_lemma {T R} (f : rfun T R) dflt esh (e : sexp T) ev axes keep initial :
  Z.of_nat (length esh) < 2 ^ 64 -> is_shape esh -> valid_axes (length esh) axes -> has_elements esh e ev -> law_if_needed f axes initial ->
  exists r, make_reducer esh axes keep initial = Ok r /\ r_shape r = red_shape keep axes esh /\
    (forall extra ix, in_bounds (red_shape keep axes esh) ix ->
       rs_element f dflt esh (x_ops esh e) (x_deref e) r (x_begin e) (extra ++ ix) = Ok (reduced f initial row_major keep axes esh ev ix)) /\
    (forall n ix, in_bounds (red_shape keep axes esh) (repeat 0 n ++ ix) ->
       rs_element f dflt esh (x_ops esh e) (x_deref e) r (x_begin e) ix = Ok (reduced f initial row_major keep axes esh ev (repeat 0 n ++ ix))).
Proof.
  intros Hsm Hs Hv He Hl. eexists. split; [apply make_reducer_ok; assumption|]. split; [reflexivity|]. split.
  - intros extra ix Hb. apply element_ok; assumption.
  - intros n ix Hb. apply element_short; assumption.
Qed.

Lemma lazy_iteration_lemma {T R} (f : rfun T R) dflt esh (e : sexp T) ev axes keep initial l sh :
  Z.of_nat (length esh) < 2 ^ 64 -> is_shape esh -> valid_axes (length esh) axes -> has_elements esh e ev -> law_if_needed f axes initial ->
  l = row_major \/ l = column_major -> is_shape sh -> iterable keep axes esh sh ->
  exists r, make_reducer esh axes keep initial = Ok r /\
    rs_read_all f dflt esh (x_ops esh e) (x_deref e) r (length sh - length (r_shape r)) sh l (Z.to_nat (prod sh)) (repeat 0 (length sh)) (x_begin e) =
    Ok (map (fun ix => reduced f initial row_major keep axes esh ev (bc_index (red_shape keep axes esh) ix)) (indices_of l sh)).
Proof.
  intros Hsm Hs Hv He Hl Hly Hsh Hit. eexists. split; [apply make_reducer_ok; assumption|]. apply iteration_ok; assumption.
Qed.

Lemma bad_axes_lemma {R} esh axes keep (initial : option R) :
  Z.of_nat (length esh) < 2 ^ 64 -> esh <> [] -> Forall (fun a => 0 <= a) axes -> ~ valid_axes (length esh) axes ->
  (length axes <= length esh)%nat \/ keep = true ->
  make_reducer esh axes keep initial = Throw runtime_error.
Proof. intros. apply make_reducer_bad; assumption. Qed.

Lemma normalize_axis_lemma dim a : - Z.of_nat dim <= a < Z.of_nat dim -> Z.of_nat dim < 2 ^ 64 -> normalize_axis dim a = a mod Z.of_nat dim.
Proof.
  intros H Hd. unfold normalize_axis. destruct (Z.ltb_spec a 0).
  - rewrite to_size_t_id by lia. symmetry. rewrite <- (Z.mod_add a 1) by lia. rewrite Z.mod_small; lia.
  - symmetry. apply Z.mod_small. lia.
Qed.

(** ** Counterexamples *)
Definition plus_fun : rfun Z Z := mk_rfun Z.add 0 Z.add.
Definition six : sexp Z := XStrided (mk_container [2; 3] [3; 1] [3; 2] 0) [1; 2; 3; 4; 5; 6].
Definition six_ev (ix : list Z) : Z := nth 0 ix 0 * 3 + nth 1 ix 0 + 1.

Lemma six_bounds jx : in_bounds [2; 3] jx -> In jx (row_indices [2; 3]).
Proof. intros H. eapply nth_error_In. apply (row_indices_nth _ _ H). Qed.

Lemma six_elements : has_elements [2; 3] six six_ev.
Proof.
  split.
  - split; [apply fits_self|]. repeat split; try (cbn in *; lia);
    cbn in H; destruct j as [|[|j]]; cbn in *; lia.
  - intros jx Hb. apply six_bounds in Hb. cbn in Hb.
    repeat (destruct Hb as [<-|Hb]; [vm_compute; reflexivity|]). contradiction.
Qed.

Lemma plus_law : merge_law plus_fun.
Proof.
  intros a ys _. cbn. enough (forall ys a b, a + fold_left Z.add ys b = fold_left Z.add ys (a + b)) as H by (rewrite H, Z.add_0_r; reflexivity).
  clear. induction ys; intros x y; cbn; [reflexivity|]. rewrite IHys. f_equal. lia.
Qed.

Lemma six_axes : valid_axes 2 [0].
Proof. split; repeat constructor; lia. Qed.

(** keep_dims and broadcasting along the reduced axis. *)
Lemma keep_broadcast_refuted_lemma :
  exists (esh : list Z) (e : sexp Z) ev axes sh, has_elements esh e ev /\ valid_axes (length esh) axes /\
    fits (red_shape true axes esh) sh /\
    exists r, make_reducer esh axes true None = Ok r /\
      rs_read_all plus_fun 0 esh (x_ops esh e) (x_deref e) r (length sh - length (r_shape r)) sh row_major (Z.to_nat (prod sh))
        (repeat 0 (length sh)) (x_begin e) = UB.
Proof.
  exists [2; 3], six, six_ev, [0], [2; 3]. split; [apply six_elements|]. split; [apply six_axes|]. split.
  - apply wider_fits. vm_compute. constructor; [left; reflexivity|]. constructor; [right; reflexivity|constructor].
  - eexists. split; [vm_compute; reflexivity|]. vm_compute. reflexivity.
Qed.

(** Going back from the end. *)
Lemma reverse_refuted_lemma :
  exists (esh : list Z) (e : sexp Z) ev axes, has_elements esh e ev /\ valid_axes (length esh) axes /\
    exists r en it, make_reducer esh axes false None = Ok r /\
      s_to_end (rs_ops (x_ops esh e) r 0) row_major (x_begin e) = Ok en /\
      row_decrement (rs_ops (x_ops esh e) r 0) (r_shape r) (endx row_major (r_shape r)) en = Ok it /\
      fst it = map (fun d => d - 1) (r_shape r) /\
      rs_deref plus_fun 0 esh (x_ops esh e) (x_deref e) r (snd it) = UB.
Proof.
  exists [2; 3], six, six_ev, [0]. split; [apply six_elements|]. split; [apply six_axes|].
  do 3 eexists. split; [vm_compute; reflexivity|]. split; [vm_compute; reflexivity|]. split; [vm_compute; reflexivity|].
  split; vm_compute; reflexivity.
Qed.

(** Axes out of range that are not reported as such. *)
Lemma many_axes_refuted_lemma :
  exists esh axes, esh <> [] /\ ~ valid_axes (length esh) axes /\ make_reducer (R := Z) esh axes false None = Throw bad_alloc.
Proof.
  exists [3], [0; 1]. split; [discriminate|]. split; [|reflexivity]. intros [_ H]. inversion H as [|? ? _ H1]; subst. inversion H1; subst. cbn in *. lia.
Qed.
Lemma axis_0d_refuted_lemma :
  exists axes r, ~ valid_axes 0 axes /\ make_reducer (R := Z) [] axes true None = Ok r.
Proof.
  exists [5]. eexists. split; [|vm_compute; reflexivity]. intros [_ H]. inversion H; subst. cbn in *. lia.
Qed.
