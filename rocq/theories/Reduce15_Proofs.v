(** Immediate reduction: statements for the properties, counterexamples. *)
From Coq Require Import List ZArith Lia Bool Sorted.
From Verif Require Import Prelude PreludeFacts Strides_Model Strides_Spec Strides_Proofs Access_Model Container_Model Container_Spec Container_Proofs
  Stepper_Model Stepper_Spec Stepper_Proofs Reduce_Model Reduce_Spec Reduce3_Proofs Reduce7_Proofs Reduce14_Proofs.
Import ListNotations.
Open Scope Z_scope.

Lemma immediate_full_lemma {T R : Type} (f : rfun T R) (SL DL : layout) (conv : option (T -> R)) (fresh : list R -> Z -> list R) (r0 : R)
    (keep : bool) (initial : option R) (c : cont T) (axes : list Z) (ev : list Z -> T) :
  (forall d n, 0 <= n -> Z.of_nat (length (fresh d n)) = n) ->
  consistent c -> is_order (ct_layout c) -> SL = dynamic \/ SL = ct_layout c -> unit_strides_zero c ->
  Z.of_nat (length (ct_shape c)) < 2 ^ 64 ->
  (forall jx, in_bounds (ct_shape c) jx -> elt c jx = Ok (ev jx)) ->
  valid_axes (length (ct_shape c)) axes ->
  Forall (fun d => 0 < d) (ct_shape c) \/ axes = [] \/ length axes = length (ct_shape c) ->
  (copied (ct_layout c) axes (ct_shape c) -> initial = None /\ forall g x, conv = Some g -> g x = rf_reduce f (rf_init f) x) ->
  law_if_needed f axes initial ->
  (forall i, initial = Some i -> forall v, rf_merge f v i = rf_merge f i v) ->
  exists r, reduce_immediate f SL DL conv fresh r0 keep initial c axes = Ok r /\
    consistent r /\ ct_shape r = red_shape keep axes (ct_shape c) /\ ct_layout r = ct_layout c /\
    forall ix, in_bounds (red_shape keep axes (ct_shape c)) ix ->
      elt r ix = Ok (reduced f initial (ct_layout c) keep axes (ct_shape c) ev ix).
Proof.
  intros. destruct (immediate_lemma f SL DL conv fresh r0 keep initial c axes ev) as (r & E & G); try assumption.
  exists r. split; [exact E|]. exact G.
Qed.

(** The strides of unit axes are 0 in any container that was not given strides by hand. *)
Lemma row_strides_unit sh i : (i < length sh)%nat -> nth i sh 0 = 1 -> nth i (row_strides sh) 0 = 0.
Proof.
  intros Hi H1. unfold row_strides. rewrite (nth_indep _ 0 (row_stride sh 0)) by (rewrite map_length, seq_length; exact Hi).
  rewrite map_nth, seq_nth by exact Hi. unfold row_stride. cbn [plus]. rewrite H1. reflexivity.
Qed.
Lemma col_strides_unit sh i : (i < length sh)%nat -> nth i sh 0 = 1 -> nth i (col_strides sh) 0 = 0.
Proof.
  intros Hi H1. unfold col_strides. rewrite (nth_indep _ 0 (col_stride sh 0)) by (rewrite map_length, seq_length; exact Hi).
  rewrite map_nth, seq_nth by exact Hi. unfold col_stride. cbn [plus]. rewrite H1. reflexivity.
Qed.

Lemma computed_unit {V} SL sh lay (d : list V) st bs ds l' :
  compute_strides SL sh lay (repeat 0 (length sh)) (Some (repeat 0 (length sh))) = Ok (st, Some bs, ds) ->
  unit_strides_zero (mk_cont sh st bs l' d).
Proof.
  rewrite compute_strides_ok by (cbn; rewrite ?repeat_length; reflexivity). intros E. injection E as <- _ _.
  intros i Hi H1. cbn in *. destruct (_ || _); [apply row_strides_unit|apply col_strides_unit]; assumption.
Qed.

Lemma set_shape_unit {V} SL (c c' : cont V) sh lay : c_set_shape SL c sh lay = Ok c' -> unit_strides_zero c'.
Proof.
  unfold c_set_shape. destruct (compute_strides _ _ _ _ _) as [[[st [bs|]] ds]| |] eqn:E; cbn [bind]; intros X; try discriminate X.
  injection X as <-. eapply computed_unit. exact E.
Qed.

Lemma resize_unit {V} SL DL rs (c c' : cont V) sh b : unit_strides_zero c -> c_resize SL DL rs c sh b = Ok c' -> unit_strides_zero c'.
Proof.
  intros Hc. unfold c_resize. destruct (_ || _); [|intros X; injection X as <-; exact Hc]. cbv zeta.
  destruct (compute_strides _ _ _ _ _) as [[[st [bs|]] ds]| |] eqn:E; cbn [bind]; intros X; try discriminate X.
  injection X as <-. eapply computed_unit. exact E.
Qed.

Lemma unit_do {V} SL DL rs (c c' : cont V) o : unit_strides_zero c ->
  (forall s st, o <> C_resize_strides s st) -> (forall d, o = C_assign d -> unit_strides_zero d) ->
  c_do SL DL rs c o = Ok c' -> unit_strides_zero c'.
Proof.
  intros Hc Hs Ha. destruct o as [s b|s l|s st|s l|s l|d|ix v]; cbn [c_do].
  - apply resize_unit, Hc.
  - unfold c_resize_layout. destruct (_ && _); [discriminate|]. apply resize_unit. exact Hc.
  - exfalso. exact (Hs _ _ eq_refl).
  - unfold c_reshape_unsigned. destruct (negb _); [discriminate|]. cbv zeta. destruct (_ && _); [discriminate|]. apply set_shape_unit.
  - unfold c_reshape_signed. cbv zeta. destruct (crem _ _); cbn [bind]; try discriminate. destruct (negb _); [discriminate|].
    destruct (neg_loop s) as [[acc n] k]. destruct (acc <? 0).
    + destruct (cdiv _ _); cbn [bind]; try discriminate. destruct (wr _ _ _); cbn [bind]; try discriminate. apply set_shape_unit.
    + destruct (negb _); [discriminate|]. apply set_shape_unit.
  - intros X. injection X as <-. apply Ha. reflexivity.
  - destruct (wrz _ _ _); cbn [bind]; try discriminate. intros X. injection X as <-. exact Hc.
Qed.

Lemma unit_run {V} SL DL rs : forall os (c c' : cont V), unit_strides_zero c ->
  (forall s st, ~ In (C_resize_strides s st) os) -> (forall d, In (C_assign d) os -> unit_strides_zero d) ->
  c_run SL DL rs c os = Ok c' -> unit_strides_zero c'.
Proof.
  induction os as [|o os IH]; intros c c' Hc Hs Ha; cbn [c_run]; [intros X; injection X as <-; exact Hc|].
  assert (Hs' : forall s st, ~ In (C_resize_strides s st) os) by (intros s st X; exact (Hs s st (or_intror X))).
  assert (Ha' : forall d, In (C_assign d) os -> unit_strides_zero d) by (intros d X; exact (Ha d (or_intror X))).
  unfold c_step. destruct (c_do SL DL rs c o) as [c1| |] eqn:E; cbn [bind]; try discriminate.
  - apply IH; try assumption. eapply unit_do; [exact Hc| | |exact E].
    + intros s st ->. exact (Hs s st (or_introl eq_refl)).
    + intros d ->. exact (Ha d (or_introl eq_refl)).
  - apply IH; assumption.
Qed.

Lemma unit_strides_lemma {V : Type} (SL DL : layout) (rs : list V -> Z -> list V) (n : nat) (v : V) os (c : cont V) :
  (forall s st, ~ In (C_resize_strides s st) os) -> (forall d, In (C_assign d) os -> unit_strides_zero d) ->
  c_run SL DL rs (c_default SL n v) os = Ok c -> unit_strides_zero c.
Proof.
  apply unit_run. intros i Hi H1. exfalso. cbn in *. rewrite repeat_length in Hi.
  rewrite (nth_repeat 0 n i) in H1. discriminate H1.
Qed.

(** ** Agreement with the lazy reducer *)
Lemma agree_lemma {T R : Type} (f : rfun T R) (dflt : R) (SL DL : layout) (conv : option (T -> R)) (fresh : list R -> Z -> list R) (r0 : R)
    (keep : bool) (initial : option R) (c : cont T) (axes : list Z) (e : sexp T) (ev : list Z -> T) :
  (forall d n, 0 <= n -> Z.of_nat (length (fresh d n)) = n) ->
  consistent c -> ct_layout c = row_major -> SL = dynamic \/ SL = row_major -> unit_strides_zero c ->
  Z.of_nat (length (ct_shape c)) < 2 ^ 64 ->
  (forall jx, in_bounds (ct_shape c) jx -> elt c jx = Ok (ev jx)) -> has_elements (ct_shape c) e ev ->
  valid_axes (length (ct_shape c)) axes ->
  Forall (fun d => 0 < d) (ct_shape c) \/ axes = [] \/ length axes = length (ct_shape c) ->
  (copied row_major axes (ct_shape c) -> initial = None /\ forall g x, conv = Some g -> g x = rf_reduce f (rf_init f) x) ->
  law_if_needed f axes initial ->
  (forall i, initial = Some i -> forall v, rf_merge f v i = rf_merge f i v) ->
  exists r z, reduce_immediate f SL DL conv fresh r0 keep initial c axes = Ok r /\ make_reducer (ct_shape c) axes keep initial = Ok z /\
    ct_shape r = r_shape z /\
    forall ix, in_bounds (r_shape z) ix -> exists v, elt r ix = Ok v /\
      rs_element f dflt (ct_shape c) (x_ops (ct_shape c) e) (x_deref e) z (x_begin e) ix = Ok v.
Proof.
  intros Hf Hc Hl HSL Hu Hsm He Hx Hv Hp Hcp Hlaw Hcm.
  destruct (immediate_full_lemma f SL DL conv fresh r0 keep initial c axes ev) as (r & E & _ & Hsh & _ & Hel); try assumption.
  - left; exact Hl.
  - rewrite Hl. exact HSL.
  - rewrite Hl. exact Hcp.
  - assert (Hs : is_shape (ct_shape c)) by apply Hc.
    destruct (lazy_elements_lemma f dflt (ct_shape c) e ev axes keep initial Hsm Hs Hv Hx Hlaw) as (z & Ez & Hz & Hlz & _).
    exists r, z. split; [exact E|]. split; [exact Ez|]. split; [congruence|].
    intros ix Hb. rewrite Hz in Hb. exists (reduced f initial row_major keep axes (ct_shape c) ev ix).
    split; [rewrite <- Hl at 1; apply Hel, Hb|]. apply (Hlz [] ix), Hb.
Qed.

(** ** Counterexamples *)
Definition fill_fresh (_ : list Z) (n : Z) : list Z := repeat 77 (Z.to_nat n).
Lemma fill_fresh_length d n : 0 <= n -> Z.of_nat (length (fill_fresh d n)) = n.
Proof. intros H. unfold fill_fresh. rewrite repeat_length. lia. Qed.

(** norm_sq, norm_l1, count_nonzero: the functor transforms the elements. *)
Definition abs_fun : rfun Z Z := mk_rfun (fun r v => r + Z.abs v) 0 Z.add.
Lemma abs_law : merge_law abs_fun.
Proof.
  intros a ys _. cbn. enough (forall ys a b, a + fold_left (fun r v => r + Z.abs v) ys b = fold_left (fun r v => r + Z.abs v) ys (a + b)) as H by (rewrite H, Z.add_0_r; reflexivity).
  clear. induction ys; intros x y; cbn; [reflexivity|]. rewrite IHys. f_equal. lia.
Qed.

Ltac ckc := apply ck_consistent; [repeat constructor; lia|left; reflexivity|reflexivity].

Lemma empty_refuted_lemma : exists (c : cont Z) (axes : list Z),
  consistent c /\ unit_strides_zero c /\ ct_layout c = row_major /\ valid_axes (length (ct_shape c)) axes /\ merge_law plus_fun /\
  ct_shape c = [0; 3] /\ red_shape false axes (ct_shape c) = [3] /\
  reduce_immediate plus_fun row_major row_major (Some (fun x => x)) fill_fresh 0 false None c axes = UB.
Proof.
  exists (ck [0; 3] row_major []), [0]. split; [ckc|]. split.
  { intros [|[|i]]; cbn; intros; lia. }
  split; [reflexivity|]. split; [split; repeat constructor; cbn; lia|]. split; [exact plus_law|].
  repeat split; vm_compute; reflexivity.
Qed.

Lemma copy_functor_refuted_lemma : exists (c r : cont Z) (ev : list Z -> Z),
  consistent c /\ unit_strides_zero c /\ ct_layout c = row_major /\ ct_shape c = [1; 2] /\ ct_data c = [-5; 7] /\ merge_law abs_fun /\
  (forall jx, in_bounds (ct_shape c) jx -> elt c jx = Ok (ev jx)) /\
  reduce_immediate abs_fun row_major row_major (Some (fun x => x)) fill_fresh 0 false None c [0] = Ok r /\
  ct_shape r = [2] /\ elt r [0] = Ok (-5) /\ reduced abs_fun None row_major false [0] (ct_shape c) ev [0] = 5.
Proof.
  exists (ck [1; 2] row_major [-5; 7]). eexists. exists (fun ix => if nth 1 ix 0 =? 0 then -5 else 7). split; [ckc|]. split.
  { intros [|[|i]]; cbn; intros; lia. }
  split; [reflexivity|]. split; [reflexivity|]. split; [reflexivity|]. split; [exact abs_law|]. split.
  { intros jx H. inversion H as [|? x ? jx' Hx Hr]; subst. inversion Hr as [|? y ? jx'' Hy Hn]; subst. inversion Hn; subst.
    assert (x = 0) by lia. subst x. assert (y = 0 \/ y = 1) as [ -> | -> ] by lia; reflexivity. }
  split; [vm_compute; reflexivity|]. repeat split; vm_compute; reflexivity.
Qed.

Lemma copy_initial_refuted_lemma : exists (c r : cont Z) (ev : list Z -> Z),
  consistent c /\ unit_strides_zero c /\ ct_layout c = row_major /\ ct_shape c = [1; 2] /\ ct_data c = [-5; 7] /\ merge_law plus_fun /\
  (forall jx, in_bounds (ct_shape c) jx -> elt c jx = Ok (ev jx)) /\
  reduce_immediate plus_fun row_major row_major (Some (fun x => x)) fill_fresh 0 false (Some 100) c [0] = Ok r /\
  ct_shape r = [2] /\ elt r [0] = Ok (-5) /\ reduced plus_fun (Some 100) row_major false [0] (ct_shape c) ev [0] = 95.
Proof.
  exists (ck [1; 2] row_major [-5; 7]). eexists. exists (fun ix => if nth 1 ix 0 =? 0 then -5 else 7). split; [ckc|]. split.
  { intros [|[|i]]; cbn; intros; lia. }
  split; [reflexivity|]. split; [reflexivity|]. split; [reflexivity|]. split; [exact plus_law|]. split.
  { intros jx H. inversion H as [|? x ? jx' Hx Hr]; subst. inversion Hr as [|? y ? jx'' Hy Hn]; subst. inversion Hn; subst.
    assert (x = 0) by lia. subst x. assert (y = 0 \/ y = 1) as [ -> | -> ] by lia; reflexivity. }
  split; [vm_compute; reflexivity|]. repeat split; vm_compute; reflexivity.
Qed.

(** Invalid axes *)
Lemma immediate_bad_axes_lemma {T R : Type} (f : rfun T R) SL DL conv fresh (r0 : R) keep initial (c : cont T) axes :
  Z.of_nat (length (ct_shape c)) < 2 ^ 64 -> ct_shape c <> [] -> Forall (fun a => 0 <= a) axes -> ~ valid_axes (length (ct_shape c)) axes ->
  reduce_immediate f SL DL conv fresh r0 keep initial c axes = Throw runtime_error.
Proof.
  intros Hsm Hne Hnn Hv. unfold reduce_immediate. cbv zeta.
  destruct (length axes =? 0)%nat eqn:E0.
  { exfalso. apply Nat.eqb_eq, length_zero_iff_nil in E0. apply Hv. rewrite E0. split; constructor. }
  rewrite check_axes_bad; auto. destruct (ct_shape c); [congruence|cbn; lia].
Qed.

Definition ten : cont Z := ck [2; 3] row_major [1; 2; 3; 4; 5; 6].
Lemma ten_consistent : consistent ten. Proof. unfold ten. ckc. Qed.
Lemma ten_elt jx : in_bounds (ct_shape ten) jx -> elt ten jx = Ok (six_ev jx).
Proof.
  intros Hb. apply six_bounds in Hb. cbn in Hb. repeat (destruct Hb as [<-|Hb]; [vm_compute; reflexivity|]). contradiction.
Qed.
