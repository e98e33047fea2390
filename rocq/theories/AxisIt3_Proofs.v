(** Proofs about fill on strided views. *)
From Coq Require Import List ZArith Lia Bool.
From Verif Require Import Prelude PreludeFacts Strides_Model Strides_Spec Strides_Proofs Access_Model Slice_Model Container_Model Container_Spec
  Stepper_Model Stepper_Spec Stepper_Proofs Stepper2_Proofs Stepper3_Proofs Stepper4_Proofs StepGen_Proofs
  View_Spec SView_Model SView_Spec SView_Proofs SView2_Proofs SView3_Proofs SView4_Proofs Accum2_Proofs Assign2_Proofs AxisIt_Model AxisIt_Spec AxisIt_Proofs AxisIt2_Proofs.
Import ListNotations.
Open Scope Z_scope.

Lemma write_loop {V} (body : nat -> list V -> res (list V)) (f : nat -> Z) (x : V) (N : nat) (buf : list V) :
  (forall k b, (k < N)%nat -> body k b = wrz b (f k) x) ->
  (forall k, (k < N)%nat -> 0 <= f k < Z.of_nat (length buf)) ->
  exists buf', for_up body 0 N buf = Ok buf' /\ length buf' = length buf /\
    (forall k, (k < N)%nat -> nth_error buf' (Z.to_nat (f k)) = Some x) /\
    (forall p, 0 <= p -> (forall k, (k < N)%nat -> f k <> p) -> nth_error buf' (Z.to_nat p) = nth_error buf (Z.to_nat p)).
Proof.
  intros Hb Hf.
  destruct (for_up_inv (fun i b => length b = length buf /\
    (forall k, (k < i)%nat -> (k < N)%nat -> nth_error b (Z.to_nat (f k)) = Some x) /\
    (forall p, 0 <= p -> (forall k, (k < N)%nat -> f k <> p) -> nth_error b (Z.to_nat p) = nth_error buf (Z.to_nat p)))
    body 0 N buf) as (b & E & H1 & H2 & H3).
  - split; [reflexivity|]. split; [intros; lia|auto].
  - intros i b Hi (L & A & B). rewrite Hb by lia. rewrite wrz_ok by (rewrite L; apply Hf; lia).
    eexists. split; [reflexivity|]. split; [rewrite upd_length; exact L|]. pose proof (Hf i ltac:(lia)) as Fi. split.
    + intros k Hk HN. destruct (Nat.eq_dec (Z.to_nat (f i)) (Z.to_nat (f k))) as [Q|Q].
      * rewrite <- Q. rewrite nth_error_upd_same by lia. reflexivity.
      * rewrite nth_error_upd_other by exact Q. apply A; [|exact HN]. destruct (Nat.eq_dec k i); [subst; congruence|lia].
    + intros p Hp Hne. rewrite nth_error_upd_other; [apply B; assumption|]. specialize (Hne i ltac:(lia)). lia.
  - exists b. split; [exact E|]. split; [exact H1|]. split; [|exact H3]. intros k Hk. apply H2; lia.
Qed.

Definition as_container (v : sview) : container := mk_container (w_shape v) (w_strides v) (w_back v) (w_offset v).

Lemma fill_lemma {V} (T : layout) (v : sview) (x : V) (buf : list V) :
  T = row_major \/ T = column_major -> x_direct (w_base v) = true -> is_shape (w_shape v) -> strided_ok (as_container v) ->
  (w_layout v <> dynamic -> is_order (w_layout v) /\
     forall ix, in_bounds (w_shape v) ix -> element_offset (w_strides v) ix = rank (w_layout v) (w_shape v) ix) ->
  (forall ix, in_bounds (w_shape v) ix -> exists p, w_element v ix = Ok (Slot p) /\ 0 <= p < Z.of_nat (length buf)) ->
  exists buf', fill T v x buf = Ok buf' /\ filled_with v x buf buf'.
Proof.
  intros HT D Hs Hso Hlay Hin. pose proof Hso as (L1 & L2 & _). cbn [k_strides k_shape k_backstrides as_container] in L1, L2.
  assert (Hel : forall ix, in_bounds (w_shape v) ix -> w_element v ix = Ok (Slot (w_offset v + dot ix (w_strides v)))).
  { intros ix Hb. unfold w_element, storage_at. rewrite D. rewrite element_offset_same by (rewrite L1; apply in_bounds_length, Hb). reflexivity. }
  assert (Hrng : forall ix, in_bounds (w_shape v) ix -> 0 <= w_offset v + dot ix (w_strides v) < Z.of_nat (length buf)).
  { intros ix Hb. destruct (Hin ix Hb) as (p & E & B). rewrite Hel in E by exact Hb. injection E as <- . exact B. }
  pose proof (prod_nonneg _ Hs) as Hnn.
  (* enough: positions enumerated by some order *)
  assert (Key : forall body (l : layout), l = row_major \/ l = column_major ->
    (forall k b ix, in_bounds (w_shape v) ix -> order_pos l (w_shape v) ix = Z.of_nat k ->
       body k b = wrz b (w_offset v + dot ix (w_strides v)) x) ->
    exists buf', for_up body 0 (Z.to_nat (compute_size (w_shape v))) buf = Ok buf' /\ filled_with v x buf buf').
  { intros body l Hl Hbody. rewrite compute_size_prod.
    set (f := fun k : nat => w_offset v + dot (match l with row_major => row_unpos (w_shape v) (Z.of_nat k) | _ => col_unpos (w_shape v) (Z.of_nat k) end) (w_strides v)).
    assert (Hun : forall k, (k < Z.to_nat (prod (w_shape v)))%nat -> exists ix, in_bounds (w_shape v) ix /\ order_pos l (w_shape v) ix = Z.of_nat k /\ f k = w_offset v + dot ix (w_strides v)).
    { intros k Hk. unfold f. destruct Hl as [ -> | -> ].
      - destruct (row_unpos_spec (w_shape v) (Z.of_nat k) Hs ltac:(lia)) as (A & B). eauto.
      - destruct (col_unpos_spec (w_shape v) (Z.of_nat k) Hs ltac:(lia)) as (A & B). eauto. }
    destruct (write_loop body f x (Z.to_nat (prod (w_shape v))) buf) as (buf' & E & F1 & F2 & F3).
    - intros k b Hk. destruct (Hun k Hk) as (ix & A & B & -> ). apply Hbody; assumption.
    - intros k Hk. destruct (Hun k Hk) as (ix & A & B & -> ). apply Hrng, A.
    - exists buf'. split; [exact E|]. split; [exact F1|]. split.
      + intros ix p Hb Hp. rewrite Hel in Hp by exact Hb. injection Hp as <- .
        pose proof (order_pos_bound l (w_shape v) ix Hl Hb) as B.
        set (k := Z.to_nat (order_pos l (w_shape v) ix)).
        assert (Hk : (k < Z.to_nat (prod (w_shape v)))%nat) by (unfold k; lia).
        destruct (Hun k Hk) as (iy & Hy & Py & Fy).
        assert (iy = ix) by (apply (order_pos_inj l (w_shape v) Hl); auto; rewrite Py; unfold k; lia). subst iy.
        rewrite <- Fy. apply F2, Hk.
      + intros p Hp Hne. apply F3; [exact Hp|]. intros k Hk. destruct (Hun k Hk) as (ix & A & B & -> ).
        intros Q. apply (Hne ix A). rewrite Hel by exact A. congruence. }
  unfold fill. destruct (w_layout v) eqn:EL.
  all: try (destruct (Hlay ltac:(discriminate)) as ([Q|Q] & Hr); [discriminate Q|discriminate Q]).
  - (* dynamic *)
    cbn [bind]. set (cc := XStrided (mk_container (w_shape v) (w_strides v) (w_back v) (w_offset v)) buf).
    unfold it_make. cbn [bind].
    apply (Key _ T HT). intros k b ix Hb Hk.
    assert (Hok : operands_ok (w_shape v) cc) by (split; [apply fits_self|exact Hso]).
    pose proof (order_pos_bound T (w_shape v) ix HT Hb) as B.
    assert (Hpos : Forall (fun d => 0 < d) (w_shape v)) by (apply pos_of_prod; [exact Hs|lia]).
    pose proof (wlaws_of_laws _ _ _ _ _ (x_laws T (w_shape v) HT cc Hok)) as HL.
    pose proof (g_begin T (w_shape v) (x_at (w_shape v) cc) (x_endst (w_shape v) T cc) HT Hpos _ (x_begin_at (w_shape v) cc Hok)) as G.
    destruct (g_inc_k _ T (w_shape v) _ _ HT HL Hpos k 0 _ G ltac:(lia)) as (it & E & Gk).
    rewrite E. destruct it as [[st iy] lin]. cbn [bind]. destruct Gk as (_ & [(A & P & At)|(P & _)]); [|lia].
    assert (iy = ix) by (apply (order_pos_inj T (w_shape v) HT); auto; rewrite <- posn_order, P; lia). subst iy.
    destruct st; try contradiction. destruct At as (_ & -> ). cbn [k_begin k_strides].
    unfold k_offset. cbn [k_shape]. rewrite Nat.sub_diag. reflexivity.
  - destruct (Hlay ltac:(discriminate)) as (_ & Hr).
    apply (Key _ row_major (or_introl eq_refl)). intros k b ix Hb Hk. rewrite <- Hk. do 2 f_equal.
    rewrite <- element_offset_same by (rewrite L1; apply in_bounds_length, Hb). rewrite Hr by exact Hb. reflexivity.
  - destruct (Hlay ltac:(discriminate)) as (_ & Hr).
    apply (Key _ column_major (or_intror eq_refl)). intros k b ix Hb Hk. rewrite <- Hk. do 2 f_equal.
    rewrite <- element_offset_same by (rewrite L1; apply in_bounds_length, Hb). rewrite Hr by exact Hb. reflexivity.
Qed.

Lemma make_view_strided_ok L e sh st off l v : length st = length sh -> make_view L e sh st off l = Ok v ->
  strided_ok (as_container v).
Proof.
  intros H E. rewrite make_view_ok in E by exact H. injection E as <- . unfold strided_ok, as_container.
  cbn [k_strides k_shape k_backstrides w_shape w_strides w_back]. rewrite adapted_length.
  split; [reflexivity|]. split; [unfold spec_backstrides; rewrite map_length, seq_length; reflexivity|].
  intros j Hj. split.
  - intros E1. rewrite adapted_nth by exact Hj. rewrite E1. reflexivity.
  - apply nth_spec_backstrides, Hj.
Qed.

Lemma strided_view_container T e ss junk v : wf_exp e -> (ellipses ss <= 1)%nat ->
  View_Spec.valid false (expand (length (x_shape e)) ss) (x_shape e) -> strided_view T e ss junk = Ok v ->
  strided_ok (as_container v) /\ w_base v = e.
Proof.
  intros He Hel Hv. unfold strided_view. rewrite get_strides_ok. cbn [bind].
  pose proof (src_strides_length T e He) as Hsl.
  destruct (fill_args_ok (x_shape e) (src_strides T e) (get_offset e) (x_layout e) ss junk Hsl Hel Hv)
    as (d & v' & w & sh' & st' & m & Hf & Hm & F).
  rewrite Hf. cbn [bind].
  assert (HL : length (w ++ st') = length (v' ++ sh')).
  { destruct (filled_lens _ _ _ _ _ _ _ _ F). rewrite !app_length, (filled_rest _ _ _ _ _ _ _ _ F Hsl). lia. }
  intros E. split; [exact (make_view_strided_ok _ _ _ _ _ _ _ HL E)|].
  rewrite make_view_ok in E by exact HL. injection E as <- . reflexivity.
Qed.

Lemma strided_view_fill_lemma : forall (V : Type) (T : layout) (e : xexp) (ss : list item) (junk : list Z) (v : sview) (x : V) (buf : list V),
  T = row_major \/ T = column_major -> wf_exp e -> x_direct e = true -> (ellipses ss <= 1)%nat ->
  View_Spec.valid false (expand (length (x_shape e)) ss) (x_shape e) ->
  inside e (length buf) ->
  strided_view T e ss junk = Ok v ->
  exists buf', fill T v x buf = Ok buf' /\ filled_with v x buf buf'.
Proof.
  intros V T e ss junk v x buf HT He De Hel Hv Hin Ev.
  destruct (strided_view_lemma T e ss junk HT He Hel Hv) as (v0 & E0 & Hsh & Hwf & Hx & Hrd & Hlay).
  rewrite Ev in E0. injection E0 as <- .
  destruct (strided_view_container _ _ _ _ _ He Hel Hv Ev) as (Hso & Hb).
  apply fill_lemma; auto.
  - rewrite Hb. exact De.
  - rewrite <- Hx. apply Hwf.
  - intros Hne. destruct (Hlay Hne) as (_ & A & B). auto.
  - intros ix Hi. destruct (Hrd ix Hi) as (jx & _ & Hj & (_ & R & _)). destruct (Hin jx Hj) as (p & Ep & B).
    exists p. rewrite R, Ep. auto.
Qed.
