(** Proofs about atleast_Nd and split, and counterexamples. *)
From Coq Require Import List ZArith Bool Lia Permutation.
From Verif Require Import Prelude PreludeFacts Strides_Model Strides_Spec Strides_Proofs Slice_Model Slice_Spec
  Container_Spec View_Spec SView_Model SView_Spec SView_Proofs SView2_Proofs SView3_Proofs SView4_Proofs
  Manip_Model Manip_Spec Manip_Proofs Manip2_Proofs Manip3_Proofs Manip4_Proofs.
Import ListNotations.
Open Scope Z_scope.

(** ** atleast_Nd *)
Lemma for_up_new (x : item) : forall n i l r m, length l = i -> (n <= m)%nat ->
  for_up (fun i sv => wr sv i x) i n (l ++ repeat (Pick UAll) m ++ r) =
  Ok (l ++ repeat x n ++ repeat (Pick UAll) (m - n) ++ r).
Proof.
  induction n; intros i l r m Hi Hm.
  - cbn. rewrite Nat.sub_0_r. reflexivity.
  - destruct m; [lia|]. cbn [for_up repeat app]. rewrite wr_ok by (rewrite app_length; simpl; lia). cbn [bind].
    rewrite upd_app_r by lia. rewrite Hi, Nat.sub_diag. cbn [upd].
    replace (l ++ x :: repeat (Pick UAll) m ++ r) with ((l ++ [x]) ++ repeat (Pick UAll) m ++ r) by (rewrite <- app_assoc; reflexivity).
    rewrite IHn by (try rewrite app_length; simpl; lia). rewrite <- app_assoc. reflexivity.
Qed.

Lemma view_shape_new a : forall ss sh v, view_shape (repeat UNewaxis a ++ ss) sh v ->
  exists v', v = repeat 1 a ++ v' /\ view_shape ss sh v'.
Proof.
  induction a; intros ss sh v H; cbn in *; eauto. inversion H; subst. destruct (IHa _ _ _ H1) as (v' & -> & ?). eauto.
Qed.
Lemma source_new a : forall ss sh ix jx, source_index (repeat UNewaxis a ++ ss) sh ix jx ->
  exists ix', ix = repeat 0 a ++ ix' /\ source_index ss sh ix' jx.
Proof.
  induction a; intros ss sh ix jx H; cbn in *; eauto. inversion H; subst. destruct (IHa _ _ _ _ H1) as (v' & -> & ?). eauto.
Qed.
Lemma valid_new a : forall ss sh full, valid full ss sh -> valid full (repeat UNewaxis a ++ ss) sh.
Proof. induction a; intros; cbn; auto. constructor. auto. Qed.

(** [a] axes of extent 1 in front and [b] behind. *)
Lemma padded_view T e a b junk : T = row_major \/ T = column_major -> wf_exp e ->
  exists v, strided_view T e (map Pick (repeat UNewaxis a ++ repeat UAll (length (x_shape e)) ++ repeat UNewaxis b)) junk = Ok v /\
    rearranges e v (repeat 1 a ++ x_shape e ++ repeat 1 b) (fun ix => repeat 0 a ++ ix ++ repeat 0 b) /\ view_layout_true v.
Proof.
  intros HT He. set (n := length (x_shape e)). set (us := repeat UNewaxis a ++ repeat UAll n ++ repeat UNewaxis b).
  assert (Hv : valid false us (x_shape e)).
  { apply valid_new, valid_all_intro; [unfold n; lia|]. rewrite <- (app_nil_r (repeat UNewaxis b)). apply valid_new. constructor. }
  destruct (rearranges_of_slices T e us junk HT He Hv) as (v & E & A & B & C).
  exists v. split; [exact E|]. split; [|exact C].
  assert (Hsh : w_shape v = repeat 1 a ++ x_shape e ++ repeat 1 b).
  { unfold us in A. apply view_shape_new in A. destruct A as (v1 & -> & A). apply view_shape_all in A; [|unfold n; lia].
    destruct A as (v2 & -> & A). rewrite <- (app_nil_r (repeat UNewaxis b)) in A. apply view_shape_new in A.
    destruct A as (v3 & -> & A). rewrite skipn_all2 in A by (unfold n; lia). inversion A; subst.
    rewrite firstn_all2 by (unfold n; lia). rewrite app_nil_r. reflexivity. }
  split; [exact Hsh|]. split.
  - intros jx Hj. pose proof (in_bounds_length _ _ Hj) as Hl.
    assert (Hb : in_bounds (repeat 1 a ++ x_shape e ++ repeat 1 b) (repeat 0 a ++ jx ++ repeat 0 b)).
    { assert (R : forall k, in_bounds (repeat 1 k) (repeat 0 k)) by (induction k; cbn; constructor; auto; lia).
      apply Forall2_app; [apply R|]. apply Forall2_app; [auto|apply R]. }
    split; [exact Hb|]. rewrite Hsh in B. destruct (B _ Hb) as (jx' & J1 & J2 & J3).
    assert (jx' = jx) as <-; [|exact J3].
    unfold us in J1. apply source_new in J1. destruct J1 as (i1 & E1 & J1).
    apply app_inv_head in E1. subst i1.
    apply source_all in J1; [|unfold n; lia]. destruct J1 as (i2 & i3 & i4 & L & E2 & -> & J1).
    apply app_inj_len in E2; [|unfold n in L; lia]. destruct E2 as (-> & <-).
    rewrite <- (app_nil_r (repeat UNewaxis b)) in J1. apply source_new in J1. destruct J1 as (i5 & E3 & J1).
    rewrite <- (app_nil_r (repeat 0 b)) in E3 at 1. apply app_inv_head in E3. subst. inversion J1; subst. rewrite app_nil_r. reflexivity.
  - intros ix Hi. destruct (in_bounds_split _ _ _ Hi) as (i1 & i2 & -> & B1 & B2).
    destruct (in_bounds_split _ _ _ B2) as (i3 & i4 & -> & B3 & B4).
    assert (R : forall k i, in_bounds (repeat 1 k) i -> i = repeat 0 k).
    { induction k; intros i H; cbn in H; inversion H; subst; auto. cbn. f_equal; [lia|auto]. }
    exists i3. split; [exact B3|]. rewrite (R _ _ B1), (R _ _ B4). reflexivity.
Qed.

(** The number of axes that atleast_Nd puts in front. *)
Lemma atleast_lemma : forall (T : layout) (N : nat) (e : xexp) (junk : list Z),
  T = row_major \/ T = column_major -> wf_exp e ->
  let d := length (x_shape e) in
  let missing := (N - d)%nat in
  exists front v, atleast_Nd T N e junk = Ok v /\
    (front <= missing)%nat /\ (front = if (0 <? missing)%nat && (N <=? 2 * missing)%nat then 1 else 0)%nat /\
    rearranges e v (repeat 1 front ++ x_shape e ++ repeat 1 (missing - front))
      (fun ix => repeat 0 front ++ ix ++ repeat 0 (missing - front)) /\
    view_layout_true v.
Proof.
  intros T N e junk HT He d missing. unfold atleast_Nd. fold d.
  set (front := if (0 <? missing)%nat && (N <=? 2 * missing)%nat then 1%nat else 0%nat).
  assert (Hf : (front <= missing)%nat).
  { unfold front. destruct (Nat.ltb_spec 0 missing), (Nat.leb_spec N (2 * missing)); cbn; lia. }
  destruct (padded_view T e front (missing - front) junk HT He) as (v & E & R & L).
  exists front, v. split; [|auto].
  destruct (Nat.ltb_spec d N) as [Hd|Hd].
  - assert (Hfe : (if (N <=? 2 * (N - d))%nat then 1%nat else 0%nat) = front).
    { unfold front. fold missing. destruct (Nat.ltb_spec 0 missing); [|unfold missing in *; lia]. cbn [andb]. reflexivity. }
    rewrite Hfe. replace (Nat.max d N) with (front + (d + (missing - front)))%nat by (unfold missing in *; lia).
    rewrite !repeat_app.
    pose proof (for_up_new (Pick UNewaxis) front 0 [] (repeat (Pick UAll) d ++ repeat (Pick UAll) (missing - front)) front eq_refl (le_n _)) as F1.
    cbn [app] in F1. rewrite F1. cbn [bind]. rewrite Nat.sub_diag. cbn [repeat app].
    pose proof (for_up_new (Pick UNewaxis) (missing - front) (front + d)
      (repeat (Pick UNewaxis) front ++ repeat (Pick UAll) d) [] (missing - front)) as F2.
    rewrite !app_nil_r, Nat.sub_diag in F2. cbn [repeat] in F2. rewrite app_nil_r in F2.
    rewrite <- !app_assoc in F2. replace (N - (front + d))%nat with (missing - front)%nat by (unfold missing in *; lia).
    rewrite F2 by (try rewrite app_length, !repeat_length; lia). cbn [bind].
    rewrite <- E. f_equal. rewrite !map_app, !repeat_map. reflexivity.
  - cbn [bind]. rewrite <- E. f_equal.
    assert (missing = 0)%nat as M by (unfold missing; lia).
    assert (front = 0)%nat as F by lia. rewrite F, M. cbn [repeat app Nat.sub]. rewrite app_nil_r, repeat_map.
    f_equal. unfold d in *. lia.
Qed.

(** ** split *)
Lemma view_shape_fun ss sh v : view_shape ss sh v -> forall v', view_shape ss sh v' -> v' = v.
Proof.
  induction 1 as [| | | | a b s n len f ss sh v Hsel H IH | | ]; intros v' H'; inversion H'; subst; auto; try (f_equal; auto).
  eapply selects_unique; eauto.
Qed.

Definition piece (n axis : nat) (step : Z) (i : nat) : list user_slice :=
  repeat UAll axis ++ URange (Some (Z.of_nat i * step)) (Some ((Z.of_nat i + 1) * step)) None :: repeat UAll (n - S axis).

Lemma piece_bounds m i step : 0 <= step -> (Z.of_nat i + 1) * step <= m ->
  py_start m 1 (Some (Z.of_nat i * step)) = Z.of_nat i * step /\
  py_stop m 1 (Some ((Z.of_nat i + 1) * step)) = (Z.of_nat i + 1) * step.
Proof.
  intros Hs Hm. assert (0 <= Z.of_nat i * step) by nia. assert (0 <= (Z.of_nat i + 1) * step) by nia.
  unfold py_start, py_stop, py_bound. destruct (Z.ltb_spec 0 1); [|lia].
  destruct (Z.ltb_spec (Z.of_nat i * step) 0), (Z.ltb_spec ((Z.of_nat i + 1) * step) 0); lia.
Qed.

Lemma nth_split_at (l : list Z) a : (a < length l)%nat -> l = firstn a l ++ nth a l 0 :: skipn (S a) l.
Proof.
  intros H. rewrite <- (skipn_cons_nth l a (nth a l 0)) by (apply nth_error_nth'; auto). symmetry. apply firstn_skipn.
Qed.
Lemma upd_split (l : list Z) a v : (a < length l)%nat -> upd l a v = firstn a l ++ v :: skipn (S a) l.
Proof.
  intros H. rewrite (nth_split_at l a H) at 1.
  rewrite upd_app_r by (rewrite firstn_length; lia). rewrite firstn_length.
  replace (a - Nat.min a (length l))%nat with 0%nat by lia. reflexivity.
Qed.

Lemma selects_len n a b s l f l' : py_selects n a b s l f -> 0 <= l' ->
  (forall k, 0 <= k -> (k < l' <-> before s (py_start n s a + k * s) (py_stop n s b))) -> l = l'.
Proof. intros H H' Hk. eapply selects_unique; [exact H|]. split; [exact H'|]. split; [exact Hk|]. intros k _. reflexivity. Qed.

Lemma piece_view T e axis step i junk : T = row_major \/ T = column_major -> wf_exp e ->
  (axis < length (x_shape e))%nat -> 0 <= step -> (Z.of_nat i + 1) * step <= nth axis (x_shape e) 0 ->
  exists v, strided_view T e (map Pick (piece (length (x_shape e)) axis step i)) junk = Ok v /\
    w_shape v = upd (x_shape e) axis step /\
    (forall ix, in_bounds (w_shape v) ix ->
      in_bounds (x_shape e) (upd ix axis (Z.of_nat i * step + nth axis ix 0)) /\
      reads v ix (x_elem e (upd ix axis (Z.of_nat i * step + nth axis ix 0)))) /\
    view_layout_true v.
Proof.
  intros HT He Ha Hst Hm. set (n := length (x_shape e)) in *. set (m := nth axis (x_shape e) 0) in *.
  destruct (piece_bounds m i step Hst Hm) as (Pa & Pb).
  assert (Esh : x_shape e = firstn axis (x_shape e) ++ m :: skipn (S axis) (x_shape e)) by (apply nth_split_at; auto).
  assert (Lf : length (firstn axis (x_shape e)) = axis) by (rewrite firstn_length; fold n; lia).
  assert (Esk : skipn axis (x_shape e) = m :: skipn (S axis) (x_shape e)).
  { apply skipn_cons_nth. apply nth_error_nth'. auto. }
  assert (Hv : valid false (piece n axis step i) (x_shape e)).
  { unfold piece. apply valid_all_intro; [fold n; lia|]. rewrite Esk. apply va_range; [discriminate|left; reflexivity|].
    rewrite <- (app_nil_r (repeat UAll _)). apply valid_all_intro; [rewrite skipn_length; fold n; lia|]. constructor. }
  destruct (rearranges_of_slices T e _ junk HT He Hv) as (v & E & A & B & C).
  exists v. split; [exact E|].
  assert (Hsh : w_shape v = upd (x_shape e) axis step).
  { unfold piece in A. apply view_shape_all in A; [|fold n; lia]. destruct A as (v' & -> & A). rewrite Esk in A.
    inversion A; subst.
    match goal with H : view_shape (repeat _ _) _ _ |- _ => apply view_shape_all_end in H; subst end.
    rewrite upd_split by auto. do 2 f_equal.
    match goal with H : py_selects _ _ _ _ _ _ |- _ => eapply (selects_len _ _ _ _ _ _ step) in H; [exact H|auto|] end.
    intros k Hk. cbn [py_step]. rewrite Pa, Pb. unfold before. change (0 <? 1) with true. cbn iota. nia. }
  split; [exact Hsh|]. split; [|exact C].
  intros ix Hi. destruct (B ix Hi) as (jx & J1 & J2 & J3).
  assert (Ej : jx = upd ix axis (Z.of_nat i * step + nth axis ix 0)).
  { unfold piece in J1. apply source_all in J1; [|fold n; lia]. destruct J1 as (i1 & i2 & i3 & L & -> & -> & J1).
    rewrite Esk in J1. inversion J1; subst.
    match goal with H : source_index (repeat _ _) _ _ _ |- _ => apply source_all_end in H; subst end.
    rewrite upd_mid. rewrite app_nth2 by lia. rewrite Nat.sub_diag. cbn [nth].
    cbn [py_step]. rewrite Pa. do 2 f_equal. lia. }
  rewrite <- Ej. auto.
Qed.

Lemma split_loop T e n axis step junk : T = row_major \/ T = column_major -> wf_exp e ->
  (axis < length (x_shape e))%nat -> 0 <= step -> Z.of_nat n * step = nth axis (x_shape e) 0 ->
  forall m i sv r, (i + m = n)%nat -> length sv = length (x_shape e) ->
  (forall x, upd sv axis x = upd (repeat (Pick UAll) (length (x_shape e))) axis x) ->
  exists sv' vs,
  for_up (fun i '(sv, result) =>
      let* sv := wr sv axis (Pick (URange (Some (Z.of_nat i * step)) (Some ((Z.of_nat i + 1) * step)) None)) in
      let* v := strided_view T e sv (junk i) in
      Ok (sv, result ++ [v])) i m (sv, r) = Ok (sv', r ++ vs) /\ length vs = m /\
  forall k v, nth_error vs k = Some v -> strided_view T e (map Pick (piece (length (x_shape e)) axis step (i + k))) (junk (i + k)%nat) = Ok v.
Proof.
  intros HT He Ha Hst Hn. induction m; intros i sv r Hi Hl Hu.
  - exists sv, []. cbn. rewrite app_nil_r. repeat split; auto. intros [|k] v H; discriminate.
  - cbn [for_up]. rewrite wr_ok by lia. cbn [bind]. rewrite Hu.
    assert (Eu : upd (repeat (Pick UAll) (length (x_shape e))) axis (Pick (URange (Some (Z.of_nat i * step)) (Some ((Z.of_nat i + 1) * step)) None)) =
      map Pick (piece (length (x_shape e)) axis step i)).
    { rewrite upd_repeat by auto. unfold piece. rewrite map_app. cbn [map]. rewrite !repeat_map. reflexivity. }
    rewrite Eu. destruct (piece_view T e axis step i (junk i) HT He Ha Hst ltac:(nia)) as (v & Ev & _).
    rewrite Ev. cbn [bind].
    destruct (IHm (S i) (map Pick (piece (length (x_shape e)) axis step i)) (r ++ [v]) ltac:(lia)) as (sv' & vs & E & L & P).
    + rewrite <- Eu, upd_length, repeat_length. reflexivity.
    + intros x. rewrite <- Eu, upd_upd_same. reflexivity.
    + exists sv', (v :: vs). rewrite E, <- app_assoc. split; [reflexivity|]. split; [cbn; lia|].
      intros [|k] w H; cbn in H.
      * injection H as <-. rewrite Nat.add_0_r. exact Ev.
      * specialize (P k w H). replace (i + S k)%nat with (S i + k)%nat by lia. exact P.
Qed.

Lemma split_lemma : forall (T : layout) (e : xexp) (n axis : nat) (junk : nat -> list Z),
  T = row_major \/ T = column_major -> wf_exp e -> (0 < n)%nat ->
  (((axis < length (x_shape e))%nat /\ exists step, nth axis (x_shape e) 0 = Z.of_nat n * step) ->
    exists vs step, split T e n axis junk = Ok vs /\ length vs = n /\ nth axis (x_shape e) 0 = Z.of_nat n * step /\
      forall i v, nth_error vs i = Some v ->
        w_shape v = upd (x_shape e) axis step /\ view_layout_true v /\
        forall ix, in_bounds (w_shape v) ix ->
          in_bounds (x_shape e) (upd ix axis (Z.of_nat i * step + nth axis ix 0)) /\
          reads v ix (x_elem e (upd ix axis (Z.of_nat i * step + nth axis ix 0)))) /\
  (~ ((axis < length (x_shape e))%nat /\ exists step, nth axis (x_shape e) 0 = Z.of_nat n * step) ->
    split T e n axis junk = Throw runtime_error).
Proof.
  intros T e n axis junk HT He Hn. pose proof He as (Hs & _). unfold split.
  destruct (Nat.leb_spec (length (x_shape e)) axis) as [Ha|Ha].
  { split; [lia|]. intros _. reflexivity. }
  rewrite (rd_nth 0) by lia. cbn [bind]. set (m := nth axis (x_shape e) 0).
  unfold cdiv, crem. destruct (Z.eqb_spec (Z.of_nat n) 0); [lia|]. cbn [bind].
  assert (Hm : 0 <= m). { unfold is_shape in Hs. rewrite Forall_forall in Hs. apply Hs. apply nth_In. auto. }
  pose proof (Z.quot_rem' m (Z.of_nat n)) as Q.
  split.
  - intros (_ & step & Es).
    assert (R : Z.rem m (Z.of_nat n) = 0). { rewrite Es, Z.mul_comm. apply Z.rem_mul. lia. }
    assert (Qs : Z.quot m (Z.of_nat n) = step). { rewrite Es, Z.mul_comm. apply Z.quot_mul. lia. }
    rewrite R, Qs. cbn [Z.eqb negb]. change (0 =? 0) with true. cbn [negb].
    assert (Hst : 0 <= step) by nia.
    destruct (split_loop T e n axis step junk HT He Ha Hst (eq_sym Es) n 0 (repeat (Pick UAll) (length (x_shape e))) [] eq_refl)
      as (sv' & vs & E & L & P); [apply repeat_length|auto|].
    rewrite E. cbn [bind app]. exists vs, step. split; [reflexivity|]. split; [exact L|]. split; [exact Es|].
    intros i v Hv. pose proof (nth_error_Some_lt _ _ _ Hv). specialize (P i v Hv). cbn [Nat.add] in P.
    destruct (piece_view T e axis step i (junk i) HT He Ha Hst) as (v' & Ev & V1 & V2 & V3); [fold m; nia|].
    rewrite P in Ev. injection Ev as <-. auto.
  - intros Hnd. destruct (Z.eqb_spec (Z.rem m (Z.of_nat n)) 0) as [E|E]; [|reflexivity].
    exfalso. apply Hnd. split; [exact Ha|]. exists (Z.quot m (Z.of_nat n)). lia.
Qed.

(** ** compositions *)
Ltac base_of H := 
  repeat first [discriminate H | apply bind_ok in H; destruct H as (? & _ & H)
    | match type of H with context [match ?x with _ => _ end] => destruct x end];
  injection H as <-; reflexivity.
Lemma transpose_twice_lemma : forall (T : layout) (e : xexp),
  T = row_major \/ T = column_major -> wf_exp e -> x_direct e = true ->
  exists v w, transpose T e = Ok v /\ transpose T (as_exp v) = Ok w /\ rearranges e w (x_shape e) (fun ix => ix).
Proof.
  intros T e HT He Hd. destruct (transpose_lemma T e HT He) as (v & V1 & V2 & V3 & _).
  assert (Hb : w_base v = e).
  { unfold transpose in V1. base_of V1. }
  assert (Hd' : x_direct (as_exp v) = true) by (unfold as_exp; rewrite Hb, Hd; reflexivity).
  destruct (transpose_lemma T (as_exp v) HT V3) as (w & W1 & W2 & _). exists v, w. split; [exact V1|]. split; [exact W1|].
  pose proof (rearranges_trans _ _ _ _ _ _ _ Hd' V3 V2 W2) as R. eapply rearranges_ext; [| |exact R].
  - rewrite as_exp_shape. destruct V2 as (-> & _). apply rev_involutive.
  - intros jx _. apply rev_involutive.
Qed.

Lemma permute_inv p q l : (forall i, (i < length l)%nat -> nth (nth i q 0%nat) p 0%nat = i /\ (nth i q 0 < length p)%nat) ->
  length q = length l -> permute q (permute p l) = l.
Proof.
  intros H Hq. unfold permute. apply list_eq_nth; [rewrite map_length; auto|]. intros i Hi. rewrite map_length, Hq in Hi.
  rewrite (nth_indep _ 0 (nth 0%nat (map (fun p => nth p l 0) p) 0)) by (rewrite map_length; lia).
  rewrite (map_nth (fun k => nth k (map (fun p => nth p l 0) p) 0)). destruct (H i Hi) as (H1 & H2).
  rewrite (nth_indep _ 0 (nth 0%nat l 0)) by (rewrite map_length; lia). rewrite (map_nth (fun k => nth k l 0)). rewrite H1. reflexivity.
Qed.

Lemma transpose_inverse_lemma : forall (T : layout) (e : xexp) (p q : list Z),
  T = row_major \/ T = column_major -> wf_exp e -> x_direct e = true ->
  Permutation p (iota (length (x_shape e))) -> Permutation q (iota (length (x_shape e))) ->
  (forall i, 0 <= i < Z.of_nat (length (x_shape e)) -> nth (Z.to_nat (nth (Z.to_nat i) q 0)) p 0 = i) ->
  exists v w, transpose_full T e p = Ok v /\ transpose_full T (as_exp v) q = Ok w /\ rearranges e w (x_shape e) (fun ix => ix).
Proof.
  intros T e p q HT He Hd Hp Hq Hi. destruct (proj1 (transpose_full_lemma T e p HT He Hd) Hp) as (v & V1 & V2 & V3 & _).
  assert (Hb : w_base v = e).
  { unfold transpose_full in V1. apply bind_ok in V1. destruct V1 as (? & _ & V1). unfold transpose_none, make_view in V1. base_of V1. }
  assert (Hd' : x_direct (as_exp v) = true) by (unfold as_exp; rewrite Hb, Hd; reflexivity).
  assert (Lp : length p = length (x_shape e)) by (rewrite (Permutation_length Hp); unfold iota; rewrite map_length, seq_length; reflexivity).
  assert (Lq : length q = length (x_shape e)) by (rewrite (Permutation_length Hq); unfold iota; rewrite map_length, seq_length; reflexivity).
  assert (Ls : length (x_shape (as_exp v)) = length (x_shape e)).
  { rewrite as_exp_shape. destruct V2 as (-> & _). unfold permute. rewrite !map_length. exact Lp. }
  destruct (proj1 (transpose_full_lemma T (as_exp v) q HT V3 Hd')) as (w & W1 & W2 & _); [rewrite Ls; exact Hq|].
  exists v, w. split; [exact V1|]. split; [exact W1|].
  pose proof (rearranges_trans _ _ _ _ _ _ _ Hd' V3 V2 W2) as R.
  assert (G : forall l, length l = length (x_shape e) -> permute (map Z.to_nat q) (permute (map Z.to_nat p) l) = l).
  { intros l Hl. apply permute_inv; [|rewrite map_length; lia]. intros i Hil.
    assert (Hqi : 0 <= nth i q 0 < Z.of_nat (length (x_shape e))).
    { assert (In (nth i q 0) (iota (length (x_shape e)))) as I by (eapply Permutation_in; [exact Hq|apply nth_In; lia]).
      unfold iota in I. apply in_map_iff in I. destruct I as (x & <- & Hx). apply in_seq in Hx. lia. }
    specialize (Hi (Z.of_nat i) ltac:(lia)). rewrite Nat2Z.id in Hi.
    change 0%nat with (Z.to_nat 0). rewrite !map_nth. rewrite map_length. split; [|lia]. lia. }
  eapply rearranges_ext; [| |exact R].
  - rewrite as_exp_shape. destruct V2 as (-> & _). apply G. reflexivity.
  - intros jx Hj. apply G. apply in_bounds_length. exact Hj.
Qed.

Lemma flip_twice_lemma : forall (T : layout) (e : xexp) (axis : nat),
  T = row_major \/ T = column_major -> wf_exp e -> x_direct e = true -> (axis < length (x_shape e))%nat ->
  exists v w, flip T e axis = Ok v /\ flip T (as_exp v) axis = Ok w /\ rearranges e w (x_shape e) (fun ix => ix).
Proof.
  intros T e axis HT He Hd Ha. destruct (flip_lemma T e axis HT He Hd Ha) as (v & V1 & V2 & V3 & V4 & _).
  assert (Hd' : x_direct (as_exp v) = true) by (unfold as_exp; rewrite V4, Hd; reflexivity).
  assert (Hs : x_shape (as_exp v) = x_shape e) by (rewrite as_exp_shape; apply V2).
  destruct (flip_lemma T (as_exp v) axis HT V3 Hd') as (w & W1 & W2 & _); [rewrite Hs; exact Ha|].
  exists v, w. split; [exact V1|]. split; [exact W1|].
  pose proof (rearranges_trans _ _ _ _ _ _ _ Hd' V3 V2 W2) as R. rewrite Hs in R. eapply rearranges_ext; [reflexivity| |exact R].
  intros jx Hj. pose proof (in_bounds_length _ _ Hj). unfold mirror. rewrite upd_upd_same, nth_upd_same by lia.
  replace (nth axis (x_shape e) 0 - 1 - (nth axis (x_shape e) 0 - 1 - nth axis jx 0)) with (nth axis jx 0) by lia.
  apply upd_nth_self. apply nth_error_nth'. lia.
Qed.

Lemma turns_add a b j : forall k sh ix,
  turns (j + k) a b sh ix = turns k a b (turned_shape j a b sh) (turns j a b sh ix).
Proof. induction j; intros; cbn; auto. Qed.
Lemma turned_add a b j : forall k sh, turned_shape (j + k) a b sh = turned_shape k a b (turned_shape j a b sh).
Proof. induction j; intros; cbn; auto. Qed.

Lemma turn_length a b sh ix : length (turn a b sh ix) = length ix.
Proof. unfold turn. rewrite !upd_length. reflexivity. Qed.

Lemma turns_four a b sh ix : a <> b -> (a < length ix)%nat -> (b < length ix)%nat -> length sh = length ix ->
  turned_shape 4 a b sh = sh /\ turns 4 a b sh ix = ix.
Proof.
  intros Hab Ha Hb Hl. cbn [turned_shape turns].
  assert (S2 : swap_at a b (swap_at a b sh) = sh) by (apply swap_swap; lia).
  rewrite S2. split; [exact S2|]. 
  rewrite <- (turn2 a b sh ix) by auto. rewrite <- (turn2 a b sh) by (unfold mirror; rewrite ?upd_length; auto).
  list_nth ix.
Qed.

Lemma turns_lengths a b k : forall sh ix, length (turns k a b sh ix) = length ix /\ length (turned_shape k a b sh) = length sh.
Proof.
  induction k; intros; cbn [turns turned_shape]; auto.
  destruct (IHk (swap_at a b sh) (turn a b sh ix)) as (-> & ->). rewrite turn_length, swap_at_length. auto.
Qed.

Lemma turns_mod N M a b sh ix : a <> b -> (a < length ix)%nat -> (b < length ix)%nat -> length sh = length ix ->
  turns (Z.to_nat (N mod 4) + Z.to_nat (M mod 4)) a b sh ix = turns (Z.to_nat ((N + M) mod 4)) a b sh ix /\
  turned_shape (Z.to_nat (N mod 4) + Z.to_nat (M mod 4)) a b sh = turned_shape (Z.to_nat ((N + M) mod 4)) a b sh.
Proof.
  intros Hab Ha Hb Hl. pose proof (Z.mod_pos_bound N 4 ltac:(lia)). pose proof (Z.mod_pos_bound M 4 ltac:(lia)).
  rewrite (Z.add_mod N M 4) by lia. set (x := N mod 4) in *. set (y := M mod 4) in *.
  destruct (Z.lt_ge_cases (x + y) 4) as [H1|H1].
  - rewrite Z.mod_small by lia. rewrite Z2Nat.inj_add by lia. auto.
  - replace ((x + y) mod 4) with (x + y - 4).
    2:{ replace (x + y) with (x + y - 4 + 1 * 4) at 2 by lia. rewrite Z_mod_plus_full. rewrite Z.mod_small by lia. reflexivity. }
    replace (Z.to_nat x + Z.to_nat y)%nat with (4 + Z.to_nat (x + y - 4))%nat by lia.
    rewrite turns_add, turned_add. destruct (turns_four a b sh ix Hab Ha Hb Hl) as (-> & ->). auto.
Qed.

Lemma rot90_compose_lemma : forall (T : layout) (N M : Z) (e : xexp) (a0 a1 : Z) (k0 k1 : nat),
  T = row_major \/ T = column_major -> wf_exp e -> x_direct e = true ->
  axis_of (length (x_shape e)) a0 k0 -> axis_of (length (x_shape e)) a1 k1 -> k0 <> k1 ->
  exists v w u, rot90 T N e a0 a1 = Ok v /\ rot90 T M (as_exp v) a0 a1 = Ok w /\ rot90 T (N + M) e a0 a1 = Ok u /\
    w_shape w = w_shape u /\
    forall jx, in_bounds (x_shape e) jx -> exists ix, in_bounds (w_shape w) ix /\
      reads w ix (x_elem e jx) /\ reads u ix (x_elem e jx).
Proof.
  intros T N M e a0 a1 k0 k1 HT He Hd H0 H1 Hk.
  pose proof (normalize_ok _ _ _ H0) as (_ & R0). pose proof (normalize_ok _ _ _ H1) as (_ & R1).
  destruct (proj2 (rot90_lemma T N e a0 a1 k0 k1 HT He Hd H0 H1) Hk) as (v & V1 & V2 & V3 & V4).
  destruct (proj2 (rot90_lemma T (N + M) e a0 a1 k0 k1 HT He Hd H0 H1) Hk) as (u & U1 & U2 & _).
  assert (Hs : x_shape (as_exp v) = turned_shape (Z.to_nat (N mod 4)) k0 k1 (x_shape e)) by (rewrite as_exp_shape; apply V2).
  assert (Hl : length (x_shape (as_exp v)) = length (x_shape e)).
  { rewrite Hs. apply (turns_lengths k0 k1 _ (x_shape e) []). }
  destruct (proj2 (rot90_lemma T M (as_exp v) a0 a1 k0 k1 HT V3 V4 ltac:(rewrite Hl; exact H0) ltac:(rewrite Hl; exact H1)) Hk) as (w & W1 & W2 & _).
  exists v, w, u. split; [exact V1|]. split; [exact W1|]. split; [exact U1|].
  pose proof (rearranges_trans _ _ _ _ _ _ _ V4 V3 V2 W2) as R. rewrite Hs in R.
  destruct R as (R1' & R2 & R3), U2 as (U2 & U3 & U4).
  assert (Hsh : w_shape w = w_shape u).
  { rewrite R1', U2, <- turned_add. apply (turns_mod N M k0 k1 (x_shape e) (x_shape e)); auto. }
  split; [exact Hsh|]. intros jx Hj. pose proof (in_bounds_length _ _ Hj) as Hjl.
  destruct (R2 jx Hj) as (Q1 & Q2). destruct (U3 jx Hj) as (Q3 & Q4).
  rewrite <- turns_add in Q2, Q1. destruct (turns_mod N M k0 k1 (x_shape e) jx Hk ltac:(lia) ltac:(lia) ltac:(lia)) as (E1 & _).
  rewrite E1 in *. exists (turns (Z.to_nat ((N + M) mod 4)) k0 k1 (x_shape e) jx). rewrite R1'. auto.
Qed.

(** ** squeeze after expand_dims *)
Lemma insert_drop axis (x : Z) l : (axis <= length l)%nat -> drop_axes [Z.of_nat axis] 0 (insert_at axis x l) = l.
Proof.
  intros H. unfold insert_at.
  assert (G : forall a l1 l2 k, length l1 = a -> drop_axes [Z.of_nat (k + a)] k (l1 ++ x :: l2) = l1 ++ l2).
  { induction a; intros [|y l1] l2 k L; cbn in L; try discriminate; cbn [app drop_axes existsb].
    - destruct (Z.eqb_spec (Z.of_nat k) (Z.of_nat (k + 0))); [|lia]. cbn [orb].
      assert (D : forall r j, (k < j)%nat -> drop_axes [Z.of_nat (k + 0)] j r = r).
      { induction r; intros j Hj; cbn [drop_axes existsb]; auto. destruct (Z.eqb_spec (Z.of_nat j) (Z.of_nat (k + 0))); [lia|].
        cbn [orb]. f_equal. apply IHr. lia. }
      apply D. lia.
    - destruct (Z.eqb_spec (Z.of_nat k) (Z.of_nat (k + S a))); [lia|]. cbn [orb]. f_equal.
      replace (k + S a)%nat with (S k + a)%nat by lia. apply IHa. lia. }
  rewrite (G axis) with (k := 0%nat) by (rewrite firstn_length; lia). apply firstn_skipn.
Qed.

Lemma filled_offset us sh st d v w sh' st' : filled us sh st d v w sh' st' ->
  Forall (fun u => u = UAll \/ u = UNewaxis) us -> d = 0.
Proof.
  induction 1; intros HF; auto; inversion HF as [|? ? HX HY]; subst; auto; destruct HX; discriminate.
Qed.

Lemma view_offset T e us junk v : T = row_major \/ T = column_major -> wf_exp e -> valid false us (x_shape e) ->
  Forall (fun u => u = UAll \/ u = UNewaxis) us ->
  strided_view T e (map Pick us) junk = Ok v -> w_offset v = get_offset e /\ w_base v = e.
Proof.
  intros HT He Hv HF E. unfold strided_view in E. rewrite (get_strides_ok T e) in E. cbn [bind] in E.
  pose proof (src_strides_length T e He) as Hsl.
  destruct (fill_args_ok (x_shape e) (src_strides T e) (get_offset e) (x_layout e) (map Pick us) junk Hsl) as (d & v' & w & sh' & st' & m & Hf & _ & F).
  { rewrite ellipses_picks. lia. }
  { rewrite expand_picks. exact Hv. }
  rewrite expand_picks in F. rewrite Hf in E. cbn [bind] in E.
  pose proof (filled_offset _ _ _ _ _ _ _ _ F HF) as ->. unfold make_view in E.
  apply bind_ok in E. destruct E as ([st bs] & _ & E). destruct bs; [|discriminate]. injection E as <-. cbn. split; [lia|reflexivity].
Qed.

Lemma squeeze_expand_lemma : forall (D T : layout) (e : xexp) (axis : nat) (junk : list Z),
  T = row_major \/ T = column_major -> wf_exp e -> x_direct e = true -> x_offset e = 0 -> (axis <= length (x_shape e))%nat ->
  exists v w, expand_dims T e axis junk = Ok v /\ squeeze_full D T (as_exp v) [Z.of_nat axis] = Ok w /\
    rearranges e w (x_shape e) (fun ix => ix).
Proof.
  intros D T e axis junk HT He Hd Ho Ha.
  destruct (expand_dims_lemma T e axis junk HT He Ha) as (v & V1 & V2 & _).
  pose proof V1 as E. unfold expand_dims in E. set (n := length (x_shape e)) in *.
  rewrite wr_ok in E by (rewrite repeat_length; lia). cbn [bind] in E.
  set (us := repeat UAll axis ++ UNewaxis :: repeat UAll (n - axis)).
  assert (Eu : upd (repeat (Pick UAll) (n + 1)) axis (Pick UNewaxis) = map Pick us).
  { rewrite upd_repeat by lia. unfold us. rewrite map_app. cbn [map]. rewrite !repeat_map. f_equal. f_equal. f_equal. lia. }
  rewrite Eu in E.
  assert (Hv : valid false us (x_shape e)).
  { unfold us. apply valid_all_intro; [auto|]. constructor. rewrite <- (app_nil_r (repeat UAll (n - axis))).
    apply valid_all_intro; [rewrite skipn_length; fold n; lia|]. constructor. }
  assert (HF : Forall (fun u => u = UAll \/ u = UNewaxis) us).
  { unfold us. apply Forall_app. split; [|constructor; [auto|]]; apply Forall_forall; intros x Hx; apply repeat_spec in Hx; auto. }
  destruct (view_offset T e us junk v HT He Hv HF E) as (Off & Base).
  destruct (strided_view_lemma T e (map Pick us) junk HT He) as (v' & E' & _ & W & _).
  { rewrite ellipses_picks. lia. } { rewrite expand_picks. exact Hv. }
  rewrite E in E'. injection E' as <-.
  assert (Hd' : x_direct (as_exp v) = true) by (unfold as_exp; rewrite Base, Hd; reflexivity).
  assert (Ho' : x_offset (as_exp v) = 0).
  { unfold as_exp. rewrite Base, Hd. cbn. rewrite Off, get_offset_direct; auto. }
  assert (Hs : x_shape (as_exp v) = insert_at axis 1 (x_shape e)) by (rewrite as_exp_shape; apply V2).
  assert (Hl : length (insert_at axis 1 (x_shape e)) = S n).
  { unfold insert_at. rewrite app_length, firstn_length. cbn [length]. rewrite skipn_length. fold n. lia. }
  assert (Hn : nth axis (insert_at axis 1 (x_shape e)) 0 = 1).
  { unfold insert_at. rewrite app_nth2 by (rewrite firstn_length; lia). rewrite firstn_length. fold n.
    replace (axis - Nat.min axis n)%nat with 0%nat by lia. reflexivity. }
  assert (HA : Forall (fun a => 0 <= a < Z.of_nat (length (x_shape (as_exp v))) /\ nth (Z.to_nat a) (x_shape (as_exp v)) 0 = 1) [Z.of_nat axis]).
  { constructor; [|constructor]. rewrite Hs, Hl, Nat2Z.id. split; [lia|exact Hn]. }
  destruct (squeeze_none_lemma D T (as_exp v) [Z.of_nat axis] HT W ltac:(congruence) ltac:(auto)) as (w & W1 & W2 & _).
  { split; [constructor; [intros []|constructor]|exact HA]. }
  exists v, w. split; [exact V1|]. split.
  { rewrite (proj1 (squeeze_full_lemma D T (as_exp v) [Z.of_nat axis] ltac:(constructor; [rewrite Hs, Hl; lia|constructor])) HA). exact W1. }
  pose proof (rearranges_trans _ _ _ _ _ _ _ Hd' W V2 W2) as R. rewrite Hs in R. eapply rearranges_ext; [| |exact R].
  - apply insert_drop. auto.
  - intros jx Hj. apply insert_drop. rewrite (in_bounds_length _ _ Hj). auto.
Qed.

(** ** counterexamples *)
Definition plain (sh st : list Z) : xexp := mk_xexp true sh st 0 row_major.

(** squeeze of the second row of a 2x3 array *)
Lemma squeeze_offset_lemma :
  exists v w, let a := plain [2; 3] [3; 1] in
    strided_view row_major a [Pick (URange (Some 1) (Some 2) None)] [] = Ok v /\ w_shape v = [1; 3] /\
    squeeze row_major row_major (as_exp v) = Ok w /\ w_shape w = [3] /\
    reads v [0; 2] (x_elem a [1; 2]) /\ reads w [2] (x_elem a [0; 2]) /\ x_elem a [0; 2] <> x_elem a [1; 2].
Proof.
  do 2 eexists. cbn zeta. split; [vm_compute; reflexivity|]. split; [reflexivity|]. split; [vm_compute; reflexivity|].
  split; [reflexivity|]. split; [repeat split; vm_compute; reflexivity|]. split; [repeat split; vm_compute; reflexivity|].
  vm_compute. discriminate.
Qed.

Lemma squeeze_empty_lemma :
  wf_exp (plain [2; 0] [0; 1]) /\ compute_strides dynamic [2; 0] row_major [0; 0] None = Ok ([0; 1], None, 0) /\
  squeeze row_major row_major (plain [2; 0] [0; 1]) = UB.
Proof. split; [split; [repeat constructor; lia|reflexivity]|]. split; vm_compute; reflexivity. Qed.
Lemma squeeze_axis_lemma : squeeze_full row_major row_major (plain [2; 1] [1; 0]) [2] = UB.
Proof. vm_compute. reflexivity. Qed.

Lemma duplicate_lemma :
  exists v, let a := plain [3; 1] [1; 0] in transpose_none row_major a [0; 0] = Ok v /\ w_shape v = [3; 3] /\
    in_bounds (w_shape v) [2; 2] /\ reads v [2; 2] (Slot 4).
Proof.
  eexists. cbn zeta. split; [vm_compute; reflexivity|]. split; [reflexivity|].
  split; [repeat constructor; lia|]. repeat split; vm_compute; reflexivity.
Qed.

Lemma lazy_layout_lemma :
  exists v, let e := mk_xexp false [2; 3] [] 0 column_major in
    transpose row_major e = Ok v /\ w_layout v = row_major /\ ~ view_layout_true v.
Proof.
  eexists. cbn zeta. split; [vm_compute; reflexivity|]. split; [reflexivity|].
  intros H. specialize (H (or_introl eq_refl) [1; 0] ltac:(repeat constructor; cbn; lia)). vm_compute in H. discriminate.
Qed.

(** flip(a) of the array {{1,2},{3,4}} gives {{4,3},{2,1}} but leaves {{2,1},{4,3}} in a. *)
Lemma flip_all_lemma :
  exists r d, let a := plain [2; 2] [2; 1] in flip_all row_major a [1; 2; 3; 4] = Ok (r, d) /\
    map (fun ix => read_cell d (w_element r ix)) (indices [2; 2]) = [Ok 4; Ok 3; Ok 2; Ok 1] /\ d = [2; 1; 4; 3].
Proof. do 2 eexists. cbn zeta. split; [vm_compute; reflexivity|]. split; vm_compute; reflexivity. Qed.
