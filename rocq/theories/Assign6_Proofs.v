(** The strided loop as a whole, and assign_data. *)
From Coq Require Import List ZArith Bool Lia.
From Verif Require Import Prelude PreludeFacts Strides_Model Strides_Spec Strides_Proofs Broadcast_Spec Layout_Model Slice_Model
  Stepper_Model Stepper_Spec Stepper_Proofs Stepper2_Proofs Stepper3_Proofs Stepper4_Proofs Container_Proofs
  Assign_Model Assign_Spec Assign_Proofs Assign2_Proofs Assign3_Proofs Assign4_Proofs Assign5_Proofs.
Import ListNotations.
Open Scope Z_scope.

Lemma acc_prod s : acc s = prod s.
Proof. exact (compute_size_prod s). Qed.

(** ** Where the strides agree *)

Lemma overlap_row_ok : forall s1 s2, (length s2 <= length s1)%nat -> exists n, overlap_row s1 s2 = Ok n /\ (n <= length s1)%nat /\
  ((n < length s1)%nat -> exists x t1 t2, s1 = x :: t1 /\ s2 = x :: t2).
Proof.
  induction s1 as [|x s1 IH]; intros [|y s2] H; cbn in H |- *; try lia.
  - exists 0%nat. split; [reflexivity|]. split; lia.
  - eexists. split; [reflexivity|]. split; lia.
  - destruct (Z.eqb_spec x y) as [->|N].
    + destruct (IH s2 ltac:(lia)) as (n & E & Hn & _). rewrite E. exists n. split; [reflexivity|]. split; [lia|]. eauto.
    + eexists. split; [reflexivity|]. split; lia.
Qed.

Lemma cut_row_ok {V} sh st (e : aexp V) : length st = length sh -> a_strided e = true -> operands_ok sh (inst [] e) ->
  forall cut, (cut <= length st)%nat -> exists cut', cut_of true st e cut = Ok cut' /\ (cut <= cut' <= length st)%nat /\
    ((cut' < length st)%nat -> leaves_ok (fun _ k => exists x t1 t2, rev st = x :: t1 /\ rev (k_strides k) = x :: t2) e).
Proof.
  intros HL. induction e as [v|m c s|s f|f args IH] using aexp_ind'; intros Hs Hop cut Hc.
  - exists cut. cbn. auto.
  - destruct Hop as [[Hf _] (L1 & _)]. cbn [cut_of].
    destruct (overlap_row_ok (rev st) (rev (k_strides c))) as (n & E & Hn & Hag). { rewrite !rev_length. lia. }
    rewrite rev_length in *. rewrite E. cbn [bind]. destruct (Nat.ltb_spec cut n).
    + exists n. split; [reflexivity|]. split; [lia|]. exact Hag.
    + exists cut. split; [reflexivity|]. split; [lia|]. intros. apply Hag. lia.
  - discriminate.
  - cbn [cut_of a_strided inst] in *. unfold operands_ok in Hop. rewrite all_leaves_fun in Hop. rewrite Forall_map in Hop.
    enough (exists cut', for_each (fun f cut => f cut) (map (cut_of true st) args) cut = Ok cut' /\ (cut <= cut' <= length st)%nat /\
        ((cut' < length st)%nat -> Forall (leaves_ok (fun _ k => exists x t1 t2, rev st = x :: t1 /\ rev (k_strides k) = x :: t2)) args)) as (c' & E & H & H').
    { exists c'. split; [assumption|]. split; [assumption|]. intros. rewrite leaves_fun. auto. }
    clear f. revert cut Hc. induction IH as [|a args Ha _ IH2]; intros cut Hc; cbn [map for_each].
    + exists cut. split; [reflexivity|]. split; [lia|]. constructor.
    + cbn [forallb] in Hs. apply andb_true_iff in Hs. destruct Hs as [Hs1 Hs2]. inversion Hop as [|? ? Ho1 Ho2]; subst.
      destruct (Ha Hs1 Ho1 cut Hc) as (c1 & E1 & B1 & F1). rewrite E1. cbn [bind].
      destruct (IH2 Hs2 Ho2 c1 ltac:(lia)) as (c2 & E2 & B2 & F2). exists c2. split; [assumption|]. split; [lia|].
      intros. constructor; [apply F1; lia|auto].
Qed.

Lemma overlap_col_ok s1 s2 : (0 < overlap_col s1 s2)%nat -> length s1 = length s2 /\ exists x t1 t2, s1 = x :: t1 /\ s2 = x :: t2.
Proof.
  unfold overlap_col. destruct (Nat.eqb_spec (length s1) (length s2)) as [E|]; [|lia]. intros H. split; [assumption|].
  destruct s1 as [|x s1], s2 as [|y s2]; cbn in H; try lia. destruct (Z.eqb_spec x y) as [->|]; [|lia]. eauto.
Qed.

Lemma cut_col_ok {V} sh st (e : aexp V) : length st = length sh -> a_strided e = true -> operands_ok sh (inst [] e) ->
  forall cut, exists cut', cut_of false st e cut = Ok cut' /\ (cut' <= cut)%nat /\
    ((0 < cut')%nat -> leaves_ok (fun _ k => length st = length (k_strides k) /\ exists x t1 t2, st = x :: t1 /\ k_strides k = x :: t2) e).
Proof.
  intros HL. induction e as [v|m c s|s f|f args IH] using aexp_ind'; intros Hs Hop cut.
  - exists cut. cbn. auto.
  - cbn [cut_of]. destruct (Nat.ltb_spec (overlap_col st (k_strides c)) cut).
    + eexists. split; [reflexivity|]. split; [lia|]. apply overlap_col_ok.
    + exists cut. split; [reflexivity|]. split; [lia|]. intros. apply overlap_col_ok. lia.
  - discriminate.
  - cbn [cut_of a_strided inst] in *. unfold operands_ok in Hop. rewrite all_leaves_fun in Hop. rewrite Forall_map in Hop.
    enough (exists cut', for_each (fun f cut => f cut) (map (cut_of false st) args) cut = Ok cut' /\ (cut' <= cut)%nat /\
        ((0 < cut')%nat -> Forall (leaves_ok (fun _ k => length st = length (k_strides k) /\ exists x t1 t2, st = x :: t1 /\ k_strides k = x :: t2)) args)) as (c' & E & H & H').
    { exists c'. split; [assumption|]. split; [assumption|]. intros. rewrite leaves_fun. auto. }
    clear f. revert cut. induction IH as [|a args Ha _ IH2]; intros cut; cbn [map for_each].
    + exists cut. split; [reflexivity|]. split; [lia|]. constructor.
    + cbn [forallb] in Hs. apply andb_true_iff in Hs. destruct Hs as [Hs1 Hs2]. inversion Hop as [|? ? Ho1 Ho2]; subst.
      destruct (Ha Hs1 Ho1 cut) as (c1 & E1 & B1 & F1). rewrite E1. cbn [bind].
      destruct (IH2 Hs2 Ho2 c1) as (c2 & E2 & B2 & F2). exists c2. split; [assumption|]. split; [lia|].
      intros. constructor; [apply F1; lia|auto].
Qed.

(** The stride along an axis with at least two elements is not 0. *)
Lemma stride_nonzero {V} (c : container) (mem : list V) pre d post : writable c mem -> Forall (fun d => 0 < d) (k_shape c) ->
  k_shape c = pre ++ d :: post -> 1 < d -> nth (length pre) (k_strides c) 0 <> 0.
Proof.
  intros (Hsh & (L1 & _) & _ & Hinj) Hpos E Hd H0.
  assert (B : forall x, 0 <= x < d -> in_bounds (k_shape c) (repeat 0 (length pre) ++ x :: repeat 0 (length post))).
  { intros x Hx. rewrite E in *. apply Forall_app in Hpos. destruct Hpos as [P1 P2]. inversion P2; subst.
    assert (Z0 : forall s, Forall (fun d => 0 < d) s -> in_bounds s (repeat 0 (length s))).
    { induction 1; cbn; constructor; auto; lia. }
    apply in_bounds_app; [auto|]. constructor; [lia|]. apply Z0. assumption. }
  assert (C : repeat 0 (length pre) ++ 0 :: repeat 0 (length post) = repeat 0 (length pre) ++ 1 :: repeat 0 (length post)).
  { apply Hinj; [apply B; lia|apply B; lia|]. unfold position.
    pose proof (dot_skip_upd (repeat 0 (length pre)) 0 1 (repeat 0 (length post)) 0 (k_strides c)) as D.
    rewrite repeat_length, Nat.sub_0_r in D. cbn [skipn] in D. rewrite H0 in D.
    rewrite D; [ring|lia|]. rewrite L1, E, app_length. cbn. lia. }
  apply app_inv_head in C. discriminate.
Qed.

Lemma last_nonzero_last st x : last_nonzero st = Some 1 -> (exists t, rev st = x :: t) -> x <> 0 -> x = 1.
Proof.
  unfold last_nonzero. intros H (t & E) N. rewrite E in H. cbn in H. destruct (Z.eqb_spec x 0); [contradiction|].
  cbn in H. injection H as H. exact H.
Qed.

Lemma rev_last (l : list Z) x t : rev l = x :: t -> l = rev t ++ [x].
Proof. intros H. rewrite <- (rev_involutive l), H. reflexivity. Qed.

Lemma nth_last (l : list Z) x t : rev l = x :: t -> nth (length l - 1) l 0 = x.
Proof.
  intros H. rewrite (rev_last _ _ _ H). rewrite app_length. cbn. rewrite Nat.add_sub. rewrite app_nth2, Nat.sub_diag by lia. reflexivity.
Qed.

Lemma loop_sizes_ok {V} (c : container) (e : aexp V) (mem : list V) : writable c mem -> operands_ok (k_shape c) (inst [] e) -> a_strided e = true ->
  exists ls, get_loop_sizes c e = Ok ls /\ (ls_can ls = true -> exists osh d,
    k_shape c = mk (ls_row ls) osh d /\ 1 < d /\ ls_inner ls = d /\ ls_outer ls = prod osh /\
    ls_cut ls = (if ls_row ls then length osh else 1%nat) /\
    (0 < prod osh -> Forall (fun d => 0 < d) (k_shape c) /\
      unit_at (k_shape c) (if ls_row ls then length osh else 0%nat) c /\
      leaves_ok (fun _ k => unit_at (k_shape c) (if ls_row ls then length osh else 0%nat) k) e)).
Proof.
  intros Hw Hop Hs. pose proof Hw as (Hsh & (L1 & L2 & Hst) & Hin & Hinj). unfold get_loop_sizes.
  destruct (match last_nonzero (k_strides c) with Some s => s =? 1 | None => false end) eqn:Er.
  - assert (Eln : last_nonzero (k_strides c) = Some 1).
    { destruct (last_nonzero (k_strides c)); [|discriminate]. apply Z.eqb_eq in Er. congruence. }
    destruct (cut_row_ok (k_shape c) (k_strides c) e L1 Hs Hop 0%nat ltac:(lia)) as (cut & Ec & Bc & Hl). rewrite Ec. cbn [bind].
    eexists. split; [reflexivity|]. cbn [ls_can ls_row ls_inner ls_outer ls_cut]. intros Hcan. apply Z.ltb_lt in Hcan.
    rewrite acc_prod in *.
    assert (Hne : (0 < length (k_strides c))%nat). { destruct (k_strides c); [discriminate Eln|cbn; lia]. }
    set (n := length (k_strides c)) in *.
    assert (Hcut : (if (cut <? n - 1)%nat then (n - 1)%nat else cut) = (n - 1)%nat).
    { destruct (Nat.ltb_spec cut (n - 1)); [reflexivity|]. destruct (Nat.eq_dec cut n) as [->|]; [|lia].
      exfalso. destruct (Nat.ltb_spec n (n - 1)); [lia|]. rewrite L1, skipn_all, prod_nil in Hcan. lia. }
    rewrite Hcut in *.
    assert (Hcn : (cut < n)%nat). { destruct (Nat.ltb_spec cut (n - 1)); lia. }
    specialize (Hl Hcn).
    destruct (exists_last (l := k_shape c)) as (osh & d & Eosh). { intros E0. rewrite E0 in L1. cbn in L1. lia. }
    assert (Hn : (n - 1)%nat = length osh). { rewrite L1, Eosh, app_length. cbn. lia. }
    assert (Esk : skipn (n - 1) (k_shape c) = [d]). { rewrite Hn, Eosh, skipn_app, skipn_all, Nat.sub_diag. reflexivity. }
    assert (Efi : firstn (n - 1) (k_shape c) = osh). { rewrite Hn, Eosh, firstn_app, firstn_all, Nat.sub_diag. cbn. apply app_nil_r. }
    rewrite Esk, prod_cons, prod_nil in *. rewrite Z.mul_1_r in *. rewrite acc_prod, Efi.
    exists osh, d. split; [exact Eosh|]. split; [lia|]. split; [reflexivity|]. split; [reflexivity|]. split; [assumption|].
    intros Hpo. assert (Hpos : Forall (fun d => 0 < d) (k_shape c)).
    { rewrite Eosh. apply Forall_app. split; [|constructor; [lia|constructor]]. apply prod_nonneg_pos; [|lia].
      rewrite Eosh in Hsh. apply Forall_app in Hsh. tauto. }
    split; [assumption|].
    pose proof (stride_nonzero c mem osh d [] Hw Hpos Eosh Hcan) as Hnz.
    destruct (rev (k_strides c)) as [|x t] eqn:Erv. { apply (f_equal (@length Z)) in Erv. rewrite rev_length in Erv. cbn in Erv. lia. }
    pose proof (nth_last _ _ _ Erv) as Hlast. fold n in Hlast. rewrite Hn in Hlast.
    assert (Hx : x = 1). { eapply last_nonzero_last; eauto. congruence. }
    split.
    + unfold unit_at, k_offset. rewrite Nat.sub_diag, Nat.sub_0_r. split; [lia|]. split; [fold n; lia|]. congruence.
    + unfold operands_ok in Hop. revert Hl Hop Hs. clear - Hn Hx L1 Hne. subst x. fold n in L1.
      induction e as [v|m k s|s f|f args IH] using aexp_ind'; intros Hl Hop Hs.
      * exact I.
      * cbn in Hl. destruct Hl as (x & t1 & t2 & E1 & E2). injection E1 as <- <-. destruct Hop as [[Hf _] (K1 & _)].
        pose proof (nth_last _ _ _ E2) as Hk. assert (0 < length (k_strides k))%nat.
        { apply (f_equal (@length Z)) in E2. rewrite rev_length in E2. cbn in E2. lia. }
        cbn. unfold unit_at, k_offset. split; [lia|]. split; [lia|].
        replace (length osh - (length (k_shape c) - length (k_shape k)))%nat with (length (k_strides k) - 1)%nat by lia. assumption.
      * exact I.
      * rewrite leaves_fun in *. cbn [inst] in Hop. rewrite all_leaves_fun in Hop. rewrite Forall_map in Hop.
        cbn [a_strided] in Hs. rewrite forallb_forall in Hs. rewrite Forall_forall in *. intros a Ha. apply IH; auto.
  - destruct (match first_nonzero (k_strides c) with Some s => s =? 1 | None => false end) eqn:Ef.
    2: { eexists. split; [reflexivity|]. discriminate. }
    assert (Eln : first_nonzero (k_strides c) = Some 1).
    { destruct (first_nonzero (k_strides c)); [|discriminate]. apply Z.eqb_eq in Ef. congruence. }
    destruct (cut_col_ok (k_shape c) (k_strides c) e L1 Hs Hop (length (k_strides c))) as (cut & Ec & Bc & Hl). rewrite Ec. cbn [bind].
    eexists. split; [reflexivity|]. cbn [ls_can ls_row ls_inner ls_outer ls_cut]. intros Hcan. apply Z.ltb_lt in Hcan.
    rewrite acc_prod in *.
    assert (Hcut : (if (1 <? cut)%nat then 1%nat else cut) = 1%nat).
    { destruct (Nat.ltb_spec 1 cut); [reflexivity|]. destruct cut as [|[|]]; try lia. exfalso. cbn in Hcan. rewrite prod_nil in Hcan. lia. }
    rewrite Hcut in *. assert (Hcn : (0 < cut)%nat). { destruct cut; [discriminate|lia]. }
    specialize (Hl Hcn). destruct (k_shape c) as [|d osh] eqn:Eosh. { cbn in Hcan. rewrite prod_nil in Hcan. lia. }
    cbn [firstn skipn] in *. rewrite prod_cons, prod_nil in *. rewrite Z.mul_1_r in *. rewrite acc_prod.
    exists osh, d. split; [reflexivity|]. split; [lia|]. split; [reflexivity|]. split; [reflexivity|]. split; [reflexivity|].
    intros Hpo. assert (Hpos : Forall (fun d => 0 < d) (d :: osh)).
    { constructor; [lia|]. apply prod_nonneg_pos; [|lia]. inversion Hsh; assumption. }
    split; [assumption|]. rewrite <- Eosh in Hpos.
    pose proof (stride_nonzero c mem [] d osh Hw Hpos Eosh Hcan) as Hnz. cbn [length] in Hnz.
    destruct (k_strides c) as [|x t] eqn:Est; [cbn in L1; lia|]. cbn [nth] in Hnz.
    assert (Hx : x = 1). { unfold first_nonzero in Eln. cbn in Eln. destruct (Z.eqb_spec x 0); [contradiction|]. cbn in Eln. congruence. }
    subst x. split.
    + unfold unit_at, k_offset. rewrite Eosh, Nat.sub_diag, Est. cbn. split; [lia|]. split; [lia|reflexivity].
    + unfold operands_ok in Hop. revert Hl Hop Hs. clear - L1.
      induction e as [v|m k s|s f|f args IH] using aexp_ind'; intros Hl Hop Hs.
      * exact I.
      * cbn in Hl. destruct Hl as (EL & x & t1 & t2 & E1 & E2). injection E1 as <- <-. destruct Hop as [[Hf _] (K1 & _)].
        cbn in L1, K1, EL, Hf |- *. unfold unit_at, k_offset. rewrite E2 in *. cbn in K1, EL |- *. rewrite <- K1.
        split; [lia|]. split; [lia|]. replace (length osh - length t2)%nat with 0%nat by lia. reflexivity.
      * exact I.
      * rewrite leaves_fun in *. cbn [inst] in Hop. rewrite all_leaves_fun in Hop. rewrite Forall_map in Hop.
        cbn [a_strided] in Hs. rewrite forallb_forall in Hs. rewrite Forall_forall in *. intros a Ha. apply IH; auto.
Qed.

(** ** The threads of the strided loop *)

Lemma firstn_seq : forall k b n, firstn k (seq b n) = seq b (Nat.min k n).
Proof. induction k as [|k IH]; intros b [|n]; cbn; auto. rewrite IH. reflexivity. Qed.
Lemma skipn_seq : forall k b n, skipn k (seq b n) = seq (b + k) (n - k).
Proof.
  induction k as [|k IH]; intros b n; cbn; [rewrite Nat.add_0_r, Nat.sub_0_r; reflexivity|].
  destruct n; cbn; [reflexivity|]. rewrite IH. f_equal. lia.
Qed.

Lemma strided_plan_ok {V} g m (c : container) (e : aexp V) (mem : list V) ls osh d :
  writable c mem -> truthful m c -> operands_ok (k_shape c) (inst [] e) -> a_strided e = true -> setup_ok g (prod (k_shape c)) ->
  k_shape c = mk (ls_row ls) osh d -> 1 < d -> ls_inner ls = d -> ls_outer ls = prod osh ->
  ls_cut ls = (if ls_row ls then length osh else 1%nat) ->
  (0 < prod osh -> Forall (fun d => 0 < d) (k_shape c) /\
      unit_at (k_shape c) (if ls_row ls then length osh else 0%nat) c /\
      leaves_ok (fun _ k => unit_at (k_shape c) (if ls_row ls then length osh else 0%nat) k) e) ->
  exists phs, strided_plan g m c e ls = Ok phs /\ enumerates c e (concat (concat (concat phs))).
Proof.
  intros Hw Ht Hop Hs Hg Eosh Hd Ein Eout Ecut Hcond. pose proof Hw as (Hsh & Hst & Hin & Hinj).
  set (row := ls_row ls) in *. pose proof (ord_rc row) as Hl.
  unfold strided_plan. fold row. rewrite Ein, Eout, Ecut.
  replace (if row then firstn (if row then length osh else 1%nat) (k_shape c) else skipn (if row then length osh else 1%nat) (k_shape c)) with osh.
  2: { rewrite Eosh. unfold mk. destruct row; [rewrite firstn_app, firstn_all, Nat.sub_diag; cbn; rewrite app_nil_r; reflexivity|reflexivity]. }
  replace (if row then if row then length osh else 1%nat else (length (k_shape c) - (if row then length osh else 1))%nat) with (length osh).
  2: { rewrite Eosh. unfold mk. destruct row; [reflexivity|]. cbn. lia. }
  replace (if row then 0%nat else if row then length osh else 1%nat) with (step_dim row) by (unfold step_dim; destruct row; reflexivity).
  assert (Hoshn : is_shape osh). { rewrite Eosh in Hsh. unfold mk in Hsh. destruct row; [apply Forall_app in Hsh; tauto|inversion Hsh; assumption]. }
  pose proof (prod_nn _ Hoshn) as Hnn.
  assert (Hprod : prod (k_shape c) = prod osh * d). { rewrite Eosh. unfold mk. destruct row; [rewrite prod_app, prod_cons, prod_nil; ring|rewrite prod_cons; ring]. }
  destruct (Z.eq_dec (prod osh) 0) as [E0|E0].
  - rewrite E0. change (Z.to_nat 0) with 0%nat. cbn [seq].
    assert (HE : enumerates c e []).
    { eapply (enum_by_rank (ord row)); eauto.
      - rewrite Hprod, E0. reflexivity.
      - intros ix Hb. pose proof (order_pos_bound (ord row) _ ix Hl Hb). rewrite Hprod, E0 in *. lia. }
    destruct (g_parallel g).
    + enough (forall sizes, exists ths, seqM (map (fun l : list nat => match l with [] => Ok [] | ox :: _ =>
          let* idx := nth_idx row (Z.of_nat ox) (repeat 0 (length osh)) osh in
          let* st := step_all (x_ops (k_shape c) (inst [] e)) (step_dim row) idx (x_begin (inst [] e)) in
          let* p := step_all (xs_ops c 0) (step_dim row) idx (k_begin c) in
          outer_loop e c (contiguous_layout (m_static m)) row (step_dim row) osh (g_width g) (Z.to_nat (d / g_width g)) (Z.to_nat (d mod g_width g)) (length l) idx p st
          end) (pieces sizes [])) = Ok ths /\ concat (concat ths) = []) as G.
      { destruct (G (g_sizes g)) as (ths & E & H). rewrite E. cbn [bind]. eexists. split; [reflexivity|]. cbn [concat app].
        rewrite app_nil_r. rewrite H. exact HE. }
      induction sizes as [|n sizes (ths & E & H)]; cbn [pieces].
      * cbn. eexists. split; [reflexivity|reflexivity].
      * rewrite firstn_nil, skipn_nil. cbn [map seqM bind]. rewrite E. cbn [bind]. eexists. split; [reflexivity|]. cbn. exact H.
    + cbn [outer_loop bind]. eexists. split; [reflexivity|]. cbn. exact HE.
  - destruct (Hcond ltac:(lia)) as (Hpos & Hcu & Hlu). destruct Hg as ((k & Hk & Ew) & _ & _).
    assert (Hwp : 0 < g_width g). { rewrite Ew. apply Z.pow_pos_nonneg; lia. }
    assert (Hcont : contiguous_layout (m_static m) = true -> dense (ord row) c \/ prod osh = 1).
    { intros Hc. destruct Ht as (Hsa & _). destruct (osh_pos c e row osh d Eosh Hpos Hcu Hlu) as [Hop1 _].
      assert (Hz : in_bounds osh (repeat 0 (length osh))). { clear - Hop1. induction Hop1; cbn; constructor; auto; lia. }
      pose proof (pos_mk c e row osh Hcu Hlu (repeat 0 (length osh)) 0 1 (repeat_length _ _)) as Hp1. unfold position in Hp1. change (0 + 1) with 1 in Hp1.
      pose proof (mk_bounds c e row osh d Eosh Hcu Hlu _ 0 Hz ltac:(lia)) as B0. pose proof (mk_bounds c e row osh d Eosh Hcu Hlu _ 1 Hz ltac:(lia)) as B1.
      destruct (m_static m) eqn:Em; [discriminate| | |].
      - left. apply (stored_dense any); auto.
      - destruct row eqn:Erow; [left; apply (stored_dense row_major); auto|]. right.
        pose proof (Hsa _ B0) as S0. pose proof (Hsa _ B1) as S1. cbn [mk] in *. rewrite Eosh in S0, S1. cbn [mk row_pos] in *. lia.
      - destruct row eqn:Erow; [|left; apply (stored_dense column_major); auto]. right.
        pose proof (Hsa _ B0) as S0. pose proof (Hsa _ B1) as S1. cbn [mk] in *. rewrite Eosh in S0, S1. cbn [mk] in *.
        rewrite !col_pos_app in S0, S1 by apply repeat_length. cbn [col_pos] in *. lia. }
    pose proof (outer_ok c e row osh d Eosh Hpos Hst Hop Hs Hcu Hlu (contiguous_layout (m_static m)) (g_width g) Hwp Hcont) as Hout.
    pose proof (fct_begin c e row osh d Eosh Hpos Hop Hcu Hlu) as Hfb.
    pose proof (res_step c e row osh d Eosh Hpos Hst Hcu Hlu) as Hrs.
    assert (Hstart : forall idx, in_bounds osh idx -> exists st, step_all (x_ops (k_shape c) (inst [] e)) (step_dim row) idx (x_begin (inst [] e)) = Ok st /\
              x_at (k_shape c) (inst [] e) (mk row idx 0) st).
    { intros idx Hb. apply (step_all_at c e row osh d Eosh Hpos Hcu Hlu _ _ _ _ idx (x_laws (ord row) (k_shape c) Hl (inst [] e) Hop) Hb). apply x_begin_at. assumption. }
    destruct (osh_pos c e row osh d Eosh Hpos Hcu Hlu) as [Hop1 _].
    destruct (g_parallel g).
    + assert (Hpiece : forall b n, (b + n <= Z.to_nat (prod osh))%nat -> (0 < n)%nat -> exists ts,
          (let* idx := nth_idx row (Z.of_nat b) (repeat 0 (length osh)) osh in
           let* st := step_all (x_ops (k_shape c) (inst [] e)) (step_dim row) idx (x_begin (inst [] e)) in
           let* p := step_all (xs_ops c 0) (step_dim row) idx (k_begin c) in
           outer_loop e c (contiguous_layout (m_static m)) row (step_dim row) osh (g_width g) (Z.to_nat (d / g_width g)) (Z.to_nat (d mod g_width g)) n idx p st) = Ok ts /\
          length (concat ts) = (n * Z.to_nat d)%nat /\
          forall o i, in_bounds osh o -> 0 <= i < d -> Z.of_nat b <= order_pos (ord row) osh o < Z.of_nat b + Z.of_nat n ->
            exists ln, nth_error (concat ts) (Z.to_nat ((order_pos (ord row) osh o - Z.of_nat b) * d + i)) = Some ln /\ lane_at c e (mk row o i) ln).
      { intros b n Hbn Hn. destruct (nth_idx_ok row osh (Z.of_nat b) (repeat 0 (length osh)) Hop1 ltac:(lia) (repeat_length _ _)) as (idx & Ei & Hb & Hr).
        rewrite Ei. cbn [bind]. destruct (Hstart idx Hb) as (st & Est & Ha). rewrite Est. cbn [bind]. rewrite Hrs by assumption. cbn [bind].
        destruct (Hout n idx (position c (mk row idx 0)) st Hb ltac:(lia) eq_refl Ha) as (ts & Ets & Lts & Hts).
        exists ts. split; [exact Ets|]. split; [assumption|]. rewrite Hr in Hts. exact Hts. }
      match goal with |- context [seqM (map ?pf _)] => set (piece := pf) in * end.
      assert (Hall : forall sizes b n, (b + n <= Z.to_nat (prod osh))%nat -> exists ths, seqM (map piece (pieces sizes (seq b n))) = Ok ths /\
          length (concat (concat ths)) = (n * Z.to_nat d)%nat /\
          forall o i, in_bounds osh o -> 0 <= i < d -> Z.of_nat b <= order_pos (ord row) osh o < Z.of_nat b + Z.of_nat n ->
            exists ln, nth_error (concat (concat ths)) (Z.to_nat ((order_pos (ord row) osh o - Z.of_nat b) * d + i)) = Some ln /\ lane_at c e (mk row o i) ln).
      { assert (H1 : forall b n, (b + n <= Z.to_nat (prod osh))%nat -> exists ts, piece (seq b n) = Ok ts /\ length (concat ts) = (n * Z.to_nat d)%nat /\
          forall o i, in_bounds osh o -> 0 <= i < d -> Z.of_nat b <= order_pos (ord row) osh o < Z.of_nat b + Z.of_nat n ->
            exists ln, nth_error (concat ts) (Z.to_nat ((order_pos (ord row) osh o - Z.of_nat b) * d + i)) = Some ln /\ lane_at c e (mk row o i) ln).
        { intros b [|n] Hbn.
          - exists []. cbn. split; [reflexivity|]. split; [reflexivity|]. intros; lia.
          - destruct (Hpiece b (S n) Hbn ltac:(lia)) as (ts & Ets & Rest). exists ts. split; [|exact Rest].
            unfold piece. cbn [seq]. cbn [length]. rewrite seq_length. exact Ets. }
        induction sizes as [|k' sizes IH]; intros b n Hbn; cbn [pieces map seqM].
        - destruct (H1 b n Hbn) as (ts & Ets & Lts & Hts). rewrite Ets. cbn [bind]. exists [ts]. split; [reflexivity|].
          cbn [concat]. rewrite app_nil_r. auto.
        - rewrite firstn_seq, skipn_seq. destruct (H1 b (Nat.min k' n) ltac:(lia)) as (ts & Ets & Lts & Hts). rewrite Ets. cbn [bind].
          destruct (Nat.le_gt_cases k' n) as [Hle|Hgt].
          + rewrite Nat.min_l in * by assumption. destruct (IH (b + k')%nat (n - k')%nat ltac:(lia)) as (ths & Eth & Lth & Hth). rewrite Eth. cbn [bind].
            exists (ts :: ths). split; [reflexivity|]. cbn [concat]. rewrite concat_app, app_length. split; [nia|].
            intros o i Hbo Hi Hr. destruct (Z.lt_ge_cases (order_pos (ord row) osh o) (Z.of_nat b + Z.of_nat k')) as [Hlt|Hge].
            * destruct (Hts o i Hbo Hi ltac:(lia)) as (ln & Hnth & Hla). exists ln. split; [|assumption].
              rewrite nth_error_app1; [assumption|]. apply nth_error_Some. congruence.
            * destruct (Hth o i Hbo Hi ltac:(lia)) as (ln & Hnth & Hla). exists ln. split; [|assumption].
              rewrite nth_error_app2 by nia. rewrite Lts.
              replace (Z.to_nat ((order_pos (ord row) osh o - Z.of_nat b) * d + i) - k' * Z.to_nat d)%nat
                with (Z.to_nat ((order_pos (ord row) osh o - Z.of_nat (b + k')) * d + i)); [assumption|].
              rewrite Nat2Z.inj_add. nia.
          + rewrite Nat.min_r in * by lia. destruct (IH (b + n)%nat 0%nat ltac:(lia)) as (ths & Eth & Lth & Hth).
            replace (n - k')%nat with 0%nat in * by lia. cbn [seq] in *. rewrite Eth. cbn [bind].
            exists (ts :: ths). split; [reflexivity|]. cbn [concat]. rewrite concat_app, app_length. split; [lia|].
            intros o i Hbo Hi Hr. destruct (Hts o i Hbo Hi ltac:(lia)) as (ln & Hnth & Hla). exists ln. split; [|assumption].
            rewrite nth_error_app1; [assumption|]. apply nth_error_Some. congruence. }
      destruct (Hall (g_sizes g) 0%nat (Z.to_nat (prod osh)) ltac:(lia)) as (ths & Eth & Lth & Hth). rewrite Eth. cbn [bind].
      eexists. split; [reflexivity|]. cbn [concat]. rewrite app_nil_r. eapply (enum_by_rank (ord row)); eauto.
      * etransitivity; [exact Lth|]. rewrite Hprod. nia.
      * intros ix Hb. destruct (mk_bounds_inv c e row osh d Eosh Hcu Hlu ix Hb) as (o & i & -> & Hbo & Hi).
        pose proof (order_pos_bound (ord row) osh o Hl Hbo) as Hbd.
        rewrite (mk_pos c e row osh d Eosh Hcu Hlu) by assumption. destruct (Hth o i Hbo Hi ltac:(lia)) as (ln & Hnth & Hla).
        rewrite Z.sub_0_r in Hnth. eauto.
    + assert (Hz : in_bounds osh (repeat 0 (length osh))). { clear - Hop1. induction Hop1; cbn; constructor; auto; lia. }
      assert (Hz0 : order_pos (ord row) osh (repeat 0 (length osh)) = 0).
      { pose proof (order_pos_bound (ord row) osh _ Hl Hz). destruct (order_unpos (ord row) osh 0 Hl Hoshn ltac:(lia)) as (ix0 & Hb0 & Hr0).
        clear - Hl. destruct Hl as [ -> | -> ]; cbn; induction osh; cbn; auto; lia. }
      assert (Hmk0 : mk row (repeat 0 (length osh)) 0 = repeat 0 (length (k_shape c))).
      { rewrite Eosh. unfold mk. destruct row; [rewrite app_length; cbn [length]; rewrite repeat_app; reflexivity|reflexivity]. }
      destruct (Hout (Z.to_nat (prod osh)) (repeat 0 (length osh)) (k_begin c) (x_begin (inst [] e)) Hz ltac:(lia)) as (ts & Ets & Lts & Hts).
      { unfold position. rewrite Hmk0. pose proof (dot_zeros 0 (length (k_shape c)) (k_strides c)) as D. cbn [skipn] in D. rewrite D. ring. }
      { rewrite Hmk0. apply x_begin_at. assumption. }
      rewrite Ets. cbn [bind]. eexists. split; [reflexivity|]. cbn [concat app]. rewrite !app_nil_r. rewrite Hz0 in Hts.
      eapply (enum_by_rank (ord row)); eauto.
      * etransitivity; [exact Lts|]. rewrite Hprod. nia.
      * intros ix Hb. destruct (mk_bounds_inv c e row osh d Eosh Hcu Hlu ix Hb) as (o & i & -> & Hbo & Hi).
        pose proof (order_pos_bound (ord row) osh o Hl Hbo) as Hbd.
        rewrite (mk_pos c e row osh d Eosh Hcu Hlu) by assumption. destruct (Hts o i Hbo Hi ltac:(lia)) as (ln & Hnth & Hla).
        rewrite Z.sub_0_r in Hnth. eauto.
Qed.

(** ** assign_data *)

Lemma assign_plan_ok {V} g m (c : container) (e : aexp V) trivial (mem : list V) : assignable g m c e trivial mem ->
  exists phs, assign_plan g m c e trivial = Ok phs /\ enumerates c e (concat (concat (concat phs))).
Proof.
  intros (Hg & Hw & Ht & Ho & Hop & Hst & Htl & Hol & Htr). pose proof Hw as (Hsh & _). unfold assign_plan.
  pose proof Hg as (_ & _ & Hdef).
  destruct (trivial && is_linear_assign m c e) eqn:E1.
  - apply andb_true_iff in E1. destruct E1 as [E1 E2]. specialize (Htr E1).
    match goal with |- context [if ?b then _ else _] => destruct b eqn:E3 end.
    + eexists. split; [reflexivity|]. rewrite (simd_plan_lanes g m c e Hsh Hg).
      apply (linear_enumerates g m c e mem true); auto. intros _.
      apply orb_true_iff in E3. rewrite !andb_true_iff in E3. tauto.
    + eexists. split; [reflexivity|]. rewrite linear_plan_lanes. apply (linear_enumerates g m c e mem false); auto. discriminate.
  - destruct (a_strided e && (g_types g && leaf_simd m && a_simd e)) eqn:E2.
    + apply andb_true_iff in E2. destruct E2 as [E2 _]. pose proof (operands_inst _ _ mem [] Hop) as Hop'.
      destruct (loop_sizes_ok c e mem Hw Hop' E2) as (ls & Els & Hls). rewrite Els. cbn [bind].
      destruct (ls_can ls); [|eapply stepper_plan_ok; eauto].
      destruct (Hls eq_refl) as (osh & d & A1 & A2 & A3 & A4 & A5 & A6). eapply strided_plan_ok; eauto.
    + eapply stepper_plan_ok; eauto.
Qed.

Lemma assign_data_ok {V} g m (c : container) (e : aexp V) trivial (mem : list V) : assignable g m c e trivial mem -> elementwise c e ->
  exists mem', (forall r, assign_data g m c e trivial mem r <-> r = Ok mem') /\ pointwise c e mem mem mem'.
Proof.
  intros Ha He. destruct (assign_plan_ok g m c e trivial mem Ha) as (phs & Ep & Hen).
  destruct Ha as (_ & Hw & _ & _ & Hop & Hst & _).
  destruct (exec_pointwise c e mem phs Hw Hop Hst He Hen) as (mem' & H1 & H2).
  exists mem'. split; [|assumption]. intros r. rewrite <- H1. unfold assign_data. rewrite Ep. reflexivity.
Qed.
