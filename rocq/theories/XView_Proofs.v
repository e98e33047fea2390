(** Proofs about xview: the functions of the kinds of the slices. *)
From Coq Require Import List ZArith Bool Lia.
From Verif Require Import Prelude PreludeFacts Strides_Model Strides_Spec Strides_Proofs Slice_Model Slice_Spec Slice_Proofs
  View_Spec SView_Model SView_Spec SView_Proofs SView2_Proofs SView3_Proofs XView_Model XView_Spec.
Import ListNotations.
Open Scope Z_scope.

Lemma tabulate_ok {A} (f : nat -> res A) (l : list A) : forall start,
  (forall i a, nth_error l i = Some a -> f (start + i)%nat = Ok a) -> tabulate f start (length l) = Ok l.
Proof.
  induction l as [|x l IH]; intros start H; [reflexivity|]. cbn [length tabulate].
  pose proof (H 0%nat x eq_refl) as H0. rewrite Nat.add_0_r in H0. rewrite H0. cbn [bind].
  rewrite IH; [reflexivity|]. intros i a Hi. specialize (H (S i) a Hi). rewrite <- H. f_equal. lia.
Qed.

(** ** Counting *)
Lemma icb_le ss : forall i, (integral_count_before ss i <= i)%nat.
Proof. induction ss as [|s t IH]; intros [|i]; cbn; try lia. specialize (IH i). destruct (is_integral s); lia. Qed.
Lemma ncb_le ss : forall i, (newaxis_count_before ss i <= i)%nat.
Proof. induction ss as [|s t IH]; intros [|i]; cbn; try lia. specialize (IH i). destruct (is_newaxis s); lia. Qed.
Lemma both_le ss : forall i, (integral_count_before ss i + newaxis_count_before ss i <= i)%nat.
Proof.
  induction ss as [|s t IH]; intros [|i]; cbn; try lia. specialize (IH i). destruct s; cbn; lia.
Qed.
Lemma icb_all ss : forall i, (length ss <= i)%nat -> integral_count_before ss i = integral_count ss.
Proof.
  unfold integral_count. induction ss as [|s t IH]; intros [|i] H; cbn in *; auto; try lia.
  rewrite IH by lia. reflexivity.
Qed.
Lemma ncb_all ss : forall i, (length ss <= i)%nat -> newaxis_count_before ss i = newaxis_count ss.
Proof.
  unfold newaxis_count. induction ss as [|s t IH]; intros [|i] H; cbn in *; auto; try lia.
  rewrite IH by lia. reflexivity.
Qed.
Lemma ic_cons s ss : integral_count (s :: ss) = (integral_count ss + if is_integral s then 1 else 0)%nat.
Proof. reflexivity. Qed.
Lemma nc_cons s ss : newaxis_count (s :: ss) = (newaxis_count ss + if is_newaxis s then 1 else 0)%nat.
Proof. reflexivity. Qed.
Lemma ic_nc_len ss : (integral_count ss + newaxis_count ss <= length ss)%nat.
Proof. apply both_le. Qed.

Lemma nskip_eq ss : forall i, newaxis_skip ss i = (i + newaxis_count_before ss (newaxis_skip ss i))%nat.
Proof.
  induction ss as [|s t IH]; intros i; cbn; [destruct i; cbn; lia|]. destruct (is_newaxis s) eqn:E.
  - rewrite (IH i) at 1. lia.
  - destruct i as [|i]; [reflexivity|]. rewrite (IH i) at 1. lia.
Qed.
Lemma nskip_past ss i : (length ss <= newaxis_skip ss i)%nat -> newaxis_skip ss i = (i + newaxis_count ss)%nat.
Proof. intros H. rewrite nskip_eq, ncb_all by auto. reflexivity. Qed.

Lemma iskip_eq ss : forall i, integral_skip ss i = (i + integral_count_before ss (integral_skip ss i))%nat.
Proof.
  induction ss as [|s t IH]; intros i; cbn; [destruct i; cbn; lia|]. destruct (is_integral s) eqn:E.
  - rewrite (IH i) at 1. lia.
  - destruct i as [|i]; [reflexivity|]. rewrite (IH i) at 1. lia.
Qed.
Lemma iskip_past ss i : (length ss <= integral_skip ss i)%nat -> integral_skip ss i = (i + integral_count ss)%nat.
Proof. intros H. rewrite iskip_eq, icb_all by auto. reflexivity. Qed.
Lemma iskip_lt ss : forall i, (integral_skip ss i < length ss)%nat <-> (i < length ss - integral_count ss)%nat.
Proof.
  induction ss as [|s t IH]; intros i; [cbn; lia|]. cbn [integral_skip length]. rewrite ic_cons.
  pose proof (ic_nc_len t). destruct (is_integral s).
  - specialize (IH i). lia.
  - destruct i as [|i]; [lia|]. specialize (IH i). lia.
Qed.

(** ** Resolved slices *)
Inductive rr : list user_slice -> list Z -> list slice -> Prop :=
| rr_nil sh : rr [] sh []
| rr_new us sh rs : rr us sh rs -> rr (UNewaxis :: us) sh (SNewaxis :: rs)
| rr_ax u n us sh s rs : u <> UNewaxis -> resolve u n = Ok s -> rr us sh rs -> rr (u :: us) (n :: sh) (s :: rs).

Lemma unb_le us : forall i, (user_newaxis_before us i <= i)%nat.
Proof. induction us as [|s t IH]; intros [|i]; cbn; try lia. specialize (IH i). destruct s; lia. Qed.

Lemma rr_slice us sh rs : rr us sh rs -> forall I s, nth_error rs I = Some s ->
  exists u, nth_error us I = Some u /\
    (u = UNewaxis /\ s = SNewaxis \/
     u <> UNewaxis /\ exists n, nth_error sh (I - user_newaxis_before us I) = Some n /\ resolve u n = Ok s).
Proof.
  induction 1; intros I s0 HI.
  - destruct I; discriminate.
  - destruct I as [|I]; cbn in HI.
    + injection HI as <-. exists UNewaxis. cbn. auto.
    + destruct (IHrr I s0 HI) as (u & U1 & U2). exists u. split; [exact U1|].
      destruct U2 as [U2|(U2 & n & U3 & U4)]; [auto|]. right. split; [auto|]. exists n. split; [|auto].
      rewrite <- U3. f_equal. cbn [user_newaxis_before]. pose proof (unb_le us I). lia.
  - destruct I as [|I]; cbn in HI.
    + injection HI as <-. exists u. split; [reflexivity|]. right. split; [auto|]. exists n. auto.
    + destruct (IHrr I s0 HI) as (u' & U1 & U2). exists u'. split; [exact U1|].
      destruct U2 as [U2|(U2 & m & U3 & U4)]; [auto|]. right. split; [auto|]. exists m. split; [|auto].
      rewrite <- U3. replace (S I - user_newaxis_before (u :: us) (S I))%nat with (S (I - user_newaxis_before us I))%nat; [reflexivity|].
      cbn [user_newaxis_before]. pose proof (unb_le us I). destruct u; try lia. congruence.
Qed.

Lemma rr_len us sh rs : rr us sh rs -> length rs = length us.
Proof. induction 1; cbn; auto. Qed.

Lemma make_slices_ok e us rs : rr us (x_shape e) rs -> make_slices e us = Ok rs.
Proof.
  intros H. unfold make_slices. rewrite <- (rr_len _ _ _ H). apply tabulate_ok.
  intros i s Hi. cbn [Nat.add]. destruct (rr_slice _ _ _ H i s Hi) as (u & U1 & U2).
  unfold make_slice. rewrite (rd_ok _ _ _ U1). cbn [bind].
  destruct U2 as [[-> ->]|(U2 & n & U3 & U4)]; [reflexivity|].
  rewrite (rd_ok _ _ _ U3). cbn [bind]. destruct u; auto; congruence.
Qed.

Definition axis_slice (s : slice) : Prop := is_integral s = false /\ is_newaxis s = false.

Lemma resolve_int u n s : resolve u n = Ok s -> is_integral s = match u with UInt _ => true | _ => false end.
Proof.
  destruct u; cbn [resolve]; intros E; try (injection E as <-; reflexivity).
  destruct start, stop, step; cbn in E; unfold get_stepped_range, mk_stepped, cdiv, crem in E;
    repeat match type of E with context [if ?b then _ else _] => destruct b end; cbn in E; try discriminate;
    injection E as <-; reflexivity.
Qed.
Lemma resolve_new u n s : resolve u n = Ok s -> is_newaxis s = match u with UNewaxis => true | _ => false end.
Proof.
  destruct u; cbn [resolve]; intros E; try (injection E as <-; reflexivity).
  destruct start, stop, step; cbn in E; unfold get_stepped_range, mk_stepped, cdiv, crem in E;
    repeat match type of E with context [if ?b then _ else _] => destruct b end; cbn in E; try discriminate;
    injection E as <-; reflexivity.
Qed.

Lemma rr_count us sh rs : rr us sh rs -> (length rs - newaxis_count rs <= length sh)%nat.
Proof.
  induction 1; cbn [length]; rewrite ?nc_cons; cbn [length newaxis_count is_newaxis]; [cbn; lia|lia|].
  pose proof (ic_nc_len rs).
  destruct (is_newaxis s); lia.
Qed.

(** ** Ideal shape and indices *)
Fixpoint shp (rs : list slice) (sh : list Z) : list Z :=
  match rs with
  | [] => sh
  | SNewaxis :: t => 1 :: shp t sh
  | SInt _ :: t => shp t (tl sh)
  | s :: t => slice_size s :: shp t (tl sh)
  end.

Fixpoint src (rs : list slice) (ix : list Z) : res (list Z) :=
  match rs with
  | [] => Ok ix
  | SInt v :: t => let* j := src t ix in Ok (v :: j)
  | SNewaxis :: t => match ix with [] => UB | _ :: ix' => src t ix' end
  | s :: t => match ix with
              | [] => UB
              | i :: ix' => let* x := slice_at s i in let* j := src t ix' in Ok (x :: j)
              end
  end.

Lemma shp_axis s t sh : axis_slice s -> shp (s :: t) sh = slice_size s :: shp t (tl sh).
Proof. intros [H1 H2]. destruct s; cbn in *; congruence || reflexivity. Qed.
Lemma src_axis s t i ix : axis_slice s -> src (s :: t) (i :: ix) = let* x := slice_at s i in let* j := src t ix in Ok (x :: j).
Proof. intros [H1 H2]. destruct s; cbn in *; congruence || reflexivity. Qed.
Lemma slice_cases s : axis_slice s \/ s = SNewaxis \/ exists v, s = SInt v.
Proof. unfold axis_slice. destruct s; cbn; eauto. Qed.

Lemma shp_len rs : forall sh, (length rs - newaxis_count rs <= length sh)%nat ->
  length (shp rs sh) = (length sh - integral_count rs + newaxis_count rs)%nat.
Proof.
  induction rs as [|s t IH]; intros sh H; [cbn; lia|]. rewrite ic_cons, nc_cons in *. pose proof (ic_nc_len t).
  destruct (slice_cases s) as [A|[ -> |(v & ->)]].
  - rewrite shp_axis by auto. destruct A as [A1 A2]. rewrite A1, A2 in *. cbn [length] in *.
    destruct sh as [|n sh]; cbn [length tl] in *; [lia|]. rewrite IH by lia. lia.
  - cbn [shp length is_integral is_newaxis] in *. rewrite IH by lia. lia.
  - cbn [shp length is_integral is_newaxis] in *. destruct sh as [|n sh]; cbn [length tl] in *; [lia|].
    rewrite IH by lia. lia.
Qed.

Lemma shp_nth rs : forall sh i n, (length rs - newaxis_count rs <= length sh)%nat -> nth_error (shp rs sh) i = Some n ->
  (forall s, nth_error rs (integral_skip rs i) = Some s -> n = slice_size s) /\
  ((length rs <= integral_skip rs i)%nat ->
    nth_error sh (integral_skip rs i - newaxis_count_before rs (integral_skip rs i)) = Some n).
Proof.
  induction rs as [|s t IH]; intros sh i n H Hn.
  - cbn in *. split; [intros s; destruct i; discriminate|]. intros _.
    destruct i; auto.
  - rewrite nc_cons in H. pose proof (ic_nc_len t).
    destruct (slice_cases s) as [A|[ -> |(v & ->)]].
    + rewrite shp_axis in Hn by auto. destruct A as [A1 A2]. rewrite A2 in H. cbn [integral_skip]. rewrite A1.
      destruct i as [|i]; cbn in Hn.
      * injection Hn as <-. cbn. split; [intros s' E; injection E as <-; reflexivity|lia].
      * destruct sh as [|m sh]; cbn [length tl] in *; [lia|]. destruct (IH sh i n ltac:(lia) Hn) as (I1 & I2).
        cbn [nth_error newaxis_count_before]. rewrite A2. split; [exact I1|]. intros Hl. specialize (I2 ltac:(lia)).
        pose proof (ncb_le t (integral_skip t i)).
        replace (S (integral_skip t i) - (newaxis_count_before t (integral_skip t i) + 0))%nat
          with (S (integral_skip t i - newaxis_count_before t (integral_skip t i)))%nat by lia. exact I2.
    + cbn [shp is_newaxis] in *. cbn [integral_skip is_integral]. destruct i as [|i]; cbn in Hn.
      * injection Hn as <-. cbn. split; [intros s' E; injection E as <-; reflexivity|lia].
      * cbn [length] in *. destruct (IH sh i n ltac:(lia) Hn) as (I1 & I2).
        cbn [nth_error newaxis_count_before is_newaxis]. split; [exact I1|]. intros Hl. specialize (I2 ltac:(lia)).
        replace (S (integral_skip t i) - (newaxis_count_before t (integral_skip t i) + 1))%nat
          with (integral_skip t i - newaxis_count_before t (integral_skip t i))%nat by lia. exact I2.
    + cbn [shp is_newaxis length] in *. cbn [integral_skip is_integral]. destruct sh as [|m sh]; cbn [length tl] in *; [lia|].
      destruct (IH sh i n ltac:(lia) Hn) as (I1 & I2).
      cbn [nth_error newaxis_count_before is_newaxis]. split; [exact I1|]. intros Hl. specialize (I2 ltac:(lia)).
      pose proof (ncb_le t (integral_skip t i)).
      replace (S (integral_skip t i) - (newaxis_count_before t (integral_skip t i) + 0))%nat
          with (S (integral_skip t i - newaxis_count_before t (integral_skip t i)))%nat by lia. exact I2.
Qed.

Lemma compute_shape_ok e rs : (length rs - newaxis_count rs <= length (x_shape e))%nat ->
  compute_shape e rs = Ok (shp rs (x_shape e)).
Proof.
  intros H. unfold compute_shape, view_dim. rewrite <- shp_len by auto. apply tabulate_ok.
  intros i n Hi. cbn [Nat.add]. destruct (shp_nth rs (x_shape e) i n H Hi) as (H1 & H2). cbv zeta.
  destruct (integral_skip rs i <? length rs)%nat eqn:E.
  - apply Nat.ltb_lt in E. destruct (nth_error_lt_ex rs _ E) as (s & Hs). rewrite (rd_ok _ _ _ Hs). cbn [bind].
    rewrite (H1 s Hs). reflexivity.
  - apply Nat.ltb_ge in E. apply rd_ok. auto.
Qed.

Lemma src_len rs : forall ix jx, src rs ix = Ok jx ->
  (length jx + newaxis_count rs = length ix + integral_count rs)%nat.
Proof.
  induction rs as [|s t IH]; intros ix jx H.
  - cbn in H. injection H as <-. cbn. lia.
  - rewrite ic_cons, nc_cons in *. destruct (slice_cases s) as [A|[ -> |(v & ->)]].
    + destruct ix as [|i ix].
      { destruct A as [A1 A2]. destruct s; cbn in *; try discriminate; congruence. }
      rewrite src_axis in H by auto. destruct A as [A1 A2]. rewrite A1, A2 in *.
      apply bind_ok in H as (x & _ & H). apply bind_ok in H as (j & Hj & H). injection H as <-.
      specialize (IH _ _ Hj). cbn [length]. lia.
    + destruct ix as [|i ix]; [discriminate|]. cbn [src] in H. specialize (IH _ _ H). cbn. lia.
    + cbn [src] in H. apply bind_ok in H as (j & Hj & H). injection H as <-. specialize (IH _ _ Hj). cbn. lia.
Qed.

(** What the i-th index of the source is made from. *)
Lemma src_nth rs : forall ix jx i y, src rs ix = Ok jx -> nth_error jx i = Some y ->
  (forall s, nth_error rs (newaxis_skip rs i) = Some s -> is_newaxis s = false /\
     (s = SInt y \/ exists x, nth_error ix (newaxis_skip rs i - integral_count_before rs (newaxis_skip rs i)) = Some x /\
        slice_at s x = Ok y)) /\
  ((length rs <= newaxis_skip rs i)%nat -> nth_error ix (newaxis_skip rs i - integral_count rs) = Some y).
Proof.
  induction rs as [|s t IH]; intros ix jx i y H Hy.
  - cbn in *. injection H as <-. split; [intros s; destruct i; discriminate|]. intros _.
    rewrite Nat.sub_0_r. auto.
  - rewrite ic_cons. cbn [newaxis_skip]. destruct (slice_cases s) as [A|[ -> |(v & ->)]].
    + destruct ix as [|i0 ix].
      { destruct A as [A1 A2]. destruct s; cbn in *; try discriminate; congruence. }
      rewrite src_axis in H by auto. destruct A as [A1 A2]. rewrite A1, A2 in *.
      apply bind_ok in H as (x & Hx & H). apply bind_ok in H as (j & Hj & H). injection H as <-.
      destruct i as [|i]; cbn in Hy.
      * injection Hy as <-. cbn. split; [|lia]. intros s' E. injection E as <-. split; [auto|]. right. exists i0. auto.
      * destruct (IH _ _ i y Hj Hy) as (I1 & I2). cbn [nth_error integral_count_before length]. rewrite A1.
        pose proof (icb_le t (newaxis_skip t i)). pose proof (ic_nc_len t).
        replace (S (newaxis_skip t i) - (integral_count_before t (newaxis_skip t i) + 0))%nat
          with (S (newaxis_skip t i - integral_count_before t (newaxis_skip t i)))%nat by lia.
        split; [exact I1|]. intros Hl. specialize (I2 ltac:(lia)).
        replace (S (newaxis_skip t i) - (integral_count t + 0))%nat
          with (S (newaxis_skip t i - integral_count t))%nat by lia. exact I2.
    + destruct ix as [|i0 ix]; [discriminate|]. cbn [src is_newaxis is_integral] in *.
      destruct (IH _ _ i y H Hy) as (I1 & I2). cbn [nth_error integral_count_before length is_integral].
      pose proof (icb_le t (newaxis_skip t i)). pose proof (ic_nc_len t).
      replace (S (newaxis_skip t i) - (integral_count_before t (newaxis_skip t i) + 0))%nat
          with (S (newaxis_skip t i - integral_count_before t (newaxis_skip t i)))%nat by lia.
      split; [exact I1|]. intros Hl. specialize (I2 ltac:(lia)).
      replace (S (newaxis_skip t i) - (integral_count t + 0))%nat
          with (S (newaxis_skip t i - integral_count t))%nat by lia. exact I2.
    + cbn [src is_newaxis is_integral] in *. apply bind_ok in H as (j & Hj & H). injection H as <-.
      destruct i as [|i]; cbn in Hy.
      * injection Hy as <-. cbn. split; [|lia]. intros s' E. injection E as <-. split; auto.
      * destruct (IH _ _ i y Hj Hy) as (I1 & I2). cbn [nth_error integral_count_before length is_integral].
        pose proof (icb_le t (newaxis_skip t i)). pose proof (ic_nc_len t).
        replace (S (newaxis_skip t i) - (integral_count_before t (newaxis_skip t i) + 1))%nat
          with (newaxis_skip t i - integral_count_before t (newaxis_skip t i))%nat by lia.
        split; [exact I1|]. intros Hl. specialize (I2 ltac:(lia)).
        replace (S (newaxis_skip t i) - (integral_count t + 1))%nat
          with (newaxis_skip t i - integral_count t)%nat by lia. exact I2.
Qed.

(** ** The conditions on newaxis *)
Lemma rr_no_int us sh rs : rr us sh rs -> Forall (fun u => match u with UInt _ => False | _ => True end) us ->
  forall i, integral_count_before rs i = 0%nat.
Proof.
  induction 1; intros F i; inversion F; subst; destruct i; cbn; auto.
  - rewrite IHrr by auto. reflexivity.
  - rewrite IHrr by auto. rewrite (resolve_int _ _ _ H0). destruct u; cbn; auto. tauto.
Qed.
Lemma rr_no_new us sh rs : rr us sh rs -> Forall (fun u => match u with UInt _ | UNewaxis => False | _ => True end) us ->
  (forall i, newaxis_count_before rs i = 0%nat) /\ (forall i, newaxis_skip rs i = i).
Proof.
  induction 1; intros F.
  - split; intros i; destruct i; reflexivity.
  - inversion F; subst. tauto.
  - inversion F; subst. destruct (IHrr H5) as (I1 & I2). split; intros i; cbn [newaxis_count_before newaxis_skip];
      rewrite (resolve_new _ _ _ H0); destruct u, i; cbn; rewrite ?I1, ?I2; auto; tauto.
Qed.

Lemma element_counts us sh rs : rr us sh rs -> no_int_after_newaxis us -> forall i,
  integral_count_before rs i = integral_count_before rs (newaxis_skip rs i).
Proof.
  induction 1; intros F i.
  - reflexivity.
  - cbn [no_int_after_newaxis] in F. cbn [newaxis_skip is_newaxis].
    pose proof (rr_no_int _ _ _ H F) as Z0. destruct i; cbn; rewrite ?Z0; reflexivity.
  - cbn [newaxis_skip]. rewrite (resolve_new _ _ _ H0).
    assert (F' : no_int_after_newaxis us) by (destruct u; cbn in F; auto; congruence).
    destruct u; try congruence; destruct i as [|i]; cbn; auto; rewrite (IHrr F' i); reflexivity.
Qed.

Lemma call_counts us sh rs : rr us sh rs -> one_newaxis us -> forall i,
  (i + newaxis_count_before rs (i + 1))%nat = newaxis_skip rs i /\
  integral_count_before rs i = integral_count_before rs (newaxis_skip rs i).
Proof.
  induction 1; intros F i.
  - cbn. split; [|reflexivity]. rewrite Nat.add_1_r. cbn. lia.
  - cbn [one_newaxis] in F. cbn [newaxis_skip is_newaxis].
    assert (F' : Forall (fun u => match u with UInt _ => False | _ => True end) us).
    { eapply Forall_impl; [|exact F]. intros []; auto. }
    pose proof (rr_no_int _ _ _ H F') as Z0. destruct (rr_no_new _ _ _ H F) as (Z1 & Z2).
    rewrite Nat.add_1_r. cbn [newaxis_count_before is_newaxis]. rewrite Z1, Z2. split; [lia|].
    destruct i; cbn; rewrite ?Z0; reflexivity.
  - cbn [newaxis_skip]. rewrite Nat.add_1_r. cbn [newaxis_count_before]. rewrite (resolve_new _ _ _ H0).
    assert (F' : one_newaxis us) by (destruct u; cbn in F; auto; congruence).
    assert (Hn : match u with UNewaxis => true | _ => false end = false) by (destruct u; congruence).
    rewrite Hn. destruct i as [|i]; [split; [destruct rs|]; reflexivity|].
    destruct (IHrr F' i) as (I1 & I2). rewrite Nat.add_1_r in I1. split; [lia|]. cbn. rewrite I2. reflexivity.
Qed.
