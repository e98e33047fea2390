(** First and last positions of xview_stepper. *)
From Coq Require Import List ZArith Bool Lia.
From Verif Require Import Prelude PreludeFacts Strides_Model Strides_Spec Strides_Proofs Slice_Model Slice_Spec
  SView_Model XView_Model XView_Proofs Stepper_Model Stepper_Spec Stepper_Proofs Stepper2_Proofs Stepper3_Proofs Stepper4_Proofs
  StepGen_Proofs VStep_Model VStep_Spec VStep_Proofs VStep2_Proofs.
Import ListNotations.
Open Scope Z_scope.

Lemma ncb_next ss : forall i s, nth_error ss i = Some s ->
  newaxis_count_before ss (S i) = (newaxis_count_before ss i + if is_newaxis s then 1 else 0)%nat.
Proof.
  induction ss as [|s0 t IH]; intros [|i] s H; try discriminate.
  - injection H as <-. cbn. destruct t; cbn; lia.
  - cbn [nth_error] in H. cbn [newaxis_count_before]. cbn [newaxis_count_before] in IH. rewrite (IH i s H). lia.
Qed.

Lemma nth_error_mid {A} (a : list A) x b : nth_error (a ++ x :: b) (length a) = Some x.
Proof. rewrite nth_error_app2, Nat.sub_diag by lia. reflexivity. Qed.

Definition sfirst (s : slice) : Prop := is_newaxis s = false -> slice_at s 0 = Ok (spos s 0).
Definition slast (s : slice) : Prop := is_newaxis s = false -> slice_at s (slice_size s - 1) = Ok (spos s (slice_size s - 1)).

Fixpoint stgt (t : list slice) (rest : list Z) : list Z :=
  match t with
  | [] => rest
  | s :: t' => if is_newaxis s then stgt t' rest else spos s 0 :: stgt t' (tl rest)
  end.
Fixpoint etgt (t : list slice) (rest esh : list Z) : list Z :=
  match t with
  | [] => rest
  | s :: t' => if is_newaxis s then etgt t' rest esh
               else (hd 0 rest - (hd 0 esh - 1 - spos s (slice_size s - 1))) :: etgt t' (tl rest) (tl esh)
  end.

Section Ends.
Context {V : Type} (e : sexp V) (esh : list Z) (ss : list slice).
Hypothesis Hok : operands_ok esh e.

Lemma start_loop : forall t done pre n it, ss = done ++ t ->
  (length pre + newaxis_count_before ss (length done) = length done)%nat ->
  (length t - newaxis_count t <= n)%nat -> (length pre + n = length esh)%nat ->
  Forall sfirst t -> x_at esh e (pre ++ repeat 0 n) it ->
  exists it', for_up (fun i it =>
      if is_newaxis_slice ss i then Ok it
      else
        let* s := rd ss i in
        let* v := slice_at s 0 in
        s_step (x_ops esh e) (i - newaxis_count_before ss i) v it) (length done) (length t) it = Ok it' /\
    x_at esh e (pre ++ stgt t (repeat 0 n)) it'.
Proof.
  induction t as [|s t IH]; intros done pre n it E Hp Hn Hlen HF Hat; cbn [length for_up stgt].
  - exists it. auto.
  - assert (Es : nth_error ss (length done) = Some s) by (rewrite E; apply nth_error_mid).
    pose proof (ncb_next _ _ _ Es) as HN. rewrite nas_ok, Es. rewrite nc_cons in Hn. cbn [length] in Hn.
    inversion HF as [|? ? HF1 HF2]; subst. destruct (is_newaxis s) eqn:En.
    + cbn [bind]. destruct (IH (done ++ [s]) pre n it) as (it' & E' & Hat'); auto.
      * rewrite <- app_assoc. reflexivity.
      * rewrite app_length. cbn [length]. rewrite Nat.add_1_r. lia.
      * lia.
      * rewrite app_length, Nat.add_1_r in E'. eauto.
    + rewrite (rd_ok _ _ _ Es). cbn [bind]. rewrite (HF1 En). cbn [bind].
      pose proof (ic_nc_len t). destruct n as [|n]; [lia|]. cbn [repeat tl] in *.
      replace (length done - newaxis_count_before (done ++ s :: t) (length done))%nat with (length pre) by lia.
      destruct (free_step esh e Hok pre 0 (repeat 0 n) (spos s 0) it) as (it1 & E1 & Hat1); auto.
      { rewrite app_length. cbn [length]. rewrite repeat_length. exact Hlen. }
      rewrite E1. cbn [bind]. cbn [Z.add] in Hat1.
      destruct (IH (done ++ [s]) (pre ++ [spos s 0]) n it1) as (it' & E' & Hat'); auto.
      * rewrite <- app_assoc. reflexivity.
      * rewrite !app_length. cbn [length]. rewrite !Nat.add_1_r. lia.
      * lia.
      * rewrite app_length. cbn. lia.
      * rewrite <- app_assoc. exact Hat1.
      * rewrite app_length, Nat.add_1_r in E'. rewrite <- app_assoc in Hat'. eauto.
Qed.

Lemma stgt_esrc : forall t n, (length t - newaxis_count t <= n)%nat ->
  stgt t (repeat 0 n) = esrc t (repeat 0 (n - integral_count t + newaxis_count t)).
Proof.
  induction t as [|s t IH]; intros n Hn; [cbn; f_equal; lia|].
  rewrite ic_cons, nc_cons in *. cbn [length stgt] in *. pose proof (ic_nc_len t).
  destruct (slice_cases s) as [A|[ -> |(v & ->)]].
  - rewrite esrc_axis by exact A. destruct A as [A1 A2]. rewrite A1, A2 in *. destruct n as [|n]; [lia|].
    replace (S n - (integral_count t + 0) + (newaxis_count t + 0))%nat with (S (n - integral_count t + newaxis_count t)) by lia.
    cbn [repeat hd tl]. rewrite IH by lia. reflexivity.
  - cbn [is_newaxis is_integral esrc] in *.
    replace (n - (integral_count t + 0) + (newaxis_count t + 1))%nat with (S (n - integral_count t + newaxis_count t)) by lia.
    cbn [repeat tl]. rewrite IH by lia. reflexivity.
  - cbn [is_newaxis is_integral esrc] in *. destruct n as [|n]; [lia|]. cbn [repeat tl spos].
    rewrite IH by lia. do 3 f_equal. lia.
Qed.

Lemma start_ok : (length ss - newaxis_count ss <= length esh)%nat -> Forall sfirst ss ->
  exists st, view_stepper_begin e esh ss = Ok st /\ vat e esh ss (repeat 0 (length (shp ss esh))) st.
Proof.
  intros Hc HF. unfold view_stepper_begin, vs_start.
  destruct (start_loop ss [] [] (length esh) (x_begin e)) as (it & E & Hat); auto.
  - destruct ss; reflexivity.
  - apply x_begin_at; assumption.
  - cbn [length] in E. rewrite E. cbn [bind app] in *. eexists. split; [reflexivity|].
    split; [apply repeat_length|]. cbn [vt_it vt_keep]. split; [|split].
    + rewrite shp_len by exact Hc. rewrite stgt_esrc in Hat by exact Hc. exact Hat.
    + apply repeat_length.
    + intros k s _ _ _. rewrite !nth_repeat. reflexivity.
Qed.

(** The loop of to_end_impl. [P]: whether the expression's stepper is at its end
    index. *)
Lemma end_loop (P : Prop) : forall t done pre rest dpre drest it keep, ss = done ++ t ->
  (length pre + newaxis_count_before ss (length done) = length done)%nat ->
  (length t - newaxis_count t <= length rest)%nat -> (length pre + length rest = length esh)%nat ->
  esh = dpre ++ drest -> length dpre = length pre ->
  Forall slast t -> length keep = length ss ->
  x_shaped e it -> (P -> x_at esh e (pre ++ rest) it) ->
  exists it' keep', for_up (fun i st =>
      if is_newaxis_slice ss i then Ok st
      else
        let* s := rd ss i in
        let* v := slice_at s (slice_size s - 1) in
        let* keep := wr (vt_keep st) i (slice_size s - 1) in
        let axis := (i - newaxis_count_before ss i)%nat in
        let* d := rd esh axis in
        let* it := s_step_back (x_ops esh e) axis (d - 1 - v) (vt_it st) in
        Ok (mk_vst it keep)) (length done) (length t) (mk_vst it keep) = Ok (mk_vst it' keep') /\
    x_shaped e it' /\ (P -> x_at esh e (pre ++ etgt t rest drest) it') /\ length keep' = length ss /\
    (forall i, (i < length done)%nat -> nth i keep' 0 = nth i keep 0) /\
    (forall i s, nth_error t i = Some s -> is_newaxis s = false -> nth (length done + i) keep' 0 = slice_size s - 1).
Proof.
  induction t as [|s t IH]; intros done pre rest dpre drest it keep E Hp Hn Hlen Hd1 Hd2 HF HK Hsh Hat; cbn [length for_up etgt].
  - exists it, keep. repeat (split; [solve [auto]|]). intros [|i] s H; discriminate.
  - assert (Es : nth_error ss (length done) = Some s) by (rewrite E; apply nth_error_mid).
    pose proof (ncb_next _ _ _ Es) as HN. rewrite nas_ok, Es. rewrite nc_cons in Hn. cbn [length] in Hn.
    inversion HF as [|? ? HF1 HF2]; subst x l. destruct (is_newaxis s) eqn:En.
    + cbn [bind]. destruct (IH (done ++ [s]) pre rest dpre drest it keep) as (it' & keep' & E' & R1 & R2 & R3 & R4 & R5); auto.
      * rewrite <- app_assoc. exact E.
      * rewrite app_length. cbn [length]. rewrite Nat.add_1_r. lia.
      * lia.
      * rewrite app_length, Nat.add_1_r in E'. exists it', keep'. split; [exact E'|].
        split; [exact R1|]. split; [exact R2|]. split; [exact R3|]. split.
        { intros i Hi. apply R4. rewrite app_length. lia. }
        intros [|i] s' H' Hn'; cbn [nth_error] in H'; [congruence|].
        rewrite <- (R5 i s' H' Hn'). f_equal. rewrite app_length. cbn. lia.
    + rewrite (rd_ok _ _ _ Es). cbn [bind]. rewrite (HF1 En). cbn [bind vt_keep vt_it].
      assert (Hi : (length done < length ss)%nat) by (apply nth_error_Some; congruence).
      rewrite wr_ok by lia. cbn [bind].
      pose proof (ic_nc_len t). destruct rest as [|b rest]; [change (length (@nil Z)) with 0%nat in Hn; clear -Hn H; lia|]. cbn [length] in Hn, Hlen.
      assert (Hdl : length drest = S (length rest)) by (rewrite Hd1, app_length in Hlen; lia).
      destruct drest as [|d drest]; [discriminate|]. cbn [hd tl].
      replace (length done - newaxis_count_before ss (length done))%nat with (length pre) by lia.
      rewrite (rd_ok esh _ d) by (rewrite Hd1, <- Hd2; apply nth_error_mid). cbn [bind].
      destruct (shaped_back esh e Hok (length pre) (d - 1 - spos s (slice_size s - 1)) it) as (it1 & E1 & S1); [lia|auto|].
      rewrite E1. cbn [bind].
      destruct (IH (done ++ [s]) (pre ++ [b - (d - 1 - spos s (slice_size s - 1))]) rest (dpre ++ [d]) drest it1
                   (upd keep (length done) (slice_size s - 1))) as (it' & keep' & E' & R1 & R2 & R3 & R4 & R5); auto.
      * rewrite <- app_assoc. exact E.
      * rewrite !app_length. cbn [length]. rewrite !Nat.add_1_r. lia.
      * lia.
      * rewrite app_length. cbn. lia.
      * rewrite <- app_assoc. exact Hd1.
      * rewrite !app_length. cbn. lia.
      * rewrite upd_length. exact HK.
      * intros HP. rewrite <- app_assoc. cbn [app].
        destruct (free_back esh e Hok pre b rest (d - 1 - spos s (slice_size s - 1)) it) as (it2 & E2 & Hat2); auto.
        { rewrite app_length. cbn [length]. lia. }
        assert (it2 = it1) by congruence. subst. exact Hat2.
      * rewrite app_length, Nat.add_1_r in E'. exists it', keep'. split; [exact E'|].
        split; [exact R1|]. split; [intros HP; specialize (R2 HP); rewrite <- app_assoc in R2; exact R2|].
        split; [exact R3|]. split.
        { intros i Hi'. rewrite R4 by (rewrite app_length; lia). apply nth_upd_other. lia. }
        intros [|i] s' H' Hn'; cbn [nth_error] in H'.
        { injection H' as <-. rewrite Nat.add_0_r. rewrite R4 by (rewrite app_length; cbn; lia). apply nth_upd_same. lia. }
        rewrite <- (R5 i s' H' Hn'). f_equal. rewrite app_length. cbn. lia.
Qed.
End Ends.
