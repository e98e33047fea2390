(** Proofs for JSON input and output. *)
From Coq Require Import List ZArith Lia Bool.
From Verif Require Import Prelude PreludeFacts Strides_Model Strides_Spec Strides_Proofs Container_Model Container_Spec Container_Proofs
  Slice_Model Slice_Spec View_Spec SView_Model SView_Spec SView_Proofs SView4_Proofs Manip5_Proofs Json_Model Json_Spec.
Import ListNotations.
Open Scope Z_scope.

(** * The view of the leading indices *)
Lemma expand_picks d p : expand d (picks p) = map UInt p.
Proof.
  unfold expand. generalize (d - consumed (picks p))%nat as k. intros k.
  unfold picks. induction p as [|i p IH]; [reflexivity|]. cbn [map flat_map app]. f_equal. exact IH.
Qed.
Lemma ellipses_picks p : ellipses (picks p) = 0%nat.
Proof. unfold ellipses, picks. induction p as [|i p IH]; [reflexivity|exact IH]. Qed.
Lemma valid_picks a p : in_bounds a p -> forall b, valid false (map UInt p) (a ++ b).
Proof.
  induction 1 as [|d i a p Hi H IH]; intros b; cbn [map app]; [apply va_rest|].
  apply va_int; [exact Hi|apply IH].
Qed.
Lemma shape_picks a p : in_bounds a p -> forall b, view_shape (map UInt p) (a ++ b) b.
Proof.
  induction 1 as [|d i a p Hi H IH]; intros b; cbn [map app]; [apply vs_rest|]. apply vs_int. apply IH.
Qed.
Lemma source_picks a p : in_bounds a p -> forall b ix jx, source_index (map UInt p) (a ++ b) ix jx -> jx = p ++ ix.
Proof.
  induction 1 as [|d i a p Hi H IH]; intros b ix jx Hs; cbn [map app] in *.
  - inversion Hs; subst; reflexivity.
  - inversion Hs; subst. unfold from_end. destruct (Z.ltb_spec i 0) as [H0|H0]; [lia|]. f_equal. eapply IH; eauto.
Qed.

Lemma prefix_view T e junk a b p : T = row_major \/ T = column_major -> wf_exp e -> x_shape e = a ++ b -> in_bounds a p ->
  exists v, strided_view T e (picks p) junk = Ok v /\ w_shape v = b /\
    forall ix, in_bounds b ix -> w_call v ix = Ok (x_elem e (p ++ ix)).
Proof.
  intros HT He Hs Hp.
  destruct (strided_view_lemma T e (picks p) junk HT He) as (v & E & H1 & _ & _ & H2 & _).
  - rewrite ellipses_picks. lia.
  - rewrite expand_picks, Hs. apply valid_picks. exact Hp.
  - rewrite expand_picks, Hs in H1. exists v. split; [exact E|].
    assert (Hw : w_shape v = b) by (eapply view_shape_fun; [apply shape_picks; exact Hp|exact H1]).
    split; [exact Hw|]. intros ix Hix. rewrite Hw in H2. destruct (H2 ix Hix) as (jx & J1 & _ & J2 & _).
    rewrite expand_picks, Hs in J1. rewrite J2. f_equal. f_equal. eapply source_picks; eauto.
Qed.

(** * Writing *)
Lemma nested_ext {V} sh : forall (f g : list Z -> V), (forall ix, in_bounds sh ix -> f ix = g ix) -> nested f sh = nested g sh.
Proof.
  induction sh as [|n sh IH]; intros f g H; cbn [nested].
  - f_equal. apply H. constructor.
  - f_equal. apply map_ext_in. intros i Hi. apply in_seq in Hi. apply IH. intros ix Hix. apply H. constructor; [lia|exact Hix].
Qed.

Lemma in_bounds_app a p b q : in_bounds a p -> in_bounds b q -> in_bounds (a ++ b) (p ++ q).
Proof. intros. apply Forall2_app; assumption. Qed.

Section Writing.
Context {V : Type}.
Variables (T : layout) (junk : list Z -> list Z) (e : xexp) (value : cell -> res V).
Hypotheses (HT : T = row_major \/ T = column_major) (He : wf_exp e).

Lemma to_json_impl_ok b : forall a p (f : list Z -> V), x_shape e = a ++ b -> in_bounds a p ->
  (forall ix, in_bounds b ix -> value (x_elem e (p ++ ix)) = Ok (f ix)) ->
  to_json_impl T junk e value (S (length b)) p = Ok (nested f b).
Proof.
  induction b as [|n b IH]; intros a p f Hs Hp Hf.
  - destruct (prefix_view T e (junk p) a [] p HT He Hs Hp) as (v & E & Hw & Hc).
    cbn [to_json_impl length]. rewrite E. cbn [bind]. rewrite Hw, (Hc []) by constructor. cbn [bind].
    rewrite (Hf []) by constructor. cbn [bind nested]. reflexivity.
  - destruct (prefix_view T e (junk p) a (n :: b) p HT He Hs Hp) as (v & E & Hw & Hc).
    cbn [length]. remember (S (length b)) as k eqn:Hk. cbn [to_json_impl]. subst k. rewrite E. cbn [bind]. rewrite Hw.
    destruct (for_up_inv (fun i l => l = map (fun i => nested (fun ix => f (Z.of_nat i :: ix)) b) (seq 0 i))
      (fun i l => let* k := to_json_impl T junk e value (S (length b)) (p ++ [Z.of_nat i]) in Ok (l ++ [k])) 0 (Z.to_nat n) [])
      as (l & El & Hl).
    + reflexivity.
    + intros i l Hi ->. rewrite (IH (a ++ [n]) (p ++ [Z.of_nat i]) (fun ix => f (Z.of_nat i :: ix))).
      * cbn [bind]. eexists. split; [reflexivity|]. rewrite seq_S, map_app. reflexivity.
      * rewrite <- app_assoc. exact Hs.
      * apply in_bounds_app; [exact Hp|]. constructor; [lia|constructor].
      * intros ix Hix. rewrite <- app_assoc. apply Hf. constructor; [lia|exact Hix].
    + rewrite El. cbn [bind nested]. rewrite Hl. reflexivity.
Qed.

Lemma to_json_ok (f : list Z -> V) : (forall ix, in_bounds (x_shape e) ix -> value (x_elem e ix) = Ok (f ix)) ->
  to_json T junk e value = Ok (nested f (x_shape e)).
Proof. intros H. apply (to_json_impl_ok (x_shape e) [] []); [reflexivity|constructor|exact H]. Qed.
End Writing.

(** * Reading *)
Section Reading.
Context {V : Type}.
Variables (T : layout) (junk : list Z -> list Z) (e : xexp).
Hypotheses (HT : T = row_major \/ T = column_major) (He : wf_exp e).

Lemma writable_frame (c c' : cont V) : same_frame c c' -> writable e c -> writable e c'.
Proof. intros (_ & _ & _ & _ & H) (W0 & W1 & W2). split; [exact W0|]. split; [|exact W2]. intros ix Hix. rewrite H. auto. Qed.

Lemma assign_slot (v : sview) p x (c : cont V) : w_call v [] = Ok (Slot p) -> 0 <= p < Z.of_nat (length (ct_data c)) ->
  exists c', w_assign v [] x c = Ok c' /\ same_frame c c' /\ stored c' (Slot p) = Ok x /\
    forall q, q <> p -> stored c' (Slot q) = stored c (Slot q).
Proof.
  intros E Hp. unfold w_assign. rewrite E. cbn [bind]. rewrite wrz_ok by exact Hp. cbn [bind].
  eexists. split; [reflexivity|]. split; [|split].
  - unfold same_frame. cbn. rewrite upd_length. auto.
  - cbn. apply rdz_ok; [lia|]. rewrite nth_error_upd_same by lia. reflexivity.
  - intros q Hq. cbn. unfold rdz. destruct (Z.ltb_spec q 0); [reflexivity|].
    unfold rd. rewrite nth_error_upd_other by lia. reflexivity.
Qed.

Lemma from_json_impl_ok b : forall a p (f : list Z -> V) j c, x_shape e = a ++ b -> in_bounds a p -> writable e c ->
  contains f b j ->
  exists c', from_json_impl T junk e (S (length b)) p j c = Ok c' /\ same_frame c c' /\
    (forall ix, in_bounds b ix -> stored c' (x_elem e (p ++ ix)) = Ok (f ix)) /\
    (forall q, (forall ix, in_bounds b ix -> x_elem e (p ++ ix) <> Slot q) -> stored c' (Slot q) = stored c (Slot q)).
Proof.
  induction b as [|n b IH]; intros a p f j c Hs Hp Hw Hj.
  - destruct (prefix_view T e (junk p) a [] p HT He Hs Hp) as (v & E & Hv & Hc).
    cbn [from_json_impl length]. rewrite E. cbn [bind]. rewrite Hv. inversion Hj; subst. cbn [j_get bind].
    specialize (Hc [] ltac:(constructor)). destruct Hw as (W0 & W1 & W2).
    destruct (W1 (p ++ [])) as (q & Q1 & Q2). { rewrite Hs. apply in_bounds_app; [exact Hp|constructor]. }
    rewrite Q1 in Hc. destruct (assign_slot v q (f []) c Hc Q2) as (c' & A1 & A2 & A3 & A4).
    exists c'. split; [exact A1|]. split; [exact A2|]. split.
    + intros ix Hix. inversion Hix; subst. rewrite Q1. exact A3.
    + intros q' Hq'. apply A4. intros ->. apply (Hq' [] ltac:(constructor)). exact Q1.
  - destruct (prefix_view T e (junk p) a (n :: b) p HT He Hs Hp) as (v & E & Hv & Hc).
    cbn [length]. remember (S (length b)) as k eqn:Hk. cbn [from_json_impl]. subst k. rewrite E. cbn [bind]. rewrite Hv.
    inversion Hj as [|? ? ? l Hrows]; subst.
    destruct (for_up_inv (fun i c1 => same_frame c c1 /\
        (forall k ix, 0 <= k < Z.of_nat i -> in_bounds b ix -> stored c1 (x_elem e (p ++ k :: ix)) = Ok (f (k :: ix))) /\
        (forall q, (forall ix, in_bounds (n :: b) ix -> x_elem e (p ++ ix) <> Slot q) -> stored c1 (Slot q) = stored c (Slot q)))
      (fun i c => let* k := j_at (JArr l) i in from_json_impl T junk e (S (length b)) (p ++ [Z.of_nat i]) k c) 0 (Z.to_nat n) c)
      as (c' & El & Hl1 & Hl2 & Hl3).
    + split; [unfold same_frame; auto|]. split; [intros k ix Hk; lia|]. intros q _. reflexivity.
    + intros i c1 Hi (I1 & I2 & I3). destruct (Hrows i) as (k & K1 & K2); [lia|]. cbn [j_at]. rewrite K1. cbn [bind].
      destruct (IH (a ++ [n]) (p ++ [Z.of_nat i]) (fun ix => f (Z.of_nat i :: ix)) k c1) as (c2 & E2 & F2 & G2 & H2).
      * rewrite <- app_assoc. exact Hs.
      * apply in_bounds_app; [exact Hp|]. constructor; [lia|constructor].
      * eapply writable_frame; eauto.
      * exact K2.
      * exists c2. split; [exact E2|].
        assert (Hfr : same_frame c c2).
        { destruct I1 as (? & ? & ? & ? & ?), F2 as (? & ? & ? & ? & ?). unfold same_frame. repeat split; congruence. }
        split; [exact Hfr|]. split.
        -- intros m ix Hm Hix. destruct (Z.eq_dec m (Z.of_nat i)) as [->|Hne].
           ++ specialize (G2 ix Hix). rewrite <- app_assoc in G2. exact G2.
           ++ rewrite <- (I2 m ix) by (auto; lia).
              assert (Hb : in_bounds (x_shape e) (p ++ m :: ix)).
              { rewrite Hs. apply in_bounds_app; [exact Hp|]. constructor; [lia|exact Hix]. }
              destruct Hw as (W0 & W1 & W2). destruct (W1 _ Hb) as (q & Q1 & Q2). rewrite Q1. apply H2.
              intros ix2 Hix2 Heq. rewrite <- app_assoc in Heq. cbn [app] in Heq.
              assert (X : p ++ Z.of_nat i :: ix2 = p ++ m :: ix).
              { apply W2; [|exact Hb|congruence]. rewrite Hs. apply in_bounds_app; [exact Hp|]. constructor; [lia|exact Hix2]. }
              apply app_inv_head in X. injection X as X _. congruence.
        -- intros q Hq. rewrite <- (I3 q Hq). apply H2. intros ix Hix. rewrite <- app_assoc. apply Hq. constructor; [lia|exact Hix].
    + exists c'. split; [exact El|]. split; [exact Hl1|]. split; [|exact Hl3].
      intros ix Hix. inversion Hix as [|? k ? ix' Hk Hix']; subst. apply Hl2; [lia|exact Hix'].
Qed.

Lemma nested_contains sh : forall f : list Z -> V, is_shape sh -> contains f sh (nested f sh).
Proof.
  induction sh as [|n sh IH]; intros f Hsh; cbn [nested]; constructor.
  intros i Hi. eexists. split.
  - rewrite nth_error_map. rewrite nth_error_nth' with (d := 0%nat) by (rewrite seq_length; lia).
    rewrite seq_nth by lia. reflexivity.
  - apply IH. inversion Hsh; assumption.
Qed.
End Reading.
