(** Proofs for JSON input and output: shapes, containers and views. *)
From Coq Require Import List ZArith Lia Bool.
From Verif Require Import Prelude PreludeFacts Strides_Model Strides_Spec Strides_Proofs Container_Model Container_Spec Container_Proofs
  Slice_Model Slice_Spec View_Spec SView_Model SView_Spec SView_Proofs SView4_Proofs Json_Model Json_Spec Json_Proofs.
Import ListNotations.
Open Scope Z_scope.

Lemma leading_dimension {V} sh (j : json V) : leading sh j -> json_dimension j = length sh.
Proof. induction 1 as [|k l sh H IH]; cbn [json_dimension length]; congruence. Qed.

Lemma leading_shape_ok {V} sh (j : json V) : leading sh j -> is_shape sh.
Proof. induction 1; constructor; auto. lia. Qed.

Lemma upd_app {A} (a : list A) x b v : upd (a ++ x :: b) (length a) v = a ++ v :: b.
Proof. induction a; cbn; [reflexivity|]. f_equal. assumption. Qed.

Lemma leading_shape {V} sh (j : json V) : leading sh j ->
  forall a b, length b = length sh -> json_shape j (a ++ b) (length a) = Ok (a ++ sh).
Proof.
  induction 1 as [x|k l sh H IH]; intros a b Hb.
  - destruct b; [|discriminate]. reflexivity.
  - destruct b as [|y b]; [discriminate|]. cbn [json_shape]. unfold set_extent. rewrite app_length. cbn [length].
    destruct (Nat.ltb_spec (length a) (length a + S (length b))) as [_|Hx]; [|lia].
    rewrite wr_ok by (rewrite app_length; cbn; lia). cbn [bind]. rewrite upd_app.
    replace (a ++ Z.of_nat (S (length l)) :: b) with ((a ++ [Z.of_nat (S (length l))]) ++ b) by (rewrite <- app_assoc; reflexivity).
    replace (S (length a)) with (length (a ++ [Z.of_nat (S (length l))])) by (rewrite app_length; cbn; lia).
    rewrite IH by (cbn in Hb; lia). rewrite <- app_assoc. reflexivity.
Qed.

Lemma leading_shape_view {V} sh (j : json V) : leading sh j ->
  forall pos, (pos + length sh <= 4)%nat -> json_shape j [] pos = Ok [].
Proof.
  induction 1 as [x|k l sh H IH]; intros pos Hp; [reflexivity|]. cbn [json_shape]. unfold set_extent.
  cbn [length] in *. destruct (Nat.ltb_spec pos 0); [lia|]. destruct (Nat.ltb_spec pos 4); [|lia]. cbn [bind]. apply IH. lia.
Qed.

Lemma leading_shape_view_deep {V} sh (j : json V) : leading sh j ->
  forall pos, (pos <= 4)%nat -> (4 < pos + length sh)%nat -> json_shape j [] pos = UB.
Proof.
  induction 1 as [x|k l sh H IH]; intros pos Hp Hd; [cbn in Hd; lia|]. cbn [json_shape]. unfold set_extent.
  cbn [length] in *. destruct (Nat.ltb_spec pos 0); [lia|]. destruct (Nat.ltb_spec pos 4); [|reflexivity]. cbn [bind]. apply IH; lia.
Qed.

Lemma nested_leading {V} sh : forall f : list Z -> V, Forall (fun d => 0 < d) sh -> leading sh (nested f sh).
Proof.
  induction sh as [|n sh IH]; intros f H; cbn [nested]; [constructor|]. inversion H as [|? ? Hn Hs]; subst.
  destruct (Z.to_nat n) as [|m] eqn:E; [lia|]. cbn [seq map].
  replace n with (Z.of_nat (S (length (map (fun i : nat => nested (fun ix : list Z => f (Z.of_nat i :: ix)) sh) (seq 1 m))))).
  - constructor. apply IH. exact Hs.
  - rewrite map_length, seq_length. lia.
Qed.

Lemma positive_shape sh : Forall (fun d => 0 < d) sh -> is_shape sh.
Proof. apply Forall_impl. intros; lia. Qed.

Lemma consistent_writable {V} (c : cont V) : consistent c -> writable (of_cont c) c.
Proof.
  intros Hc. split; [reflexivity|]. unfold of_cont, x_elem. cbn. split.
  - intros ix Hix. eexists. split; [reflexivity|]. rewrite Z.add_0_l. apply consistent_accesses; assumption.
  - intros ix jx Hi Hj E. injection E as E. destruct Hc as (_ & _ & _ & _ & l & Hl & _ & Hr).
    rewrite !Hr in E by assumption. eapply rank_inj; eauto.
Qed.

Lemma stored_elt {V} (c : cont V) ix : stored c (x_elem (of_cont c) ix) = elt c ix.
Proof. unfold of_cont, x_elem, stored, elt. cbn. rewrite Z.add_0_l. reflexivity. Qed.

Section Containers.
Context {V : Type}.
Variables (T SL DL : layout) (junk : list Z -> list Z) (rs : list V -> Z -> list V).
Hypotheses (HT : T = row_major \/ T = column_major) (Hrs : forall d n, 0 <= n -> Z.of_nat (length (rs d n)) = n).

Lemma from_json_lemma (c : cont V) sh f j : consistent c -> (SL <> dynamic -> ct_layout c = SL) -> leading sh j -> contains f sh j ->
  exists c', from_json T junk SL DL rs j c = Ok c' /\ consistent c' /\ ct_shape c' = sh /\
    (is_order (ct_layout c) -> ct_layout c' = ct_layout c) /\
    forall ix, in_bounds sh ix -> elt c' ix = Ok (f ix).
Proof.
  intros Hc Hl Hlead Hj. unfold from_json. rewrite (leading_dimension _ _ Hlead).
  pose proof (leading_shape _ _ Hlead [] (repeat 0 (length sh)) (repeat_length _ _)) as E. cbn [app length] in E. rewrite E. cbn [bind].
  destruct (resize_lemma V SL DL rs c sh false Hrs Hc Hl (leading_shape_ok _ _ Hlead)) as (c1 & E1 & C1 & S1 & _ & L1).
  rewrite E1. cbn [bind]. rewrite S1.
  destruct (from_json_impl_ok T junk (of_cont c1) HT (consistent_wf c1 C1) sh [] [] f j c1) as (c2 & E2 & F2 & G2 & _).
  - cbn. exact S1.
  - constructor.
  - apply consistent_writable. exact C1.
  - exact Hj.
  - exists c2. split; [exact E2|]. destruct F2 as (F1 & F2 & F3 & F4 & F5).
    assert (C2 : consistent c2).
    { destruct C1 as (D1 & D2 & D3 & D4 & D5). unfold consistent. rewrite F1, F2, F3, F4, F5. auto. }
    split; [exact C2|]. split; [congruence|]. split; [intros Ho; rewrite F4; auto|].
    intros ix Hix. rewrite <- stored_elt. rewrite <- (G2 ix Hix). cbn [app]. unfold of_cont. rewrite F1, F2, F4. reflexivity.
Qed.

Lemma to_json_container (c : cont V) (f : list Z -> V) : consistent c -> (forall ix, in_bounds (ct_shape c) ix -> elt c ix = Ok (f ix)) ->
  to_json T junk (of_cont c) (stored c) = Ok (nested f (ct_shape c)).
Proof.
  intros Hc Hf. apply (to_json_ok T junk (of_cont c) (stored c) HT (consistent_wf c Hc)).
  intros ix Hix. rewrite stored_elt. apply Hf. exact Hix.
Qed.

Lemma consistent_elements (c : cont V) : consistent c -> forall x0 : V, exists f, forall ix, in_bounds (ct_shape c) ix -> elt c ix = Ok (f ix).
Proof.
  intros Hc x0. exists (fun ix => match elt c ix with Ok x => x | _ => x0 end). intros ix Hix.
  pose proof (consistent_accesses c Hc ix Hix) as H. unfold elt.
  destruct (nth_error_lt_ex (ct_data c) (Z.to_nat (element_offset (ct_strides c) ix)) ltac:(lia)) as (y & Hy).
  rewrite (rdz_ok _ _ y (proj1 H) Hy). reflexivity.
Qed.

Lemma round_trip_lemma (c c0 : cont V) : consistent c -> consistent c0 -> (SL <> dynamic -> ct_layout c0 = SL) ->
  Forall (fun d => 0 < d) (ct_shape c) ->
  exists j c', to_json T junk (of_cont c) (stored c) = Ok j /\ from_json T junk SL DL rs j c0 = Ok c' /\
    consistent c' /\ ct_shape c' = ct_shape c /\ forall ix, in_bounds (ct_shape c) ix -> elt c' ix = elt c ix.
Proof.
  intros Hc Hc0 Hl Hp.
  destruct (ct_data c) as [|x0 d] eqn:Ed.
  { exfalso. destruct Hc as (H1 & _ & _ & H4 & _). rewrite Ed in H4. cbn in H4. clear -Hp H4.
    assert (H : 0 < prod (ct_shape c)); [|lia]. clear H4. induction Hp; [reflexivity|]. cbn [prod fold_right] in *. apply Z.mul_pos_pos; assumption. }
  destruct (consistent_elements c Hc x0) as (f & Hf).
  exists (nested f (ct_shape c)).
  destruct (from_json_lemma c0 (ct_shape c) f (nested f (ct_shape c)) Hc0 Hl (nested_leading _ _ Hp)
    (nested_contains _ f (positive_shape _ Hp))) as (c' & E & C & S1 & _ & G).
  exists c'. split; [apply to_json_container; assumption|]. split; [exact E|]. split; [exact C|]. split; [exact S1|].
  intros ix Hix. rewrite Hf by exact Hix. apply G. exact Hix.
Qed.

(** An array without elements *)
Lemma empty_dimension a : forall b (f : list Z -> V), Forall (fun d => 0 < d) a -> json_dimension (nested f (a ++ 0 :: b)) = length a.
Proof.
  induction a as [|n a IH]; intros b f H; cbn [app nested length]; [reflexivity|]. inversion H as [|? ? Hn Ha]; subst.
  destruct (Z.to_nat n) as [|m] eqn:E; [lia|]. cbn [seq map json_dimension]. f_equal. apply IH. exact Ha.
Qed.
Lemma empty_shape a : forall b (f : list Z -> V) s q, Forall (fun d => 0 < d) a -> length q = length a ->
  json_shape (nested f (a ++ 0 :: b)) (s ++ q) (length s) = if (length s + length a <? 4)%nat then Ok (s ++ a) else UB.
Proof.
  induction a as [|n a IH]; intros b f s q H Hq.
  - destruct q; [|discriminate]. cbn [app nested json_shape map seq Z.to_nat]. unfold set_extent. rewrite app_nil_r.
    rewrite Nat.ltb_irrefl. cbn [length]. rewrite Nat.add_0_r. destruct (length s <? 4)%nat; reflexivity.
  - inversion H as [|? ? Hn Ha]; subst. destruct q as [|y q]; [discriminate|]. cbn [app nested].
    destruct (Z.to_nat n) as [|m] eqn:E; [lia|]. cbn [seq map json_shape]. unfold set_extent. rewrite app_length. cbn [length].
    rewrite map_length, seq_length.
    destruct (Nat.ltb_spec (length s) (length s + S (length q))) as [_|Hx]; [|lia].
    rewrite wr_ok by (rewrite app_length; cbn; lia). cbn [bind]. rewrite upd_app.
    replace (Z.of_nat (S m)) with n by lia.
    replace (s ++ n :: q) with ((s ++ [n]) ++ q) by (rewrite <- app_assoc; reflexivity).
    replace (S (length s)) with (length (s ++ [n])) by (rewrite app_length; cbn; lia).
    rewrite IH by (auto; cbn in Hq; lia). rewrite app_length, <- app_assoc. cbn [length app].
    replace (length s + 1 + length a)%nat with (length s + S (length a))%nat by lia. reflexivity.
Qed.
Lemma empty_fill e (He : wf_exp e) a : forall a1 p b (f : list Z -> V) c, x_shape e = a1 ++ a -> in_bounds a1 p ->
  Forall (fun d => 0 < d) a ->
  from_json_impl T junk e (S (length a)) p (nested f (a ++ 0 :: b)) c = Throw invalid_argument.
Proof.
  induction a as [|n a IH]; intros a1 p b f c Hs Hp H.
  - destruct (prefix_view T e (junk p) a1 [] p HT He Hs Hp) as (v & E & Hv & _).
    cbn [from_json_impl length]. rewrite E. cbn [bind]. rewrite Hv. reflexivity.
  - destruct (prefix_view T e (junk p) a1 (n :: a) p HT He Hs Hp) as (v & E & Hv & _).
    inversion H as [|? ? Hn Ha]; subst.
    cbn [length]. remember (S (length a)) as k eqn:Hk. cbn [from_json_impl]. subst k. rewrite E. cbn [bind]. rewrite Hv.
    cbn [app nested]. destruct (Z.to_nat n) as [|m] eqn:En; [lia|]. cbn [seq map for_up j_at nth_error bind].
    rewrite (IH (a1 ++ [n])); [reflexivity| | |exact Ha].
    + rewrite <- app_assoc. exact Hs.
    + apply in_bounds_app; [exact Hp|]. constructor; [lia|constructor].
Qed.
Lemma empty_lemma (c : cont V) a b f : consistent c -> (SL <> dynamic -> ct_layout c = SL) -> Forall (fun d => 0 < d) a ->
  from_json T junk SL DL rs (nested f (a ++ 0 :: b)) c = if (length a <? 4)%nat then Throw invalid_argument else UB.
Proof.
  intros Hc Hl Ha. unfold from_json. rewrite empty_dimension by exact Ha.
  pose proof (empty_shape a b f [] (repeat 0 (length a)) Ha (repeat_length _ _)) as E. cbn [app length Nat.add] in E. rewrite E.
  destruct (length a <? 4)%nat; [|reflexivity]. cbn [bind].
  destruct (resize_lemma V SL DL rs c a false Hrs Hc Hl (positive_shape _ Ha)) as (c1 & E1 & C1 & S1 & _ & _).
  rewrite E1. cbn [bind]. rewrite S1. apply (empty_fill (of_cont c1) (consistent_wf c1 C1) a [] []); [exact S1|constructor|exact Ha].
Qed.

(** Views *)
Lemma from_json_view_lemma (c : cont V) e sh f j : wf_exp e -> writable e c -> leading sh j -> (length sh <= 4)%nat ->
  contains f (x_shape e) j ->
  exists c', from_json_view T junk j e c = Ok c' /\ same_frame c c' /\
    (forall ix, in_bounds (x_shape e) ix -> stored c' (x_elem e ix) = Ok (f ix)) /\
    (forall q, (forall ix, in_bounds (x_shape e) ix -> x_elem e ix <> Slot q) -> stored c' (Slot q) = stored c (Slot q)).
Proof.
  intros He Hw Hlead Hlen Hj. unfold from_json_view. rewrite (leading_shape_view _ _ Hlead 0 Hlen). cbn [bind std_equal negb].
  apply (from_json_impl_ok T junk e HT He (x_shape e) [] [] f j c); [reflexivity|constructor|exact Hw|exact Hj].
Qed.
Lemma from_json_view_deep (c : cont V) e sh j : leading sh j -> (4 < length sh)%nat -> from_json_view T junk j e c = UB.
Proof. intros Hlead Hlen. unfold from_json_view. rewrite (leading_shape_view_deep _ _ Hlead 0) by lia. reflexivity. Qed.
End Containers.
