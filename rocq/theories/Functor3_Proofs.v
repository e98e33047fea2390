From Coq Require Import List ZArith Lia Bool Arith.
From Verif Require Import Prelude PreludeFacts Strides_Model Strides_Spec Strides_Proofs Layout_Model Broadcast_Model Broadcast_Spec Broadcast_Proofs Broadcast2_Proofs
  Slice_Model Stepper_Model Stepper_Spec Stepper_Proofs Stepper4_Proofs Container_Model Container_Spec Container_Proofs
  Assign_Model Assign_Spec Semantic_Model Semantic_Spec Semantic_Proofs Semantic2_Proofs Semantic3_Proofs Semantic4_Proofs Semantic5_Proofs
  Reduce_Spec Reduce13_Proofs Functor_Model Functor_Spec Functor_Proofs Functor2_Proofs.
From Verif Require Reshape_Proofs.
Import ListNotations.
Open Scope Z_scope.

(** ** Containers of complex numbers *)

Lemma elt_position {V} SL D (a : cont V) ix : well_formed SL D a -> in_bounds (ct_shape a) ix -> elt a ix = rdz (ct_data a) (position (c_strided a) ix).
Proof. intros Hw Hb. unfold elt, position. erewrite dot_element by eassumption. reflexivity. Qed.

Lemma wf_direction {V} SL D (a : cont V) : well_formed SL D a -> prod (ct_shape a) <> 0 -> one_direction (c_strided a).
Proof.
  intros (Hs & (Hst & _ & Hj) & _ & _ & _ & _ & _ & l & Hl & _ & Hr) H0. left. cbn in *.
  apply Forall_forall. intros s Hin. apply In_nth with (d := 0) in Hin. destruct Hin as (j & Hlt & <-). rewrite Hst in Hlt.
  destruct (Hj j Hlt) as [H1 _].
  assert (Hpos : Forall (fun d => 0 < d) (ct_shape a)).
  { clear - Hs H0. induction Hs as [|d sh Hd Hs IH]; [constructor|]. rewrite prod_cons in H0. constructor; [assert (d <> 0) by (intros ->; lia); lia|apply IH; intros E; rewrite E in H0; lia]. }
  destruct (Z.eq_dec (nth j (ct_shape a) 0) 1) as [E|E]; [rewrite H1 by exact E; lia|].
  set (ix := upd (repeat 0 (length (ct_shape a))) j 1).
  assert (Hb : in_bounds (ct_shape a) ix).
  { unfold ix. clear - Hpos E Hlt. revert j Hlt E. induction Hpos as [|d sh Hd Hp IH]; intros j Hlt E; [cbn in Hlt; lia|].
    destruct j; cbn [length repeat upd].
    - constructor; [cbn in E; lia|]. clear - Hp. induction Hp; cbn; constructor; auto; lia.
    - constructor; [lia|]. apply IH; [cbn in Hlt; lia|exact E]. }
  pose proof (Hr ix Hb) as Er. pose proof (rank_bound l _ _ Hb) as B.
  assert (Ed : dot ix (ct_strides a) = nth j (ct_strides a) 0).
  { unfold ix. clear - Hst Hlt. revert j Hlt Hst. generalize (ct_strides a) as st. induction (ct_shape a) as [|d sh IH]; intros st j Hlt Hst; [cbn in Hlt; lia|].
    destruct st as [|s st]; [cbn in Hst; lia|]. destruct j; cbn [length repeat upd dot nth].
    - assert (dot (repeat 0 (length sh)) st = 0) as ->; [|lia]. clear. generalize (length sh). intros n. revert st. induction n; intros [|s st]; cbn; auto. rewrite IHn. lia.
    - rewrite IH by (cbn in *; lia). lia. }
  lia.
Qed.

Lemma parts_assigned {M} SL D (a : cont (M * M)) re im (acc : accessor (M * M) M) f v mem' : well_formed SL D a -> parts a re im -> contents (ct_data a) v ->
  assigned acc (c_strided a) f v (ct_data a) mem' ->
  (acc = real_part M -> parts (with_data a mem') f im) /\ (acc = imag_part M -> parts (with_data a mem') re f).
Proof.
  intros Hw Hp Hv (Hl & H1 & _).
  assert (G : forall ix, in_bounds (ct_shape a) ix -> elt (with_data a mem') ix = Ok (acc_put acc (re ix, im ix) (f ix))).
  { intros ix Hb. pose proof (wf_writable SL D a Hw) as (_ & _ & W3 & _).
    assert (Hw' : well_formed SL D (with_data a mem')) by (apply wf_with_data; assumption).
    rewrite (elt_position SL D) by assumption. change (c_strided (with_data a mem')) with (c_strided a). cbn [with_data ct_data].
    rewrite (H1 ix Hb). do 2 f_equal. pose proof (Hp ix Hb) as E. rewrite (elt_position SL D) in E by assumption.
    rewrite (Hv _ (W3 ix Hb)) in E. injection E as ->. reflexivity. }
  split; intros -> ix Hb; rewrite (G ix Hb); reflexivity.
Qed.

(** ** Adaptors *)

Section Adaptor.
  Context {T M : Type} (SL : layout) (D : option nat) (DL DT : layout) (rs : list T -> Z -> list T) (a : accessor T M).
  Hypothesis HSL : is_order SL.
  Hypothesis HDL : is_order DL.
  Hypothesis HDT : is_order DT.
  Hypothesis Hrs : resizes rs.

  Lemma ad_shape_ok (e : adx M) sh f : ad_wf e -> ad_value e sh f -> ad_shape e = Ok sh.
  Proof.
    destruct e as [b|g b1 b2]; cbn [ad_wf ad_value ad_shape].
    - intros _ (-> & _). reflexivity.
    - intros [[_ R1] [_ R2]] (Hb & _).
      destruct (rhs_shape_ok (AFun (fun _ => tt) [AIndexed (ct_shape b1) (fun _ _ => tt); AIndexed (ct_shape b2) (fun _ _ => tt)])) as [H _].
      { repeat constructor; assumption. }
      destruct H as (sh' & t & E & Hb' & _).
      { apply (fits_compatible _ sh). intros s Hs. eapply broadcast_fits; [exact Hb|]. exact Hs. }
      cbn [rhs_shape map a_expr] in E. rewrite E. cbn [bind]. f_equal. exact (broadcast_of_unique _ _ _ _ (fun s => iff_refl _) Hb' Hb).
  Qed.

  Lemma ad_at_ok (e : adx M) sh f ix : ad_wf e -> ad_value e sh f -> in_bounds sh ix -> ad_at e ix = Ok (f ix).
  Proof.
    destruct e as [b|g b1 b2]; cbn [ad_wf ad_value ad_at].
    - intros [Hw _] (-> & H) Hb. apply H. exact Hb.
    - intros [[W1 _] [W2 _]] (Hbr & H) Hb. destruct (H ix Hb) as (x & y & E1 & E2 & ->).
      assert (G : forall b : cont M, well_formed (ct_layout b) None b -> fits (ct_shape b) sh ->
                rdz (ct_data b) (element_offset (ct_strides b) ix) = elt b (bc_index (ct_shape b) ix)).
      { intros b Hw Hf. pose proof Hw as (_ & Hst & _). pose proof (element_offset_bc (c_strided b) sh ix Hst Hf Hb) as E.
        unfold fv_pos in E. cbn [c_strided k_begin k_strides k_shape] in E. rewrite Z.add_0_l in E. rewrite E.
        rewrite (elt_position (ct_layout b) None) by (try assumption; destruct Hf; eapply bc_index_in_bounds; eassumption). reflexivity. }
      rewrite (G b1) by first [assumption|eapply broadcast_fits; [exact Hbr|left; reflexivity]].
      rewrite (G b2) by first [assumption|eapply broadcast_fits; [exact Hbr|right; left; reflexivity]].
      rewrite E1, E2. reflexivity.
  Qed.

  Lemma layout_pair l1 l2 l : is_order l -> l1 <> any -> l2 <> any -> lay (compute_layout [l1; l2]) = l -> l1 = l /\ l2 = l.
  Proof. intros [ -> | -> ] H1 H2; destruct l1, l2; cbn; intros E; try discriminate; try congruence; auto. Qed.

  (** Elements in the order of the storage *)
  Lemma wf_order {V} (b : cont V) SL' D' l : well_formed SL' D' b -> ct_layout b = l -> is_order l -> forall ix, in_bounds (ct_shape b) ix ->
    elt b ix = rdz (ct_data b) (rank l (ct_shape b) ix).
  Proof.
    intros Hw El Ho ix Hb. rewrite (elt_position SL' D') by assumption. destruct Hw as (_ & _ & _ & _ & _ & _ & _ & l' & _ & Hl & Hr).
    unfold position. cbn [c_strided k_begin k_strides]. rewrite Hr by exact Hb. rewrite Hl by (rewrite El; exact Ho). rewrite El. reflexivity.
  Qed.

  Lemma rdz_nat {A} (l : list A) z : 0 <= z -> rdz l z = rd l (Z.to_nat z).
  Proof. intros H. unfold rdz. destruct (Z.ltb_spec z 0); [lia|reflexivity]. Qed.

  Lemma ad_linear_ok (e : adx M) sh f ix : ad_wf e -> ad_value e sh f -> ad_layout e = SL -> ad_same SL e sh -> in_bounds sh ix ->
    ad_linear e (Z.to_nat (rank SL sh ix)) = Ok (f ix).
  Proof.
    intros Hw Hval El Hs Hb. pose proof (rank_bound SL sh ix Hb) as B.
    destruct e as [b|g b1 b2]; cbn [ad_wf ad_value ad_layout ad_same ad_linear] in *.
    - destruct Hw as [Hw _], Hval as (-> & H). rewrite <- rdz_nat by lia. rewrite <- (H ix Hb). symmetry. eapply wf_order; eauto.
    - destruct Hw as [[W1 _] [W2 _]], Hval as (Hbr & H). specialize (Hs El) as [S1 S2].
      pose proof W1 as (_ & _ & _ & _ & A1 & _). pose proof W2 as (_ & _ & _ & _ & A2 & _).
      destruct (layout_pair _ _ _ HSL A1 A2 El) as [L1 L2].
      destruct (H ix Hb) as (x & y & E1 & E2 & ->). rewrite S1 in E1. rewrite S2 in E2. rewrite bc_index_self in E1, E2 by exact Hb.
      rewrite <- !rdz_nat by lia.
      pose proof (wf_order b1 _ _ SL W1 L1 HSL ix) as O1. pose proof (wf_order b2 _ _ SL W2 L2 HSL ix) as O2. rewrite S1 in O1. rewrite S2 in O2.
      rewrite <- O1, <- O2 by exact Hb. rewrite E1, E2. reflexivity.
  Qed.
  Lemma ad_count_ok (e : adx M) sh f : ad_wf e -> ad_value e sh f -> ad_layout e = SL -> ad_same SL e sh -> Z.of_nat (ad_count e) = prod sh.
  Proof.
    intros Hw Hval El Hs. destruct e as [b|g b1 b2]; cbn [ad_wf ad_value ad_layout ad_same ad_count] in *.
    - destruct Hw as [(_ & _ & H & _) _], Hval as (-> & _). exact H.
    - destruct Hw as [[(_ & _ & H & _) _] _]. destruct (Hs El) as [S1 _]. rewrite <- S1. exact H.
  Qed.

  (** The loop over both storages *)
  Lemma linear_loop e (d : list T) (h : nat -> T) : (length d = ad_count e)%nat ->
    (forall k, (k < ad_count e)%nat -> exists m, ad_linear e k = Ok m) ->
    (forall k, (k < ad_count e)%nat -> rd d k = Ok (h k)) ->
    exists d', for_up (fun k d => let* v := ad_linear e k in let* t := rd d k in wr d k (acc_put a t v)) 0 (ad_count e) d = Ok d' /\
      length d' = length d /\ forall k m, (k < ad_count e)%nat -> ad_linear e k = Ok m -> rd d' k = Ok (acc_put a (h k) m).
  Proof.
    intros Hl Hm Hh.
    destruct (for_up_inv (fun i d1 => length d1 = length d /\ (forall k m, (k < i)%nat -> ad_linear e k = Ok m -> rd d1 k = Ok (acc_put a (h k) m)) /\
                (forall k, (i <= k < ad_count e)%nat -> rd d1 k = Ok (h k)))
              (fun k d => let* v := ad_linear e k in let* t := rd d k in wr d k (acc_put a t v)) 0 (ad_count e) d) as (d' & E & H1 & H2 & _).
    - split; [reflexivity|]. split; [intros; lia|]. intros k Hk. apply Hh. lia.
    - intros i d1 Hi (I1 & I2 & I3). destruct (Hm i ltac:(lia)) as (m & Em). rewrite Em. cbn [bind]. rewrite (I3 i) by lia. cbn [bind].
      rewrite wr_ok by lia. eexists. split; [reflexivity|]. split; [rewrite upd_length; exact I1|]. split.
      + intros k m' Hk Ek. destruct (Nat.eq_dec k i) as [->|Hne].
        * rewrite Em in Ek. injection Ek as ->. apply rd_ok. apply nth_error_upd_same. lia.
        * unfold rd. rewrite nth_error_upd_other by lia. apply I2; [lia|exact Ek].
      + intros k Hk. unfold rd. rewrite nth_error_upd_other by lia. apply I3. lia.
    - exists d'. split; [exact E|]. split; [exact H1|]. intros k m Hk. apply H2. lia.
  Qed.

  Lemma adaptor_lemma (c : cont T) (e : adx M) sh f : well_formed SL D c -> ad_wf e -> ad_value e sh f -> ad_same SL e sh ->
    match D with Some n => length sh = n | None => True end ->
    exists c', fa_assign SL DL DT rs a c e = Ok c' /\ well_formed SL D c' /\ ct_shape c' = sh /\
      (forall ix, in_bounds sh ix -> exists t, elt c' ix = Ok (acc_put a t (f ix))) /\
      (sh = ct_shape c -> forall ix t, in_bounds sh ix -> elt c ix = Ok t -> elt c' ix = Ok (acc_put a t (f ix))).
  Proof.
    intros Hc He Hval Hsame HD.
    assert (Hsh : is_shape sh).
    { destruct e as [b|g b1 b2]; cbn [ad_wf ad_value] in *.
      - destruct Hval as [-> _], He as [(H & _) _]. exact H.
      - destruct Hval as [Hb _], He as [[_ R1] [_ R2]]. apply real_is_shape. eapply broadcast_is_shape; [exact Hb|]. repeat constructor; assumption. }
    unfold fa_assign. rewrite (ad_shape_ok e sh f) by assumption. cbn [bind].
    destruct (resize_wf SL D DL rs Hrs HDL c sh Hc Hsh HD) as (c1 & E1 & W1 & S1). rewrite E1. cbn [bind].
    assert (Hkeep : sh = ct_shape c -> c1 = c).
    { intros ->. unfold c_resize in E1. replace (zlist_eqb (ct_shape c) (ct_shape c)) with true in E1 by (symmetry; apply zlist_eqb_eq; reflexivity).
      cbn in E1. congruence. }
    assert (El : ct_layout c1 = SL) by (destruct W1 as (_ & _ & _ & _ & _ & H & _); apply H; destruct HSL as [ -> | -> ]; discriminate).
    rewrite El.
    (* some element *)
    assert (t0 : T).
    { pose proof (Hrs [] 1 ltac:(lia)) as Hr1. destruct (rs [] 1) as [|t r]; [cbn in Hr1; lia|exact t]. }
    set (v := fun p => nth (Z.to_nat p) (ct_data c1) t0).
    assert (Hv : contents (ct_data c1) v).
    { intros p Hp. apply rdz_ok; [lia|]. unfold v. rewrite nth_error_nth' with (d := t0) by lia. reflexivity. }
    assert (Hlen : Z.of_nat (length (ct_data c1)) = prod sh) by (destruct W1 as (_ & _ & H & _); rewrite S1 in H; exact H).
    (* it is enough to know the contents *)
    assert (G : forall d', length d' = length (ct_data c1) ->
              (forall ix, in_bounds sh ix -> rdz d' (rank SL sh ix) = Ok (acc_put a (v (rank SL sh ix)) (f ix))) ->
              well_formed SL D (with_data c1 d') /\ ct_shape (with_data c1 d') = sh /\
              (forall ix, in_bounds sh ix -> exists t, elt (with_data c1 d') ix = Ok (acc_put a t (f ix))) /\
              (sh = ct_shape c -> forall ix t, in_bounds sh ix -> elt c ix = Ok t -> elt (with_data c1 d') ix = Ok (acc_put a t (f ix)))).
    { intros d' Hl' Hd. assert (W2 : well_formed SL D (with_data c1 d')) by (apply wf_with_data; assumption).
      split; [exact W2|]. split; [exact S1|].
      assert (He' : forall ix, in_bounds sh ix -> elt (with_data c1 d') ix = Ok (acc_put a (v (rank SL sh ix)) (f ix))).
      { intros ix Hb. rewrite (wf_order (with_data c1 d') SL D SL W2 El HSL) by (cbn; rewrite S1; exact Hb). cbn [with_data ct_data ct_shape]. rewrite S1. apply Hd. exact Hb. }
      split; [intros ix Hb; eexists; apply He'; exact Hb|].
      intros Es ix t Hb Et. rewrite (He' ix Hb). do 2 f_equal. rewrite <- (Hkeep Es) in Et.
      rewrite (wf_order c1 SL D SL W1 El HSL) in Et by (rewrite S1; exact Hb). rewrite S1 in Et.
      rewrite Hv in Et by (rewrite Hlen; apply rank_bound; exact Hb). injection Et as ->. reflexivity. }
    destruct (layout_eqb SL (ad_layout e)) eqn:Ele.
    - apply layout_eqb_eq in Ele. symmetry in Ele.
      pose proof (ad_count_ok e sh f He Hval Ele Hsame) as Hcnt.
      destruct (linear_loop e (ct_data c1) (fun k => v (Z.of_nat k))) as (d' & Ed & Hl' & Hd).
      + lia.
      + intros k Hk. destruct (Reshape_Proofs.rank_onto SL sh (Z.of_nat k) HSL Hsh ltac:(lia)) as (ix & Hb & Er).
        exists (f ix). rewrite <- (ad_linear_ok e sh f ix) by assumption. rewrite Er, Nat2Z.id. reflexivity.
      + intros k Hk. rewrite <- (Hv (Z.of_nat k)) by lia. rewrite rdz_nat by lia. rewrite Nat2Z.id. reflexivity.
      + rewrite Ed. cbn [bind]. eexists. split; [reflexivity|]. apply G; [exact Hl'|].
        intros ix Hb. pose proof (rank_bound SL sh ix Hb) as B. rewrite rdz_nat by lia.
        rewrite (Hd (Z.to_nat (rank SL sh ix)) (f ix)); [rewrite Z2Nat.id by lia; reflexivity|lia|]. apply ad_linear_ok; assumption.
    - rewrite (seqM_each _ f) by (intros ix Hi; apply indices_of_in in Hi; [|exact HDT]; eapply ad_at_ok; eassumption).
      cbn [bind]. rewrite S1, copy_each.
      destruct (order_ok a (c_strided c1) (ct_data c1) v (wf_writable SL D c1 W1) Hv DT f (fun ix m => fv_write a (c_strided c1) m ix (f ix)) HDT) as (m' & Em & Ha & Hb' & _).
      { reflexivity. }
      cbn [c_strided k_shape] in Em. rewrite S1 in Em. rewrite Em. cbn [bind]. eexists. split; [reflexivity|]. apply G; [exact Ha|].
      intros ix Hb. cbn [c_strided k_shape] in Hb'. rewrite S1 in Hb'. specialize (Hb' ix Hb).
      assert (Ep : position (c_strided c1) ix = rank SL sh ix).
      { destruct W1 as (_ & _ & _ & _ & _ & _ & _ & l & _ & Hl & Hr). unfold position. cbn [c_strided k_begin k_strides].
        rewrite S1 in Hr. rewrite Hr by exact Hb. rewrite Hl by (rewrite El; exact HSL). rewrite El. reflexivity. }
      rewrite Ep in Hb'. exact Hb'.
  Qed.
End Adaptor.
