(** Immediate reduction: the set-up of the loops. *)
From Coq Require Import List ZArith Lia Bool Sorted.
From Verif Require Import Prelude PreludeFacts Strides_Model Strides_Spec Strides_Proofs Stepper_Proofs Assign4_Proofs Manip_Proofs
  Reduce_Model Reduce_Spec Reduce_Proofs Reduce3_Proofs Reduce4_Proofs Reduce5_Proofs Reduce8_Proofs Reduce9_Proofs Reduce10_Proofs.
Import ListNotations.
Open Scope Z_scope.

(** ** The inner loop size *)
Definition canon_row (sh st : list Z) : Prop :=
  length st = length sh /\ forall i, (i < length sh)%nat -> nth i st 0 = if nth i sh 0 =? 1 then 0 else prod (skipn (S i) sh).

Lemma firstn_snoc {A} (d : A) : forall (l : list A) i, (i < length l)%nat -> firstn (S i) l = firstn i l ++ [nth i l d].
Proof. induction l; intros [|i] H; cbn in *; try lia; [reflexivity|]. f_equal. apply IHl. lia. Qed.
Lemma skipn_nth {A} (d : A) : forall (l : list A) i, (i < length l)%nat -> skipn i l = nth i l d :: skipn (S i) l.
Proof. induction l; intros [|i] H; cbn in *; try lia; [reflexivity|]. apply IHl. lia. Qed.

Lemma skipn_prod_pos sh n : Forall (fun d => 0 < d) sh -> 0 < prod (skipn n sh).
Proof.
  intros Hp. apply prod_pos. rewrite Forall_forall in *. intros x Hx. apply Hp. rewrite <- (firstn_skipn n sh). apply in_or_app. right. exact Hx.
Qed.
Lemma find_stride_cons0 s r : r <> [] -> find_stride (s :: r) = if s =? 0 then find_stride r else s.
Proof. intros H. destruct r; [congruence|reflexivity]. Qed.

Lemma find_stride_row sh st : canon_row sh st -> Forall (fun d => 0 < d) sh -> forall i, (i < length sh)%nat ->
  (find_stride (rev (firstn (S i) st)) = prod (skipn (S i) sh) /\ exists j, (j <= i)%nat /\ nth j sh 0 <> 1) \/
  (find_stride (rev (firstn (S i) st)) = 0 /\ forall j, (j <= i)%nat -> nth j sh 0 = 1).
Proof.
  intros [Hl Hs] Hp. induction i as [|i IH]; intros Hi; rewrite (firstn_snoc 0) by lia; rewrite rev_unit.
  - cbn [firstn rev find_stride]. rewrite Hs by exact Hi. destruct (Z.eqb_spec (nth 0 sh 0) 1) as [E0|E0].
    + right. split; [reflexivity|]. intros j Hj. assert (j = 0)%nat by lia. subst. exact E0.
    + left. pose proof (skipn_prod_pos sh 1 Hp). destruct (prod (skipn 1 sh) =? 0) eqn:E; [apply Z.eqb_eq in E; lia|]. split; [reflexivity|]. exists 0%nat. auto.
  - rewrite find_stride_cons0.
    2:{ intros X. apply (f_equal (@length Z)) in X. rewrite rev_length, firstn_length_le in X by lia. discriminate. }
    rewrite Hs by exact Hi. destruct (Z.eqb_spec (nth (S i) sh 0) 1) as [E1|E1].
    + cbn [Z.eqb]. destruct IH as [[F (j & Hj & Hn)]|[F Hj]]; [lia| |].
      * left. rewrite (skipn_nth 0 sh (S i)) in F by lia. rewrite prod_cons, E1, Z.mul_1_l in F.
        rewrite F. split; [reflexivity|]. exists j. split; [lia|exact Hn].
      * right. rewrite F. split; [reflexivity|]. intros j' Hj'. destruct (Nat.eq_dec j' (S i)) as [ -> |]; [exact E1|apply Hj; lia].
    + left. pose proof (skipn_prod_pos sh (S (S i)) Hp).
      destruct (prod (skipn (S (S i)) sh) =? 0) eqn:E; [apply Z.eqb_eq in E; lia|]. split; [reflexivity|]. exists (S i). auto.
Qed.

(** ** The outer loop size *)
Lemma merge_row sh (axes : list Z) lead : (lead < length sh)%nat -> forall l last, (last <= lead)%nat ->
  StronglySorted Z.gt (Z.of_nat last :: l) -> Forall (fun a => 0 <= a /\ In a axes) l ->
  (forall j, (last <= j <= lead)%nat -> In (Z.of_nat j) axes) ->
  exists L, merge_loops sh l (prod (firstn (lead + 1 - last) (skipn last sh))) (Z.of_nat last) =
      Ok (prod (firstn (lead + 1 - L) (skipn L sh)), Z.of_nat L) /\ (L <= last)%nat /\
      forall j, (L <= j <= lead)%nat -> In (Z.of_nat j) axes.
Proof.
  intros Hlead. induction l as [|a l IH]; intros last Hle HS HF Hin; cbn [merge_loops].
  - exists last. auto.
  - inversion HS as [|? ? HS' HG]; subst. inversion HF as [|? ? [Ha Hia] HF']; subst. inversion HG as [|? ? Hg HG']; subst.
    destruct (Z.eqb_spec (Z.abs (a - Z.of_nat last)) 1) as [E|E].
    + assert (a = Z.of_nat (last - 1)) by lia. assert (0 < last)%nat by lia. subst a. set (p := (last - 1)%nat) in *.
      assert (El : last = S p) by (unfold p; lia). rewrite El in *.
      rewrite (rdz_ok sh _ (nth p sh 0)); [|lia|rewrite Nat2Z.id; apply nth_error_nth'; lia]. cbn [bind].
      replace (prod (firstn (lead + 1 - S p) (skipn (S p) sh)) * nth p sh 0) with (prod (firstn (lead + 1 - p) (skipn p sh))).
      2:{ rewrite (skipn_nth 0 sh p) by lia. replace (lead + 1 - p)%nat with (S (lead + 1 - S p)) by lia. cbn [firstn]. rewrite prod_cons. ring. }
      destruct (IH p) as (L & EL & HL & HJ); try assumption; [lia| |].
      * intros j Hj. destruct (Nat.eq_dec j p) as [ -> |]; [exact Hia|apply Hin; lia].
      * exists L. split; [exact EL|]. split; [lia|exact HJ].
    + destruct (IH last) as (L & EL & HL & HJ); try assumption.
      * constructor; [inversion HS'; assumption|exact HG'].
      * exists L. auto.
Qed.

Lemma merge_mirror sh : forall l last outer, Forall (fun a => 0 <= a < Z.of_nat (length sh)) l ->
  let mir a := Z.of_nat (length sh) - 1 - a in
  merge_loops (rev sh) (map mir l) outer (mir last) =
  match merge_loops sh l outer last with Ok (o, a) => Ok (o, mir a) | Throw e => Throw e | UB => UB end.
Proof.
  induction l as [|a l IH]; intros last outer HF mir; cbn [merge_loops map]; [reflexivity|]. inversion HF as [|? ? Ha HF']; subst.
  replace (Z.abs (mir a - mir last)) with (Z.abs (a - last)) by (unfold mir; lia).
  destruct (Z.abs (a - last) =? 1).
  - rewrite (rdz_ok sh a (nth (Z.to_nat a) sh 0)); [|lia|apply nth_error_nth'; lia].
    rewrite (rdz_ok (rev sh) (mir a) (nth (Z.to_nat a) sh 0)); [cbn [bind]; apply IH; exact HF'|unfold mir; lia|].
    rewrite (nth_error_nth' (rev sh) 0) by (rewrite rev_length; unfold mir; lia). rewrite rev_nth by (unfold mir; lia). f_equal. f_equal. unfold mir. lia.
  - apply IH. exact HF'.
Qed.

(** ** The strides of the result along the axes of the source *)
Lemma iter_strides_keep axes : forall rest done_ (pre junk : list Z) n, length pre = length done_ -> length junk = length rest ->
  exists n', for_up (fun i '(st, idx) => if mem_axis i axes then Ok (st, idx) else
      let* s := rd (done_ ++ rest) i in let* st := wr st i s in Ok (st, S idx)) (length done_) (length rest) (pre ++ repeat 0 (length junk), n)
  = Ok (pre ++ replaced axes 0 (Z.of_nat (length done_)) rest, n').
Proof.
  induction rest as [|x rest IH]; intros done_ pre junk n H1 H2; destruct junk as [|y junk]; try discriminate.
  - exists n. reflexivity.
  - cbn [length for_up repeat replaced].
    pose proof (mem_axis_spec (length done_) axes) as Hm.
    assert (Key : forall v n, exists n', for_up (fun i '(st, idx) => if mem_axis i axes then Ok (st, idx) else
      let* s := rd (done_ ++ x :: rest) i in let* st := wr st i s in Ok (st, S idx)) (S (length done_)) (length rest) (pre ++ v :: repeat 0 (length junk), n)
      = Ok (pre ++ v :: replaced axes 0 (Z.of_nat (length done_) + 1) rest, n')).
    { intros v m. specialize (IH (done_ ++ [x]) (pre ++ [v]) junk m). rewrite !app_length in IH. cbn [length] in IH.
      rewrite <- !app_assoc in IH. cbn [app] in IH. replace (length done_ + 1)%nat with (S (length done_)) in IH by lia.
      replace (Z.of_nat (length done_) + 1) with (Z.of_nat (S (length done_))) by lia. apply IH; [lia|cbn in H2; lia]. }
    destruct (mem_axis (length done_) axes) eqn:Em; cbn [bind].
    + destruct (in_dec Z.eq_dec (Z.of_nat (length done_)) axes) as [_|Hn]; [|exfalso; apply Hn, Hm; reflexivity]. apply Key.
    + destruct (in_dec Z.eq_dec (Z.of_nat (length done_)) axes) as [Hi|_]; [apply Hm in Hi; discriminate|].
      erewrite rd_ok by (rewrite nth_error_app2, Nat.sub_diag by lia; reflexivity). cbn [bind].
      assert (W : wr (pre ++ 0 :: repeat 0 (length junk)) (length done_) x = Ok (pre ++ x :: repeat 0 (length junk))) by (rewrite <- H1; apply wr_mid).
      rewrite W. cbn [bind]. apply Key.
Qed.

Lemma iter_strides_drop axes : forall len i done_ kept (pre : list Z), length pre = i ->
  length kept = nkept axes (Z.of_nat i) len ->
  exists n', for_up (fun i '(st, idx) => if mem_axis i axes then Ok (st, idx) else
      let* s := rd (done_ ++ kept) idx in let* st := wr st i s in Ok (st, S idx)) i len (pre ++ repeat 0 len, length done_)
  = Ok (pre ++ fillw axes (Z.of_nat i) (repeat 0 len) kept, n').
Proof.
  induction len as [|len IH]; intros i done_ kept pre H1 H2; cbn [for_up repeat fillw nkept] in *.
  - eexists. reflexivity.
  - pose proof (mem_axis_spec i axes) as Hm. replace (Z.of_nat i + 1) with (Z.of_nat (S i)) in * by lia.
    destruct (mem_axis i axes) eqn:Em; cbn [bind].
    + destruct (in_dec Z.eq_dec (Z.of_nat i) axes) as [_|Hn]; [|exfalso; apply Hn, Hm; reflexivity].
      specialize (IH (S i) done_ kept (pre ++ [0])). rewrite <- !app_assoc in IH. cbn [app] in IH. apply IH; [rewrite app_length; cbn; lia|exact H2].
    + destruct (in_dec Z.eq_dec (Z.of_nat i) axes) as [Hi|_]; [apply Hm in Hi; discriminate|].
      destruct kept as [|x kept]; [discriminate|].
      erewrite rd_ok by (rewrite nth_error_app2, Nat.sub_diag by lia; reflexivity). cbn [bind].
      assert (W : wr (pre ++ 0 :: repeat 0 len) i x = Ok (pre ++ x :: repeat 0 len)) by (rewrite <- H1; apply wr_mid).
      rewrite W. cbn [bind].
      specialize (IH (S i) (done_ ++ [x]) kept (pre ++ [x])). rewrite <- !app_assoc in IH. cbn [app] in IH.
      replace (length (done_ ++ [x])) with (S (length done_)) in IH by (rewrite app_length; cbn; lia). apply IH; [rewrite app_length; cbn; lia|cbn in H2; lia].
Qed.

Lemma dot_replaced axes : forall jx k st, length st = length jx -> dot jx (replaced axes 0 k st) = dot (replaced axes 0 k jx) st.
Proof.
  induction jx as [|x jx IH]; intros k [|s st] H; try discriminate H; [reflexivity|]. cbn [replaced dot]. rewrite IH by (cbn in H; lia).
  destruct (in_dec Z.eq_dec k axes); lia.
Qed.
Lemma dot_fillw axes : forall jx k st, length st = nkept axes k (length jx) -> dot jx (fillw axes k (repeat 0 (length jx)) st) = dot (without axes k jx) st.
Proof.
  induction jx as [|x jx IH]; intros k st H; [reflexivity|]. cbn [length repeat fillw without nkept] in *.
  destruct (in_dec Z.eq_dec k axes).
  - cbn [dot]. rewrite IH by exact H. lia.
  - destruct st as [|s st]; [discriminate|]. cbn [dot]. rewrite IH by (cbn in H; lia). reflexivity.
Qed.

Definition iter_st (keep : bool) (axes : list Z) (dim : nat) (st : list Z) : list Z :=
  if keep then replaced axes 0 0 st else fillw axes 0 (repeat 0 dim) st.
Lemma iter_st_length keep axes dim st : length st = length (red_shape keep axes (repeat 0 dim)) -> length (iter_st keep axes dim st) = dim.
Proof.
  unfold iter_st, red_shape. destruct keep; intros H.
  - rewrite replaced_length in *. rewrite H. apply repeat_length.
  - rewrite fillw_length; [apply repeat_length|]. rewrite H. rewrite without_length. reflexivity.
Qed.
Lemma red_shape_length keep axes s t : length s = length t -> length (red_shape keep axes s) = length (red_shape keep axes t).
Proof. intros H. unfold red_shape. destruct keep; rewrite ?replaced_length, ?without_length, H; reflexivity. Qed.
Lemma red_index_length keep axes s t : length s = length t -> length (red_index keep axes s) = length (red_shape keep axes t).
Proof. intros H. unfold red_index, red_shape. destruct keep; rewrite ?replaced_length, ?without_length, H; reflexivity. Qed.

Lemma iter_strides_ok keep axes dim st : length st = length (red_shape keep axes (repeat 0 dim)) ->
  exists n, for_up (fun i '(s, idx) => if mem_axis i axes then Ok (s, idx) else
          let* v := rd st (if keep then i else idx) in let* s := wr s i v in Ok (s, S idx)) 0 dim (repeat 0 dim, 0%nat)
  = Ok (iter_st keep axes dim st, n).
Proof.
  unfold iter_st, red_shape. destruct keep; intros H.
  - rewrite replaced_length, repeat_length in H.
    destruct (iter_strides_keep axes st [] [] st 0 eq_refl eq_refl) as [n E]. cbn [app length] in E. rewrite H in E. exists n. exact E.
  - rewrite without_length, repeat_length in H.
    destruct (iter_strides_drop axes dim 0 [] st [] eq_refl H) as [n E]. cbn [app length] in E. exists n. exact E.
Qed.
Lemma iter_st_dot keep axes jx st : length st = length (red_index keep axes jx) ->
  dot jx (iter_st keep axes (length jx) st) = dot (red_index keep axes jx) st.
Proof.
  unfold iter_st, red_index. destruct keep; intros H.
  - rewrite replaced_length in H. apply dot_replaced. exact H.
  - rewrite without_length in H. apply dot_fillw. exact H.
Qed.

(** ** Mirroring *)
Definition mirrored (dim : nat) (axes : list Z) : list Z := rev (map (fun a => Z.of_nat dim - 1 - a) axes).
Lemma mirrored_in dim axes k : In k (mirrored dim axes) <-> In (Z.of_nat dim - 1 - k) axes.
Proof.
  unfold mirrored. rewrite <- in_rev, in_map_iff. split.
  - intros (a & <- & H). replace (Z.of_nat dim - 1 - (Z.of_nat dim - 1 - a)) with a by lia. exact H.
  - intros H. exists (Z.of_nat dim - 1 - k). split; [lia|exact H].
Qed.
Lemma replaced_mirror v axes axes' : forall l k k', (forall i, (i < length l)%nat -> In (k' + Z.of_nat i) axes' <-> In (k + Z.of_nat (length l) - 1 - Z.of_nat i) axes) ->
  replaced axes v k (rev l) = rev (replaced axes' v k' l).
Proof.
  induction l as [|x l IH]; intros k k' H; [reflexivity|]. cbn [rev replaced]. rewrite replaced_app, rev_length.
  rewrite (IH k (k' + 1)).
  - f_equal. cbn [replaced]. specialize (H 0%nat ltac:(cbn; lia)). replace (k' + Z.of_nat 0) with k' in H by lia.
    replace (k + Z.of_nat (length (x :: l)) - 1 - Z.of_nat 0) with (k + Z.of_nat (length l)) in H by (cbn [length]; lia).
    destruct (in_dec Z.eq_dec k' axes'), (in_dec Z.eq_dec (k + Z.of_nat (length l)) axes); try reflexivity; exfalso; tauto.
  - intros i Hi. specialize (H (S i) ltac:(cbn; lia)). replace (k' + 1 + Z.of_nat i) with (k' + Z.of_nat (S i)) by lia.
    replace (k + Z.of_nat (length l) - 1 - Z.of_nat i) with (k + Z.of_nat (length (x :: l)) - 1 - Z.of_nat (S i)) by (cbn [length]; lia). exact H.
Qed.
Lemma without_mirror axes axes' : forall l k k', (forall i, (i < length l)%nat -> In (k' + Z.of_nat i) axes' <-> In (k + Z.of_nat (length l) - 1 - Z.of_nat i) axes) ->
  without axes k (rev l) = rev (without axes' k' l).
Proof.
  induction l as [|x l IH]; intros k k' H; [reflexivity|]. cbn [rev without]. rewrite without_app, rev_length.
  rewrite (IH k (k' + 1)).
  - cbn [without]. specialize (H 0%nat ltac:(cbn; lia)). replace (k' + Z.of_nat 0) with k' in H by lia.
    replace (k + Z.of_nat (length (x :: l)) - 1 - Z.of_nat 0) with (k + Z.of_nat (length l)) in H by (cbn [length]; lia).
    destruct (in_dec Z.eq_dec k' axes'), (in_dec Z.eq_dec (k + Z.of_nat (length l)) axes); try (exfalso; tauto); [apply app_nil_r|reflexivity].
  - intros i Hi. specialize (H (S i) ltac:(cbn; lia)). replace (k' + 1 + Z.of_nat i) with (k' + Z.of_nat (S i)) by lia.
    replace (k + Z.of_nat (length l) - 1 - Z.of_nat i) with (k + Z.of_nat (length (x :: l)) - 1 - Z.of_nat (S i)) by (cbn [length]; lia). exact H.
Qed.
Lemma red_shape_mirror keep axes sh : red_shape keep (mirrored (length sh) axes) (rev sh) = rev (red_shape keep axes sh).
Proof.
  unfold red_shape. destruct keep; [apply replaced_mirror|apply without_mirror]; intros i Hi; rewrite mirrored_in;
    replace (Z.of_nat (length sh) - 1 - (0 + Z.of_nat (length sh) - 1 - Z.of_nat i)) with (0 + Z.of_nat i) by lia; reflexivity.
Qed.
Lemma red_index_mirror keep axes jx : red_index keep (mirrored (length jx) axes) (rev jx) = rev (red_index keep axes jx).
Proof.
  unfold red_index. destruct keep; [apply replaced_mirror|apply without_mirror]; intros i Hi; rewrite mirrored_in;
    replace (Z.of_nat (length jx) - 1 - (0 + Z.of_nat (length jx) - 1 - Z.of_nat i)) with (0 + Z.of_nat i) by lia; reflexivity.
Qed.
Lemma mirrored_valid dim axes : valid_axes dim axes -> valid_axes dim (mirrored dim axes).
Proof.
  intros [HS HF]. split.
  - unfold mirrored. clear HF. induction HS as [|a l HS IH HA]; [constructor|]. cbn [map rev].
    assert (G : forall (l1 : list Z) x, StronglySorted Z.lt l1 -> Forall (fun y => y < x) l1 -> StronglySorted Z.lt (l1 ++ [x])).
    { induction l1 as [|z l1 IHl]; intros x Hs Hf; [repeat constructor|]. inversion Hs; subst. inversion Hf; subst. cbn. constructor; [apply IHl; assumption|].
      apply Forall_app. split; [assumption|]. constructor; [lia|constructor]. }
    apply G; [exact IH|]. apply Forall_rev. apply Forall_map. eapply Forall_impl; [|exact HA]. cbn. intros. lia.
  - unfold mirrored. apply Forall_rev, Forall_map. eapply Forall_impl; [|exact HF]. cbn. intros. lia.
Qed.
