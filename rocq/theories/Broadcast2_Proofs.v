From Coq Require Import List ZArith Lia Bool.
From Verif Require Import Prelude PreludeFacts Strides_Model Strides_Spec Strides_Proofs
  Access_Spec Access_Proofs Broadcast_Model Broadcast_Spec Broadcast_Proofs.
Import ListNotations.
Open Scope Z_scope.

(** ** The cache *)
Lemma bfold_length ss : forall shape b out t, bfold ss shape b = Ok (out, t) -> length out = length shape.
Proof.
  induction ss as [|s ss IH]; intros shape b out t; simpl.
  - intros H; inversion H; subst; auto.
  - rewrite broadcast_shape_ok. destruct (merge_rev (rev shape) (rev s)) eqn:E; simpl; [|discriminate].
    intros H. apply IH in H. apply merge_rev_some in E. rewrite !rev_length in *. lia.
Qed.

Lemma expr_shape_length e out t : expr_shape e = Ok (out, t) -> length out = dimension e.
Proof.
  unfold expr_shape. rewrite broadcast_expr_leaves. intros H. apply bfold_length in H.
  unfold uninitialized_shape in H. rewrite repeat_length in H. auto.
Qed.

Definition fresh_cache (s : fstate) : Prop :=
  c_init (f_cache s) = false \/
  expr_shape (f_expr s) = Ok (c_shape (f_cache s), c_trivial (f_cache s)).

Lemma f_run_query ops : forall s, fresh_cache s ->
  (forall e, ~ In (Resize e) ops) -> f_run s ops = ideal (f_expr s) ops.
Proof.
  induction ops as [|o ops IH]; intros s HF HN; auto.
  assert (HN' : forall e, ~ In (Resize e) ops) by (intros e He; apply (HN e); simpl; auto).
  destruct o; cbn [f_run f_step ideal].
  - rewrite IH by auto. f_equal. f_equal. unfold f_dimension.
    destruct HF as [->|HF]; auto. destruct (c_init (f_cache s)); auto. eapply expr_shape_length; eauto.
  - unfold f_shape. destruct (c_init (f_cache s)) eqn:EI.
    + destruct HF as [HF|HF]; [congruence|]. rewrite HF. cbn [bind]. rewrite IH; auto. right; auto.
    + fold (expr_shape (f_expr s)). destruct (expr_shape (f_expr s)) as [[sh t]| |] eqn:ES; cbn [bind].
      * rewrite IH; auto. right. simpl. auto.
      * rewrite IH; auto.
      * rewrite IH; auto.
  - rewrite IH by auto. f_equal. f_equal. unfold f_broadcast, f_dimension.
    destruct (c_init (f_cache s)) eqn:EI; cbn [andb].
    + destruct HF as [HF|HF]; [congruence|]. rewrite HF. unfold uninitialized_shape.
      rewrite repeat_length, Nat.leb_refl.
      rewrite skipn_all2 by (rewrite repeat_length; lia). rewrite app_nil_r. reflexivity.
    + reflexivity.
  - exfalso. apply (HN e). simpl; auto.
Qed.

Lemma f_run_nocache ops1 ops2 : forall s, c_init (f_cache s) = false ->
  ~ In Q_shape ops1 -> (forall e, ~ In (Resize e) ops2) ->
  f_run s (ops1 ++ ops2) = ideal (f_expr s) (ops1 ++ ops2).
Proof.
  induction ops1 as [|o ops1 IH]; intros s HI HQ HN.
  - apply f_run_query; auto. left; auto.
  - assert (HQ' : ~ In Q_shape ops1) by (intros H; apply HQ; simpl; auto).
    destruct o; cbn [app f_run f_step ideal].
    + rewrite IH by auto. unfold f_dimension. rewrite HI. reflexivity.
    + exfalso; apply HQ; simpl; auto.
    + rewrite IH by auto. unfold f_broadcast, f_dimension. rewrite HI. reflexivity.
    + rewrite IH by auto. reflexivity.
Qed.

Lemma cache_lemma e ops1 ops2 :
  ~ In Q_shape ops1 -> (forall e, ~ In (Resize e) ops2) ->
  f_run (f_new e) (ops1 ++ ops2) = ideal e (ops1 ++ ops2).
Proof. intros. apply (f_run_nocache ops1 ops2 (f_new e)); auto. Qed.

Lemma cache_refuted_lemma :
  exists e e', real_expr e /\ real_expr e' /\
    f_run (f_new e) [Q_shape; Resize e'; Q_shape; Q_assign] <>
    ideal e [Q_shape; Resize e'; Q_shape; Q_assign].
Proof.
  exists (EFun [ELeaf [2]; ELeaf [1]]), (EFun [ELeaf [3]; ELeaf [1]]).
  split; [repeat constructor; lia|]. split; [repeat constructor; lia|].
  vm_compute. discriminate.
Qed.

(** ** Fixed shapes *)
Definition pos_shape (s : list Z) : Prop := Forall (fun d => 0 < d) s.

Lemma mapM_ok {A B} (f : A -> res B) g l :
  (forall x, In x l -> f x = Ok (g x)) -> mapM f l = Ok (map g l).
Proof.
  induction l; intros H; simpl; auto. rewrite H by (simpl; auto). cbn [bind].
  rewrite IHl; [reflexivity|]. intros; apply H; simpl; auto.
Qed.

Lemma mapM_throw {A B} (f : A -> res B) e l :
  (forall x, In x l -> (exists y, f x = Ok y) \/ f x = Throw e) ->
  (exists x, In x l /\ f x = Throw e) -> mapM f l = Throw e.
Proof.
  induction l as [|a l IH]; intros H (x & Hx & Hf); [destruct Hx|]. simpl.
  destruct (H a (or_introl eq_refl)) as [(y & Hy)|Hy]; rewrite Hy; cbn [bind]; auto.
  destruct Hx as [->|Hx]; [congruence|].
  rewrite IH; auto. - intros z Hz; apply H; simpl; auto. - exists x; auto.
Qed.

Lemma axis_nth s k : (k < length s)%nat -> axis s k = nth (length s - S k) s 0.
Proof. intros. rewrite axis_in by auto. apply rev_nth. auto. Qed.

Lemma fixed_axis_ok I J jx :
  pos_shape I -> pos_shape J -> (length I <= length J)%nat -> (jx < length J)%nat ->
  let k := (length J - S jx)%nat in
  let a := axis I k in let b := axis J k in
  (fixed_axis I J jx = if (a =? 1) || (b =? 1) || (a =? b) then Ok (Z.max a b) else Throw broadcast_error) /\
  (fixed_axis_trivial I J jx = (k <? length I)%nat && (a =? b)).
Proof.
  intros HI HJ HL Hj k a b. unfold fixed_axis, fixed_axis_trivial.
  assert (Hb : fixed_at (Z.of_nat jx) J = b /\ 0 < b).
  { unfold fixed_at. destruct (Z.ltb_spec (Z.of_nat jx) 0); [lia|]. rewrite Nat2Z.id.
    unfold b. rewrite axis_nth by lia.
    replace (length J - S k)%nat with jx by lia. split; auto.
    unfold pos_shape in HJ. rewrite Forall_forall in HJ. apply HJ, nth_In; auto. }
  destruct Hb as (-> & Hb0).
  destruct (Nat.ltb_spec k (length I)) as [Hk|Hk].
  - assert (Ha : fixed_at (Z.of_nat jx - (Z.of_nat (length J) - Z.of_nat (length I))) I = a /\ 0 < a).
    { unfold fixed_at. destruct (Z.ltb_spec (Z.of_nat jx - (Z.of_nat (length J) - Z.of_nat (length I))) 0); [lia|].
      unfold a. rewrite axis_nth by lia.
      replace (Z.to_nat (Z.of_nat jx - (Z.of_nat (length J) - Z.of_nat (length I)))) with (length I - S k)%nat by lia.
      split; auto. unfold pos_shape in HI. rewrite Forall_forall in HI. apply HI, nth_In; lia. }
    destruct Ha as (-> & Ha0). split; [|auto].
    destruct (Z.eqb_spec a 0); [lia|]. simpl. rewrite (Z.eqb_sym b a).
    replace (if b <? a then a else b) with (Z.max a b); auto.
    destruct (Z.ltb_spec b a); lia.
  - assert (Ha : fixed_at (Z.of_nat jx - (Z.of_nat (length J) - Z.of_nat (length I))) I = 0).
    { unfold fixed_at. destruct (Z.ltb_spec (Z.of_nat jx - (Z.of_nat (length J) - Z.of_nat (length I))) 0); [auto|lia]. }
    rewrite Ha. assert (a = 1) by (apply axis_out; auto). subst a. split.
    + rewrite H. simpl. destruct (Z.ltb_spec b 0); [lia|]. f_equal. lia.
    + cbn [andb]. apply Z.eqb_neq. lia.
Qed.

Lemma rev_seq_axis (g : nat -> Z) n k : (k < n)%nat -> axis (map g (seq 0 n)) k = g (n - S k)%nat.
Proof.
  intros H. rewrite axis_nth by (rewrite map_length, seq_length; auto).
  rewrite map_length, seq_length. rewrite nth_indep with (d' := g 0%nat) by (rewrite map_length, seq_length; lia).
  rewrite map_nth, seq_nth by lia. f_equal.
Qed.

Lemma broadcast_fixed_ok I J :
  pos_shape I -> pos_shape J -> (length I <= length J)%nat ->
  (exists m t, broadcast_fixed I J = Ok (m, t) /\ compatible [I; J] /\ broadcast_of [I; J] m /\
               pos_shape m /\ (t = true <-> I = J)) \/
  (broadcast_fixed I J = Throw broadcast_error /\ ~ compatible [I; J]).
Proof.
  intros HI HJ HL. unfold broadcast_fixed.
  destruct (Nat.ltb_spec (length J) (length I)); [lia|].
  pose (bad := fun k => negb ((axis I k =? 1) || (axis J k =? 1) || (axis I k =? axis J k))).
  destruct (existsb bad (seq 0 (length J))) eqn:E.
  - right. apply existsb_exists in E. destruct E as (k & Hk & Hb). apply in_seq in Hk. split.
    + rewrite (mapM_throw _ broadcast_error); auto.
      * intros x Hx. apply in_seq in Hx. destruct (fixed_axis_ok I J x HI HJ HL ltac:(lia)) as (-> & _).
        destruct (_ || _); eauto.
      * exists (length J - S k)%nat. split; [apply in_seq; lia|].
        destruct (fixed_axis_ok I J (length J - S k) HI HJ HL ltac:(lia)) as (-> & _).
        replace (length J - S (length J - S k))%nat with k by lia.
        unfold bad in Hb. apply negb_true_iff in Hb. rewrite Hb. reflexivity.
    + intros HC. unfold bad in Hb. apply negb_true_iff in Hb. rewrite !orb_false_iff, !Z.eqb_neq in Hb.
      destruct (HC I J k) as [|[|]]; simpl; tauto.
  - left.
    assert (Hgood : forall k, (k < length J)%nat -> axis I k = 1 \/ axis J k = 1 \/ axis I k = axis J k).
    { intros k Hk. destruct (bad k) eqn:Eb.
      - assert (existsb bad (seq 0 (length J)) = true); [|congruence].
        apply existsb_exists. exists k. split; auto. apply in_seq; lia.
      - unfold bad in Eb. apply negb_false_iff in Eb. rewrite !orb_true_iff, !Z.eqb_eq in Eb. tauto. }
    pose (g := fun jx => Z.max (axis I (length J - S jx)) (axis J (length J - S jx))).
    rewrite (mapM_ok _ g).
    2:{ intros x Hx. apply in_seq in Hx. destruct (fixed_axis_ok I J x HI HJ HL ltac:(lia)) as (-> & _).
        specialize (Hgood (length J - S x)%nat ltac:(lia)). fold (g x).
        destruct Hgood as [ -> | [ -> | -> ] ]; rewrite ?Z.eqb_refl, ?orb_true_r; reflexivity. }
    cbn [bind]. exists (map g (seq 0 (length J))), (forallb (fixed_axis_trivial I J) (seq 0 (length J))).
    assert (Hposax : forall s k, pos_shape s -> 0 < axis s k).
    { intros s k Hs. unfold axis. destruct (Nat.lt_ge_cases k (length (rev s))).
      - unfold pos_shape in Hs. rewrite Forall_forall in Hs. apply Hs, in_rev, nth_In; auto.
      - rewrite nth_overflow by auto. lia. }
    assert (Hax : forall k, (k < length J)%nat -> axis (map g (seq 0 (length J))) k = Z.max (axis I k) (axis J k)).
    { intros k Hk. rewrite rev_seq_axis by auto. unfold g.
      replace (length J - S (length J - S k))%nat with k by lia. auto. }
    assert (Haxo : forall k, (length J <= k)%nat -> axis I k = 1 /\ axis J k = 1 /\ axis (map g (seq 0 (length J))) k = 1).
    { intros k Hk. repeat split; apply axis_out; rewrite ?map_length, ?seq_length; lia. }
    split; [reflexivity|]. repeat split.
    + intros s t k Hs Ht. destruct (Nat.lt_ge_cases k (length J)) as [Hk|Hk].
      * specialize (Hgood k Hk). simpl in Hs, Ht.
        destruct Hs as [<-|[<-|[]]], Ht as [<-|[<-|[]]]; intuition.
      * destruct (Haxo k Hk) as (Ha & Hb & _). simpl in Hs. destruct Hs as [<-|[<-|[]]]; auto.
    + intros s Hs. rewrite map_length, seq_length. simpl in Hs. destruct Hs as [<-|[<-|[]]]; lia.
    + right. exists J. rewrite map_length, seq_length. simpl; auto.
    + intros s Hs. destruct (Nat.lt_ge_cases k (length J)) as [Hk|Hk].
      * rewrite Hax by auto. specialize (Hgood k Hk).
        pose proof (Hposax I k HI). pose proof (Hposax J k HJ).
        simpl in Hs. destruct Hs as [<-|[<-|[]]]; lia.
      * destruct (Haxo k Hk) as (Ha & Hb & _). simpl in Hs. destruct Hs as [<-|[<-|[]]]; auto.
    + destruct (Nat.lt_ge_cases k (length J)) as [Hk|Hk].
      * rewrite Hax by auto. right. destruct (Z.max_spec (axis I k) (axis J k)) as [[_ ->]|[_ ->]];
          [exists J|exists I]; simpl; auto.
      * left. apply Haxo; auto.
    + apply Forall_forall. intros x Hx. apply in_map_iff in Hx. destruct Hx as (j & <- & Hj).
      unfold g. pose proof (Hposax I (length J - S j)%nat HI). lia.
    + rewrite forallb_forall. intros HT. apply axis_ext.
      * destruct (Nat.eq_dec (length I) (length J)); auto. exfalso.
        assert (Hin : In 0%nat (seq 0 (length J))) by (apply in_seq; lia).
        apply HT in Hin. destruct (fixed_axis_ok I J 0 HI HJ HL ltac:(lia)) as (_ & Hft).
        rewrite Hft in Hin. apply andb_true_iff in Hin. destruct Hin as (Hlt & _). apply Nat.ltb_lt in Hlt. lia.
      * intros k. destruct (Nat.lt_ge_cases k (length J)) as [Hk|Hk].
        -- assert (Hin : In (length J - S k)%nat (seq 0 (length J))) by (apply in_seq; lia).
           apply HT in Hin. destruct (fixed_axis_ok I J (length J - S k) HI HJ HL ltac:(lia)) as (_ & Hft).
           rewrite Hft in Hin. apply andb_true_iff in Hin. destruct Hin as (_ & He). apply Z.eqb_eq in He.
           replace (length J - S (length J - S k))%nat with k in He by lia. auto.
        -- destruct (Haxo k Hk) as (-> & -> & _). auto.
    + intros ->. apply forallb_forall. intros x Hx. apply in_seq in Hx.
      destruct (fixed_axis_ok J J x HJ HJ HL ltac:(lia)) as (_ & ->).
      rewrite Z.eqb_refl, andb_true_r. apply Nat.ltb_lt. lia.
Qed.

Lemma broadcast_of_swap I J m : broadcast_of [I; J] m -> broadcast_of [J; I] m.
Proof.
  intros (H1 & H2 & H3).
  assert (HS : forall s, In s [J; I] <-> In s [I; J]) by (intros s; simpl; tauto).
  split; [intros s Hs; apply H1, HS; auto|]. split.
  - destruct H2 as [|(s & Hs & H)]; auto. right; exists s; rewrite HS; auto.
  - intros k. destruct (H3 k) as (Ha & Hb). split; [intros s Hs; apply Ha, HS; auto|].
    destruct Hb as [|(s & Hs & H)]; auto. right; exists s; rewrite HS; auto.
Qed.

Lemma compatible_swap I J : compatible [I; J] -> compatible [J; I].
Proof. intros H s t k Hs Ht. apply H; simpl in *; tauto. Qed.

Lemma pair_merge I J m rest :
  broadcast_of [I; J] m -> compatible [I; J] ->
  (compatible (m :: rest) <-> compatible (I :: J :: rest)) /\
  (forall out, broadcast_of (m :: rest) out -> broadcast_of (I :: J :: rest) out).
Proof.
  intros (HmL & HmA & HmK) HC. split; [split|].
  - intros H s t k Hs Ht.
    assert (G : forall s, In s (I :: J :: rest) -> axis s k = 1 \/ exists s', In s' (m :: rest) /\ axis s' k = axis s k).
    { intros u Hu. destruct (HmK k) as (Ha & _). simpl in Hu.
      destruct Hu as [<-|[<-|Hu]].
      - destruct (Ha I ltac:(simpl; auto)); auto. right; exists m; simpl; auto.
      - destruct (Ha J ltac:(simpl; auto)); auto. right; exists m; simpl; auto.
      - right; exists u; simpl; auto. }
    destruct (G s Hs) as [|(s' & Hs' & <-)]; auto. destruct (G t Ht) as [|(t' & Ht' & <-)]; auto.
  - intros H s t k Hs Ht.
    assert (G : forall s, In s (m :: rest) -> axis s k = 1 \/ exists s', In s' (I :: J :: rest) /\ axis s' k = axis s k).
    { intros u Hu. destruct (HmK k) as (_ & Hb). simpl in Hu. destruct Hu as [<-|Hu].
      - destruct Hb as [|(v & Hv & Hv')]; auto. right. exists v. simpl in *. tauto.
      - right; exists u; simpl; auto. }
    destruct (G s Hs) as [|(s' & Hs' & <-)]; auto. destruct (G t Ht) as [|(t' & Ht' & <-)]; auto.
  - intros out (HL & HA & HK). split; [|split].
    + assert (length m <= length out)%nat by (apply HL; simpl; auto).
      intros s Hs. simpl in Hs. destruct Hs as [<-|[<-|Hs]].
      * specialize (HmL I ltac:(simpl; auto)). lia.
      * specialize (HmL J ltac:(simpl; auto)). lia.
      * apply HL; simpl; auto.
    + destruct HA as [|(s & Hs & Hl)]; auto. simpl in Hs. destruct Hs as [<-|Hs].
      * destruct HmA as [->|(u & Hu & Hlu)].
        -- left. destruct out; auto; discriminate.
        -- right. exists u. split; [simpl in *; tauto|lia].
      * right. exists s. simpl; auto.
    + intros k. destruct (HK k) as (Ha & Hb), (HmK k) as (Hc & Hd). split.
      * assert (Hm : axis m k = 1 \/ axis m k = axis out k) by (apply Ha; simpl; auto).
        assert (G : forall u, In u [I; J] -> axis u k = 1 \/ axis u k = axis out k).
        { intros u Hu. destruct (Hc u Hu) as [|Hu']; auto. rewrite Hu'. auto. }
        intros s Hs. simpl in Hs. destruct Hs as [<-|[<-|Hs]]; [apply G; simpl; auto..|apply Ha; simpl; auto].
      * destruct Hb as [|(s & Hs & He)]; auto. simpl in Hs. destruct Hs as [<-|Hs].
        -- destruct Hd as [Hd|(u & Hu & Hd)]; [left; congruence|].
           right. exists u. split; [simpl in *; tauto|congruence].
        -- right; exists s; simpl; auto.
Qed.

Lemma promote_fixed_lemma rest : forall I,
  Forall pos_shape (I :: rest) ->
  (compatible (I :: rest) ->
     exists out t, promote_fixed I rest = Ok (out, t) /\ broadcast_of (I :: rest) out /\
                   (t = true <-> forall s, In s (I :: rest) -> s = out)) /\
  (~ compatible (I :: rest) -> promote_fixed I rest = Throw broadcast_error).
Proof.
  induction rest as [|J rest IH]; intros I HP.
  - split.
    + intros _. exists I, true. split; [reflexivity|]. split.
      * split; [intros s [<-|[]]; auto|]. split; [right; exists I; simpl; auto|].
        intros k. split; [intros s [<-|[]]; auto|]. right; exists I; simpl; auto.
      * split; auto. intros _ s [<-|[]]; auto.
    + intros H. exfalso. apply H. intros s t k [<-|[]] [<-|[]]. auto.
  - inversion HP; subst. inversion H2; subst. cbn [promote_fixed].
    assert (HM : (exists m t, (if (length J <? length I)%nat then broadcast_fixed J I else broadcast_fixed I J) = Ok (m, t)
                    /\ compatible [I; J] /\ broadcast_of [I; J] m /\ pos_shape m /\ (t = true <-> I = J)) \/
                 ((if (length J <? length I)%nat then broadcast_fixed J I else broadcast_fixed I J) = Throw broadcast_error
                    /\ ~ compatible [I; J])).
    { destruct (Nat.ltb_spec (length J) (length I)).
      - destruct (broadcast_fixed_ok J I) as [(m & t & HE & HC & HB & Hp & Ht)|(HE & HN)]; auto; [lia| |].
        + left. exists m, t. split; auto. split; [apply compatible_swap; auto|].
          split; [apply broadcast_of_swap; auto|]. split; auto. rewrite Ht. split; congruence.
        + right. split; auto. intros HC. apply HN, compatible_swap; auto.
      - apply broadcast_fixed_ok; auto. }
    destruct HM as [(m & t & -> & HC & HB & Hp & Ht)|(-> & HN)]; cbn [bind].
    + destruct (pair_merge I J m rest HB HC) as (Hcc & Hbb).
      destruct (IH m) as (IH1 & IH2); [constructor; auto|]. split.
      * intros HCall. apply Hcc in HCall. destruct (IH1 HCall) as (out & t' & -> & HBo & Ht').
        cbn [bind]. exists out, (t && t'). split; auto. split; [apply Hbb; auto|].
        rewrite andb_true_iff, Ht, Ht'. split.
        -- intros [-> Hall] s Hs.
           assert (m = J). { eapply (broadcast_of_unique [J;J] [J;J]); [tauto|eauto|].
             split; [intros u [<-|[<-|[]]]; auto|]. split; [right; exists J; simpl; auto|].
             intros k. split; [intros u [<-|[<-|[]]]; auto|]. right; exists J; simpl; auto. }
           subst m. apply Hall. simpl in *; tauto.
        -- intros Hall. assert (I = out) by (apply Hall; simpl; auto). assert (J = out) by (apply Hall; simpl; auto).
           subst I J. split; auto. intros s Hs. simpl in Hs. destruct Hs as [<-|Hs]; [|apply Hall; simpl; auto].
           eapply (broadcast_of_unique [out;out] [out;out]); [tauto|eauto|].
           split; [intros u [<-|[<-|[]]]; auto|]. split; [right; exists out; simpl; auto|].
           intros k. split; [intros u [<-|[<-|[]]]; auto|]. right; exists out; simpl; auto.
      * intros HN. rewrite IH2; auto. intros HH; apply HN, Hcc; auto.
    + split; auto. intros HCall. exfalso. apply HN. intros s u k Hs Hu.
      apply HCall; simpl in *; tauto.
Qed.

Lemma fixed_refuted_lemma :
  (exists a b, ~ compatible [a; b] /\ exists out t, promote_fixed a [b] = Ok (out, t)) /\
  (exists a b out t, compatible [a; b] /\ promote_fixed a [b] = Ok (out, t) /\ ~ broadcast_of [a; b] out).
Proof.
  split.
  - exists [0], [3]. split.
    + intros H. specialize (H [0] [3] 0%nat ltac:(simpl; auto) ltac:(simpl; auto)). vm_compute in H. intuition discriminate.
    + exists [3], false. reflexivity.
  - exists [1], [0], [1], false. split.
    + intros s t k Hs Ht. simpl in Hs, Ht. destruct k as [|k].
      * destruct Hs as [<-|[<-|[]]], Ht as [<-|[<-|[]]]; vm_compute; auto.
      * left. apply axis_out. destruct Hs as [<-|[<-|[]]]; simpl; lia.
    + split; [reflexivity|]. intros (_ & _ & H). destruct (H 0%nat) as (H1 & _).
      destruct (H1 [0] ltac:(simpl; auto)) as [H2|H2]; vm_compute in H2; discriminate.
Qed.

(** ** xt::broadcast *)
Lemma xbroadcast_lemma e s :
  real_shape e -> real_shape s ->
  ((length e <= length s)%nat /\ compatible [e; s] ->
     exists out, xbroadcast_shape e s = Ok out /\ broadcast_of [e; s] out) /\
  (~ ((length e <= length s)%nat /\ compatible [e; s]) -> xbroadcast_shape e s = Throw broadcast_error) /\
  (broadcastable e s = Ok true -> xbroadcast_shape e s = Ok s).
Proof.
  intros He Hs. unfold xbroadcast_shape.
  destruct (Nat.ltb_spec (length s) (length e)) as [Hl|Hl].
  - split; [intros [? _]; lia|]. split; [auto|].
    intros HB. destruct (broadcastable_lemma e s) as (b & Hb & Hb2). rewrite HB in Hb. inversion Hb; subst.
    destruct Hb2 as (Hb2 & _). specialize (Hb2 eq_refl). lia.
  - pose proof (inv_step (length s) [s] (rev s) true e) as HI.
    assert (HI0 : inv (length s) [s] (rev s) true).
    { split; [apply rev_length|]. split; [intros u [<-|[]]; auto|]. split.
      - intros k Hk. right. rewrite <- axis_in by auto. split; [apply real_axis; auto|].
        split; [exists s; simpl; auto|]. split; [intros u [<-|[]]; auto|]. right; exists s; simpl; auto.
      - split; auto. intros _ u [<-|[]]; auto. }
    specialize (HI HI0 He (Forall_cons _ Hs (Forall_nil _)) Hl). simpl app in HI.
    rewrite broadcast_shape_ok. destruct (merge_rev (rev s) (rev e)) as [r|] eqn:EM; cbn [bind].
    + destruct HI as (HIl & _ & HIx & _).
      assert (HB : broadcast_of [s; e] (rev r)).
      { split; [intros u Hu; rewrite rev_length; simpl in Hu; destruct Hu as [<-|[<-|[]]]; lia|].
        split; [right; exists s; rewrite rev_length; simpl; auto|].
        intros k. destruct (Nat.lt_ge_cases k (length s)) as [Hk|Hk].
        - rewrite (axis_in (rev r)) by (rewrite rev_length; lia). rewrite rev_involutive.
          destruct (HIx k Hk) as [(_ & Hx)|(_ & _ & Hx & Hy)]; auto.
          specialize (Hx s ltac:(simpl; auto)). lia.
        - split; [intros u Hu; left; apply axis_out; simpl in Hu; destruct Hu as [<-|[<-|[]]]; lia|].
          left. apply axis_out. rewrite rev_length; lia. }
      assert (HC : compatible [e; s]).
      { destruct HB as (_ & _ & HB). intros u v k Hu Hv. destruct (HB k) as (Hx & _).
        destruct (Hx u ltac:(simpl in *; tauto)) as [| ->]; auto.
        destruct (Hx v ltac:(simpl in *; tauto)) as [| ->]; auto. }
      split; [intros _; exists (rev r); split; auto; apply broadcast_of_swap; auto|].
      split; [intros HN; exfalso; apply HN; auto|].
      intros HBr. apply broadcastable_iff_keeps in HBr; auto. destruct HBr as (t & HBr).
      rewrite broadcast_shape_ok, EM in HBr. inversion HBr. congruence.
    + split; [intros [_ HC]; exfalso; apply HI; apply compatible_swap; auto|]. split; auto.
      intros HBr. apply broadcastable_iff_keeps in HBr; auto. destruct HBr as (t & HBr).
      rewrite broadcast_shape_ok, EM in HBr. discriminate.
Qed.

Lemma xbroadcast_refuted_lemma :
  exists e s out, broadcastable e s = Ok false /\ xbroadcast_shape e s = Ok out /\ out <> s.
Proof. exists [3], [1], [3]. split; [reflexivity|]. split; [reflexivity|]. discriminate. Qed.

Lemma zero_unit_squash e ix : zero_unit e ix = squash e ix.
Proof. revert ix; induction e; intros [|i ix]; simpl; auto. Qed.

Lemma bc_index_in_bounds e out ix :
  (length e <= length out)%nat -> in_bounds out ix ->
  (forall k, axis e k = 1 \/ axis e k = axis out k) -> in_bounds e (bc_index e ix).
Proof.
  intros HL HB HA. assert (Hlen : length ix = length out) by (apply Forall2_length in HB; auto).
  unfold bc_index. rewrite zero_unit_squash. apply squash_in_bounds.
  apply Forall2_intro_nth; [rewrite skipn_length; lia|].
  intros j d i Hd Hi.
  assert (Hj : (j < length e)%nat) by (eapply nth_error_Some_lt; eauto).
  assert (Hk := HA (length e - S j)%nat). rewrite !axis_nth in Hk by lia.
  replace (length e - S (length e - S j))%nat with j in Hk by lia.
  rewrite nth_error_skipn in Hi.
  apply (nth_error_nth _ _ 0) in Hd, Hi. rewrite Hd in Hk.
  replace (length out - S (length e - S j))%nat with (length ix - length e + j)%nat in Hk by lia.
  pose proof (in_bounds_nth _ _ (length ix - length e + j)%nat HB ltac:(lia)). lia.
Qed.

Lemma xbroadcast_element_lemma L l e st0 st bs ds s out ix :
  is_shape e -> length st0 = length e -> compute_strides L e l st0 None = Ok (st, bs, ds) ->
  (length e <= length s)%nat -> broadcast_of [e; s] out -> in_bounds out ix ->
  in_bounds e (bc_index e ix) /\
  data_offset st ix false = Ok (element_offset st (bc_index e ix)).
Proof.
  intros Hsh H0 Hc Hle (HBl & _ & HBk) Hb.
  assert (HL : (length e <= length out)%nat) by (apply HBl; simpl; auto).
  assert (Hlen : length ix = length out) by (symmetry; apply Forall2_length in Hb; auto).
  split; [apply (bc_index_in_bounds e out ix HL Hb); intros k; apply (HBk k); simpl; auto|].
  destruct (spec_stride_one _ _ _ _ _ _ _ H0 Hc) as (Hl & Hone).
  rewrite <- (firstn_skipn (length ix - length e) ix) at 1.
  destruct (short_long_access_lemma st) as (H1 & H2 & _ & _).
  destruct (H2 (firstn (length ix - length e) ix) (skipn (length ix - length e) ix)) as (-> & _);
    [rewrite skipn_length; lia|].
  destruct (H1 (skipn (length ix - length e) ix)) as (-> & _); [rewrite skipn_length; lia|].
  f_equal. unfold bc_index. rewrite zero_unit_squash.
  rewrite element_offset_same by (rewrite squash_length; rewrite ?skipn_length; lia).
  symmetry. apply dot_squash; auto. rewrite skipn_length; lia.
Qed.
