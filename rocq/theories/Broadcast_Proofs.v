From Coq Require Import List ZArith Lia Bool.
From Verif Require Import Prelude PreludeFacts Broadcast_Model Broadcast_Spec.
Import ListNotations.
Open Scope Z_scope.

Definition merge1 (o x : Z) : option Z :=
  if o =? max_extent then Some x
  else if o =? 1 then Some x
  else if x =? 1 then Some o
  else if x =? o then Some o else None.

Definition triv1 (o x : Z) : bool :=
  if o =? max_extent then true else if o =? 1 then x =? 1 else negb (x =? 1).

Fixpoint merge_rev (out inp : list Z) {struct inp} : option (list Z) :=
  match inp, out with
  | [], _ => Some out
  | _ :: _, [] => None
  | x :: inp', o :: out' =>
      match merge1 o x, merge_rev out' inp' with
      | Some v, Some r => Some (v :: r)
      | _, _ => None
      end
  end.

Fixpoint triv_rev (out inp : list Z) {struct inp} : bool :=
  match inp, out with
  | x :: inp', o :: out' => triv1 o x && triv_rev out' inp'
  | _, _ => true
  end.

Lemma rd_mid {A} (l1 : list A) x l2 : rd (l1 ++ x :: l2) (length l1) = Ok x.
Proof. apply rd_ok. rewrite nth_error_app2, Nat.sub_diag by lia. reflexivity. Qed.

Lemma wr_mid {A} (l1 : list A) x l2 v : wr (l1 ++ x :: l2) (length l1) v = Ok (l1 ++ v :: l2).
Proof.
  rewrite wr_ok by (rewrite app_length; simpl; lia). f_equal. apply upd_mid.
Qed.

Lemma broadcast_loop n : forall inp tail out done tb sh,
  length inp = n -> (n <= length out)%nat -> sh = (length out - n)%nat ->
  for_down (broadcast_shape_body (inp ++ tail) sh) n (out ++ done, tb) =
  match merge_rev (rev out) (rev inp) with
  | Some r => Ok (rev r ++ done, tb && triv_rev (rev out) (rev inp))
  | None => Throw broadcast_error
  end.
Proof.
  induction n; intros inp tail out done tb sh Hi Ho Hsh.
  - destruct inp; [|discriminate]. simpl. rewrite rev_involutive, andb_true_r. reflexivity.
  - destruct (exists_last (l := inp)) as (inp' & x & ->); [intros ->; discriminate|].
    destruct (exists_last (l := out)) as (out' & o & ->); [intros ->; simpl in Ho; lia|].
    rewrite app_length in Hi, Ho, Hsh. simpl in Hi, Ho, Hsh.
    rewrite !rev_app_distr. cbn [rev app merge_rev triv_rev for_down].
    rewrite <- !app_assoc. cbn [app].
    assert (Hx : rd (inp' ++ x :: tail) n = Ok x).
    { replace n with (length inp') by lia. apply rd_mid. }
    assert (HO : rd (out' ++ o :: done) (n + sh) = Ok o).
    { replace (n + sh)%nat with (length out') by lia. apply rd_mid. }
    assert (HW : wr (out' ++ o :: done) (n + sh) x = Ok (out' ++ x :: done)).
    { replace (n + sh)%nat with (length out') by lia. apply wr_mid. }
    unfold broadcast_shape_body at 1. cbv beta iota. rewrite HO, Hx. bok.
    unfold merge1, triv1.
    assert (IH : forall v t, for_down (broadcast_shape_body (inp' ++ x :: tail) sh) n (out' ++ v :: done, t)
       = match merge_rev (rev out') (rev inp') with
         | Some r => Ok (rev r ++ v :: done, t && triv_rev (rev out') (rev inp'))
         | None => Throw broadcast_error
         end).
    { intros v t. apply (IHn inp' (x :: tail) out' (v :: done) t sh); lia. }
    destruct (o =? max_extent) eqn:E1.
    { rewrite HW. bok. rewrite IH. destruct (merge_rev _ _); auto. simpl.
      rewrite <- app_assoc. reflexivity. }
    destruct (o =? 1) eqn:E2.
    { rewrite HW. bok. rewrite IH. destruct (merge_rev _ _); auto. simpl.
      rewrite <- app_assoc, andb_assoc. reflexivity. }
    destruct (x =? 1) eqn:E3.
    { bok. rewrite IH. destruct (merge_rev _ _); auto. simpl.
      rewrite <- app_assoc, andb_false_r. reflexivity. }
    destruct (x =? o) eqn:E4; simpl negb; cbv iota; [|reflexivity].
    bok. rewrite IH. destruct (merge_rev _ _); auto. simpl.
    rewrite <- app_assoc. reflexivity.
Qed.

Lemma merge_rev_long out inp : (length out < length inp)%nat -> merge_rev out inp = None.
Proof.
  revert out; induction inp; intros [|o out] H; simpl in *; try lia; auto.
  rewrite IHinp by lia. destruct (merge1 o a); auto.
Qed.

Lemma broadcast_shape_ok inp out :
  broadcast_shape inp out =
  match merge_rev (rev out) (rev inp) with
  | Some r => Ok (rev r, (length inp =? length out)%nat && triv_rev (rev out) (rev inp))
  | None => Throw broadcast_error
  end.
Proof.
  unfold broadcast_shape. destruct (length out <? length inp)%nat eqn:E.
  - apply Nat.ltb_lt in E. rewrite merge_rev_long; auto. rewrite !rev_length; auto.
  - apply Nat.ltb_ge in E.
    pose proof (broadcast_loop (length inp) inp [] out [] (length inp =? length out)%nat _ eq_refl E eq_refl) as H.
    rewrite !app_nil_r in H. rewrite H. destruct (merge_rev _ _); auto. rewrite app_nil_r. reflexivity.
Qed.

Lemma merge_rev_some out inp r :
  merge_rev out inp = Some r ->
  length r = length out /\ (length inp <= length out)%nat /\
  forall k, (k < length out)%nat ->
    if (k <? length inp)%nat then merge1 (nth k out 0) (nth k inp 0) = Some (nth k r 0)
    else nth k r 0 = nth k out 0.
Proof.
  revert out r. induction inp as [|x inp IH]; intros out r H.
  - simpl in H. assert (r = out) by (destruct out; congruence). subst. split; auto. split; [simpl; lia|].
    intros. reflexivity.
  - destruct out as [|o out]; simpl in H; [discriminate|].
    destruct (merge1 o x) eqn:E1; [|discriminate].
    destruct (merge_rev out inp) eqn:E2; [|discriminate]. inversion H; subst.
    apply IH in E2. destruct E2 as (H1 & H2 & H3). simpl. split; [lia|]. split; [lia|].
    intros [|k] Hk; simpl; auto. apply H3; lia.
Qed.

Lemma merge_rev_none out inp :
  (length inp <= length out)%nat -> merge_rev out inp = None ->
  exists k, (k < length inp)%nat /\ merge1 (nth k out 0) (nth k inp 0) = None.
Proof.
  revert out. induction inp as [|x inp IH]; intros [|o out] H HN; simpl in *; try discriminate; try lia.
  destruct (merge1 o x) eqn:E1.
  - destruct (merge_rev out inp) eqn:E2; [discriminate|].
    destruct (IH out) as (k & Hk & Hm); auto; [lia|]. exists (S k). split; [lia|auto].
  - exists 0%nat. split; [lia|auto].
Qed.

Lemma triv_rev_all out inp :
  (length inp <= length out)%nat ->
  (triv_rev out inp = true <-> forall k, (k < length inp)%nat -> triv1 (nth k out 0) (nth k inp 0) = true).
Proof.
  revert out. induction inp as [|x inp IH]; intros [|o out] H; simpl in *; try lia.
  - split; auto. intros; lia.
  - split; auto. intros; lia.
  - rewrite andb_true_iff, IH by lia. split.
    + intros [H1 H2] [|k] Hk; simpl; auto. apply H2; lia.
    + intros HH. split; [apply (HH 0%nat); lia|]. intros k Hk. apply (HH (S k)); lia.
Qed.

(** Fold over leaves *)
Fixpoint bfold (ss : list (list Z)) (shape : list Z) (b : bool) : res (list Z * bool) :=
  match ss with
  | [] => Ok (shape, b)
  | s :: ss' => let* '(sh, t) := broadcast_shape s shape in bfold ss' sh (t && b)
  end.

Lemma bfold_app l1 l2 shape b :
  bfold (l1 ++ l2) shape b = let* '(sh, t) := bfold l1 shape b in bfold l2 sh t.
Proof.
  revert shape b; induction l1 as [|s l1 IH]; intros; simpl; auto.
  destruct (broadcast_shape s shape) as [[sh t]| |]; simpl; auto.
Qed.

Lemma bfold_flag ss shape b :
  bfold ss shape b = let* '(sh, t) := bfold ss shape true in Ok (sh, t && b).
Proof.
  revert shape b; induction ss as [|s ss IH]; intros; simpl; auto.
  destruct (broadcast_shape s shape) as [[sh t]| |]; simpl; auto.
  rewrite (IH sh (t && b)), (IH sh (t && true)).
  destruct (bfold ss sh true) as [[sh' t']| |]; simpl; auto.
  rewrite andb_true_r, andb_assoc. reflexivity.
Qed.

Section ExprInd.
  Variable P : expr -> Prop.
  Hypothesis HS : P EScalar.
  Hypothesis HL : forall s, P (ELeaf s).
  Hypothesis HF : forall es, Forall P es -> P (EFun es).
  Fixpoint expr_ind' (e : expr) : P e :=
    match e with
    | EScalar => HS
    | ELeaf s => HL s
    | EFun es => HF es ((fix go es : Forall P es :=
        match es with [] => Forall_nil _ | e :: es' => Forall_cons _ (expr_ind' e) (go es') end) es)
    end.
End ExprInd.

Lemma broadcast_expr_leaves e : forall shape, broadcast_expr e shape = bfold (leaves e) shape true.
Proof.
  induction e using expr_ind'; intros shape.
  - reflexivity.
  - simpl. destruct (broadcast_shape s shape) as [[sh t]| |]; simpl; auto. rewrite andb_true_r. reflexivity.
  - cbn [broadcast_expr leaves].
    assert (G : forall b, (fix go (es : list expr) (shape : list Z) (b : bool) : res (list Z * bool) :=
         match es with
         | [] => Ok (shape, b)
         | e :: es' =>
             let* '(shape', t) := broadcast_expr e shape in go es' shape' (t && b)
         end) es shape b = bfold (flat_map leaves es) shape b).
    { revert shape. induction H as [|e es He Hes IH]; intros shape b; [reflexivity|].
      cbn [flat_map]. rewrite bfold_app, He, (bfold_flag (leaves e) shape b).
      destruct (bfold (leaves e) shape true) as [[sh t]| |]; cbn [bind]; auto. }
    apply G.
Qed.

Fixpoint maxlen (ss : list (list Z)) : nat :=
  match ss with [] => 0 | s :: ss' => Nat.max (length s) (maxlen ss') end.

Lemma maxlen_app l1 l2 : maxlen (l1 ++ l2) = Nat.max (maxlen l1) (maxlen l2).
Proof. induction l1; simpl; auto. lia. Qed.

Lemma maxlen_ub ss s : In s ss -> (length s <= maxlen ss)%nat.
Proof. induction ss; simpl; [tauto|]. intros [->|H]; [lia|]. apply IHss in H. lia. Qed.

Lemma maxlen_attained ss : maxlen ss = 0%nat \/ exists s, In s ss /\ length s = maxlen ss.
Proof.
  induction ss as [|s ss IH]; simpl; auto.
  destruct (Nat.max_spec (length s) (maxlen ss)) as [[H ->]|[H ->]].
  - destruct IH as [IH|(t & Ht & Hl)]; [lia|]. right; exists t; auto.
  - right. exists s. auto.
Qed.

Lemma dimension_leaves e : dimension e = maxlen (leaves e).
Proof.
  induction e using expr_ind'; simpl; auto.
  - lia.
  - assert (G : forall d, fold_left (fun d e => Nat.max d (dimension e)) es d
                        = Nat.max d (maxlen (flat_map leaves es))).
    { induction H as [|e es He Hes IH]; intros d; simpl; [lia|]. rewrite IH, maxlen_app, He. lia. }
    rewrite G. lia.
Qed.

(** The invariant of the fold: [P] the shapes merged so far, [r] the reversed output. *)
Definition inv_axis (P : list (list Z)) (k : nat) (v : Z) : Prop :=
  (v = max_extent /\ forall s, In s P -> (length s <= k)%nat) \/
  (v <> max_extent /\ (exists s, In s P /\ (k < length s)%nat) /\
   (forall s, In s P -> axis s k = 1 \/ axis s k = v) /\
   (v = 1 \/ exists s, In s P /\ axis s k = v)).

Definition inv (n : nat) (P : list (list Z)) (r : list Z) (tb : bool) : Prop :=
  length r = n /\ (forall s, In s P -> (length s <= n)%nat) /\
  (forall k, (k < n)%nat -> inv_axis P k (nth k r 0)) /\
  (tb = true <-> forall s, In s P -> rev s = r).

Lemma axis_out s k : (length s <= k)%nat -> axis s k = 1.
Proof. intros. unfold axis. apply nth_overflow. rewrite rev_length; auto. Qed.

Lemma axis_in s k : (k < length s)%nat -> axis s k = nth k (rev s) 0.
Proof. intros. unfold axis. apply nth_indep. rewrite rev_length; auto. Qed.

Lemma real_axis s k : real_shape s -> axis s k <> max_extent.
Proof.
  intros H. unfold axis, max_extent. destruct (Nat.lt_ge_cases k (length (rev s))) as [Hk|Hk].
  - assert (In (nth k (rev s) 1) s) by (apply in_rev, nth_In; auto).
    unfold real_shape in H. rewrite Forall_forall in H. apply H in H0. lia.
  - rewrite nth_overflow by auto. discriminate.
Qed.

Lemma axis_nth_ext s (r : list Z) :
  length s = length r -> (forall k, (k < length r)%nat -> axis s k = nth k r 0) -> rev s = r.
Proof.
  intros HL H. apply (nth_ext _ _ 0 0); [rewrite rev_length; auto|].
  intros k Hk. rewrite rev_length in Hk. rewrite <- axis_in by lia. apply H; lia.
Qed.

Lemma inv_step n P r tb s :
  inv n P r tb -> real_shape s -> Forall real_shape P -> (length s <= n)%nat ->
  match merge_rev r (rev s) with
  | Some r' => inv n (P ++ [s]) r' (((length s =? n)%nat && triv_rev r (rev s)) && tb)
  | None => ~ compatible (P ++ [s])
  end.
Proof.
  intros (HL & Hle & Hax & Htb) Hs HP Hls.
  destruct (merge_rev r (rev s)) as [r'|] eqn:EM.
  - apply merge_rev_some in EM. destruct EM as (HL' & _ & HK). rewrite rev_length in HK.
    assert (HIA : forall k, (k < n)%nat -> inv_axis (P ++ [s]) k (nth k r' 0)).
    { intros k Hk. specialize (HK k ltac:(lia)). specialize (Hax k Hk).
      destruct (Nat.ltb_spec k (length s)) as [Hks|Hks].
      - right. rewrite <- axis_in in HK by auto.
        assert (HS : exists s0, In s0 (P ++ [s]) /\ (k < length s0)%nat).
        { exists s. split; [apply in_app_iff; simpl; auto|auto]. }
        assert (Hin : In s (P ++ [s])) by (apply in_app_iff; simpl; auto).
        unfold merge1 in HK. destruct Hax as [(Hv & Hlen)|(Hv & Hex & Hall & Hsome)].
        + rewrite Hv, Z.eqb_refl in HK. injection HK as HK'. rewrite <- HK'.
          split; [apply real_axis; auto|]. split; [auto|]. split; [|right; exists s; auto].
          intros t Ht. apply in_app_iff in Ht. destruct Ht as [Ht|[<-|[]]]; [left; apply axis_out; auto|auto].
        + destruct (Z.eqb_spec (nth k r 0) max_extent) as [|_]; [tauto|].
          destruct (Z.eqb_spec (nth k r 0) 1) as [Hone|Hone].
          { injection HK as HK'. rewrite <- HK'. split; [apply real_axis; auto|]. split; [auto|].
            split; [|right; exists s; auto].
            intros t Ht. apply in_app_iff in Ht. destruct Ht as [Ht|[<-|[]]]; [|auto].
            left. destruct (Hall t Ht); lia. }
          destruct (Z.eqb_spec (axis s k) 1) as [Hs1|Hs1].
          { injection HK as HK'. rewrite <- HK'. split; [auto|]. split; [auto|]. split.
            - intros t Ht. apply in_app_iff in Ht. destruct Ht as [Ht|[<-|[]]]; auto.
            - destruct Hsome as [|(t & Ht & Hv')]; [tauto|]. right. exists t. rewrite in_app_iff; auto. }
          destruct (Z.eqb_spec (axis s k) (nth k r 0)) as [Heq|Heq]; [|discriminate].
          { injection HK as HK'. rewrite <- HK'. split; [auto|]. split; [auto|]. split.
            - intros t Ht. apply in_app_iff in Ht. destruct Ht as [Ht|[<-|[]]]; auto.
            - right. exists s. auto. }
      - rewrite HK. destruct Hax as [(Hv & Hlen)|(Hv & (t & Ht & Hlt) & Hall & Hsome)].
        + left. split; auto. intros t Ht. apply in_app_iff in Ht. destruct Ht as [Ht|[<-|[]]]; auto.
        + right. split; auto. split; [exists t; rewrite in_app_iff; auto|]. split.
          * intros u Hu. apply in_app_iff in Hu. destruct Hu as [Hu|[<-|[]]]; auto.
            left. apply axis_out; auto.
          * destruct Hsome as [|(u & Hu & Hv')]; auto. right. exists u. rewrite in_app_iff; auto. }
    split; [lia|]. split; [|split; [exact HIA|]].
    + intros t Ht. apply in_app_iff in Ht. destruct Ht as [Ht|[<-|[]]]; auto.
    + rewrite !andb_true_iff, Nat.eqb_eq, triv_rev_all by (rewrite rev_length; lia).
      rewrite rev_length. split.
      * intros [[Hlen Htriv] Ht]. rewrite Htb in Ht.
        assert (Hrs : rev s = r').
        { apply axis_nth_ext; [lia|]. intros k Hk. specialize (HK k ltac:(lia)).
          destruct (Nat.ltb_spec k (length s)); [|lia].
          specialize (Htriv k ltac:(lia)). rewrite <- axis_in in HK, Htriv by lia.
          unfold merge1 in HK. unfold triv1 in Htriv.
          destruct (nth k r 0 =? max_extent); [congruence|].
          destruct (nth k r 0 =? 1); [congruence|].
          destruct (axis s k =? 1); [discriminate|].
          destruct (Z.eqb_spec (axis s k) (nth k r 0)); congruence. }
        intros t Ht'. apply in_app_iff in Ht'. destruct Ht' as [Ht'|[<-|[]]]; auto.
        specialize (Ht t Ht').
        assert (Hlt : length t = length s) by (rewrite <- (rev_length t), Ht; lia).
        assert (HLr : rev t = rev s).
        { apply axis_nth_ext; [rewrite rev_length; auto|]. rewrite rev_length. intros k Hk.
          specialize (Htriv k ltac:(lia)). rewrite <- axis_in in Htriv by auto.
          assert (Hrt : nth k r 0 = axis t k) by (rewrite axis_in by lia; congruence).
          specialize (HK k ltac:(lia)). destruct (Nat.ltb_spec k (length s)); [|lia].
          rewrite <- axis_in in * by lia. rewrite Hrt in *.
          assert (axis t k <> max_extent).
          { apply real_axis. rewrite Forall_forall in HP. auto. }
          unfold triv1 in Htriv. unfold merge1 in HK.
          destruct (Z.eqb_spec (axis t k) max_extent); [tauto|].
          destruct (Z.eqb_spec (axis t k) 1).
          - apply Z.eqb_eq in Htriv. congruence.
          - destruct (Z.eqb_spec (axis s k) 1); [discriminate|].
            destruct (Z.eqb_spec (axis s k) (axis t k)); congruence. }
        congruence.
      * intros Hall.
        assert (Hrs : rev s = r') by (apply Hall, in_app_iff; simpl; auto).
        assert (Hlen : length s = n) by (rewrite <- (rev_length s), Hrs; lia).
        assert (Hr : P <> [] -> r = r').
        { intros HPn. destruct P as [|t0 P']; [congruence|].
          apply (nth_ext _ _ 0 0); [lia|]. intros k Hk.
          assert (Ht0 : forall t, In t (t0 :: P') -> axis t k = nth k r' 0).
          { intros t Ht. specialize (Hall t ltac:(apply in_app_iff; auto)).
            rewrite axis_in by (rewrite <- (rev_length t), Hall; lia). congruence. }
          assert (Hk0 : (k < length t0)%nat).
          { rewrite <- (rev_length t0), (Hall t0) by (simpl; auto). lia. }
          specialize (Hax k ltac:(lia)). destruct Hax as [(_ & Hx)|(_ & _ & Hx & Hy)].
          - specialize (Hx t0 ltac:(simpl; auto)). lia.
          - destruct Hy as [Hy|(t & Ht & Hy)].
            + specialize (Hx t0 ltac:(simpl; auto)). rewrite (Ht0 t0) in Hx by (simpl; auto). lia.
            + rewrite (Ht0 t Ht) in Hy. auto. }
        split; [split; [auto|]|].
        { intros k Hk. rewrite <- axis_in by auto. unfold triv1.
          destruct (Z.eqb_spec (nth k r 0) max_extent); auto.
          destruct P as [|t0 P'].
          - specialize (Hax k ltac:(lia)). destruct Hax as [(Hx & _)|(_ & (t & [] & _) & _)]. tauto.
          - specialize (Hr ltac:(discriminate)).
            assert (Hxk : axis s k = nth k r 0) by (rewrite axis_in by auto; congruence).
            rewrite Hxk. destruct (nth k r 0 =? 1); auto.  }
        { apply Htb. intros t Ht. rewrite (Hall t) by (apply in_app_iff; auto).
          symmetry. apply Hr. intros ->. destruct Ht. }
  - destruct (merge_rev_none r (rev s)) as (k & Hk & HM); [rewrite rev_length; lia|auto|].
    rewrite rev_length in Hk. rewrite <- axis_in in HM by auto.
    specialize (Hax k ltac:(lia)). unfold merge1 in HM.
    destruct (Z.eqb_spec (nth k r 0) max_extent); [discriminate|].
    destruct (Z.eqb_spec (nth k r 0) 1); [discriminate|].
    destruct (Z.eqb_spec (axis s k) 1); [discriminate|].
    destruct (Z.eqb_spec (axis s k) (nth k r 0)); [discriminate|].
    destruct Hax as [(Hx & _)|(_ & _ & _ & [Hx|(t & Ht & Hx)])]; try tauto.
    intros HC. destruct (HC t s k) as [H|[H|H]]; try (apply in_app_iff; simpl; auto); congruence.
Qed.

Lemma bfold_inv n ss : forall P r tb,
  inv n P r tb -> Forall real_shape P -> Forall real_shape ss ->
  (forall s, In s ss -> (length s <= n)%nat) ->
  (exists r' tb', bfold ss (rev r) tb = Ok (rev r', tb') /\ inv n (P ++ ss) r' tb') \/
  (bfold ss (rev r) tb = Throw broadcast_error /\ ~ compatible (P ++ ss)).
Proof.
  induction ss as [|s ss IH]; intros P r tb HI HP Hss Hlen.
  - left. exists r, tb. rewrite app_nil_r. auto.
  - inversion Hss; subst. cbn [bfold]. rewrite broadcast_shape_ok, rev_involutive.
    assert (Hs : (length s <= n)%nat) by (apply Hlen; simpl; auto).
    pose proof (inv_step n P r tb s HI H1 HP Hs) as Hst.
    assert (HLr : length (rev r) = n) by (destruct HI; rewrite rev_length; auto).
    rewrite HLr.
    destruct (merge_rev r (rev s)) as [r'|]; cbn [bind].
    + destruct (IH (P ++ [s]) r' _ Hst) as [(r2 & tb2 & HE & HI2)|(HE & HN)].
      * apply Forall_app; auto.
      * auto.
      * intros t Ht; apply Hlen; simpl; auto.
      * left. exists r2, tb2. rewrite <- app_assoc in HI2. auto.
      * right. rewrite <- app_assoc in HN. auto.
    + right. split; auto. intros HC. apply Hst. intros a b k Ha Hb.
      apply HC; rewrite in_app_iff in *; simpl in *; tauto.
Qed.

Lemma inv_init n : inv n [] (repeat max_extent n) true.
Proof.
  split; [apply repeat_length|]. split; [intros s []|]. split.
  - intros k Hk. left. split; [|intros s []]. rewrite nth_indep with (d' := max_extent) by (rewrite repeat_length; auto).
    apply nth_repeat.
  - split; auto. intros _ s [].
Qed.

Lemma rev_repeat {A} (x : A) n : rev (repeat x n) = repeat x n.
Proof.
  induction n; simpl; auto. rewrite IHn. clear. induction n; simpl; auto. f_equal; auto.
Qed.

Lemma bfold_spec ss :
  Forall real_shape ss ->
  (exists out tb, bfold ss (uninitialized_shape (maxlen ss)) true = Ok (out, tb) /\
     broadcast_of ss out /\ compatible ss /\ (tb = true <-> forall s, In s ss -> s = out)) \/
  (bfold ss (uninitialized_shape (maxlen ss)) true = Throw broadcast_error /\ ~ compatible ss).
Proof.
  intros Hss.
  destruct (bfold_inv (maxlen ss) ss [] _ true (inv_init (maxlen ss)) (Forall_nil _) Hss (maxlen_ub ss))
    as [(r & tb & HE & HI)|(HE & HN)]; rewrite rev_repeat in HE; simpl app in *.
  - left. exists (rev r), tb. split; [exact HE|]. destruct HI as (HL & _ & Hax & Htb).
    assert (HA : forall k, axis (rev r) k = 1 \/ True) by auto.
    assert (Hk_ax : forall k, (k < maxlen ss)%nat -> axis (rev r) k = nth k r 0).
    { intros k Hk. rewrite axis_in by (rewrite rev_length; lia). rewrite rev_involutive. auto. }
    assert (Hseen : forall k, (k < maxlen ss)%nat -> exists s, In s ss /\ (k < length s)%nat).
    { intros k Hk. destruct (maxlen_attained ss) as [|(s & Hs & Hl)]; [lia|]. exists s. split; auto. lia. }
    assert (Hgood : forall k, (k < maxlen ss)%nat ->
              (forall s, In s ss -> axis s k = 1 \/ axis s k = nth k r 0) /\
              (nth k r 0 = 1 \/ exists s, In s ss /\ axis s k = nth k r 0)).
    { intros k Hk. destruct (Hax k Hk) as [(_ & Hx)|(_ & _ & Hx & Hy)]; [|auto].
      destruct (Hseen k Hk) as (s & Hs & Hl). specialize (Hx s Hs). lia. }
    split; [|split].
    + split; [intros s Hs; rewrite rev_length, HL; apply maxlen_ub; auto|]. split.
      * destruct (maxlen_attained ss) as [H0|(s & Hs & Hl)].
        -- left. destruct r; [reflexivity|simpl in HL; lia].
        -- right. exists s. rewrite rev_length. split; auto; lia.
      * intros k. destruct (Nat.lt_ge_cases k (maxlen ss)) as [Hk|Hk].
        -- rewrite Hk_ax by auto. apply Hgood; auto.
        -- split.
           ++ intros s Hs. left. apply axis_out. pose proof (maxlen_ub ss s Hs). lia.
           ++ left. apply axis_out. rewrite rev_length. lia.
    + intros s t k Hs Ht. destruct (Nat.lt_ge_cases k (maxlen ss)) as [Hk|Hk].
      * destruct (Hgood k Hk) as (Hx & _). pose proof (Hx s Hs). pose proof (Hx t Ht). intuition congruence.
      * left. apply axis_out. pose proof (maxlen_ub ss s Hs). lia.
    + rewrite Htb. split; intros H s Hs.
      * rewrite <- (H s Hs), rev_involutive. reflexivity.
      * rewrite (H s Hs), rev_involutive. reflexivity.
  - right. auto.
Qed.

Lemma broadcast_expr_lemma (e : expr) :
  real_expr e ->
  (compatible (leaves e) ->
     exists out t, expr_shape e = Ok (out, t) /\ broadcast_of (leaves e) out) /\
  (~ compatible (leaves e) -> expr_shape e = Throw broadcast_error).
Proof.
  intros H. unfold expr_shape. rewrite broadcast_expr_leaves, dimension_leaves.
  destruct (bfold_spec (leaves e) H) as [(out & tb & HE & HB & HC & _)|(HE & HN)]; split; intros HH; try tauto.
  exists out, tb; auto.
Qed.

Lemma trivial_lemma (e : expr) out t :
  real_expr e -> expr_shape e = Ok (out, t) ->
  (t = true <-> forall s, In s (leaves e) -> s = out).
Proof.
  intros H. unfold expr_shape. rewrite broadcast_expr_leaves, dimension_leaves. intros HO.
  destruct (bfold_spec (leaves e) H) as [(out' & tb & HE & _ & _ & Ht)|(HE & HN)]; [|congruence].
  rewrite HE in HO. inversion HO; subst. auto.
Qed.

Lemma axis_ext s t : length s = length t -> (forall k, axis s k = axis t k) -> s = t.
Proof.
  intros HL H. rewrite <- (rev_involutive s), <- (rev_involutive t). f_equal.
  apply axis_nth_ext; [rewrite rev_length; auto|]. rewrite rev_length. intros k Hk.
  rewrite H. apply axis_in; auto.
Qed.

Lemma broadcast_of_unique ss ss' o o' :
  (forall s, In s ss <-> In s ss') -> broadcast_of ss o -> broadcast_of ss' o' -> o = o'.
Proof.
  intros HS (Hl & Ha & Hk) (Hl' & Ha' & Hk'). apply axis_ext.
  - apply Nat.le_antisymm.
    + destruct Ha as [->|(s & Hs & <-)]; [simpl; lia|]. apply Hl', HS; auto.
    + destruct Ha' as [->|(s & Hs & <-)]; [simpl; lia|]. apply Hl, HS; auto.
  - intros k. destruct (Hk k) as (H1 & H2), (Hk' k) as (H1' & H2').
    destruct H2 as [H2|(s & Hs & H2)].
    + destruct H2' as [H2'|(t & Ht & H2')]; [congruence|].
      destruct (H1 t) as [H|H]; [apply HS; auto| |]; congruence.
    + destruct (H1' s) as [H|H]; [apply HS; auto| |congruence].
      rewrite H in H2. destruct H2' as [H2'|(t & Ht & H2')]; [congruence|].
      destruct (H1 t) as [HH|HH]; [apply HS; auto| |]; congruence.
Qed.

Lemma order_lemma (e1 e2 : expr) :
  real_expr e1 -> real_expr e2 -> (forall s, In s (leaves e1) <-> In s (leaves e2)) ->
  expr_shape e1 = expr_shape e2.
Proof.
  intros H1 H2 HS. unfold expr_shape. rewrite !broadcast_expr_leaves, !dimension_leaves.
  assert (HCC : compatible (leaves e1) <-> compatible (leaves e2)).
  { split; intros HC s t k Hs Ht; apply HC; apply HS; auto. }
  destruct (bfold_spec (leaves e1) H1) as [(o1 & t1 & -> & HB1 & HC1 & HT1)|(-> & HN1)];
    destruct (bfold_spec (leaves e2) H2) as [(o2 & t2 & -> & HB2 & HC2 & HT2)|(-> & HN2)]; try tauto.
  rewrite (broadcast_of_unique _ _ _ _ HS HB1 HB2) in *.
  replace t2 with t1; auto.
  destruct t1, t2; auto; exfalso.
  - assert (false = true); [|discriminate]. apply HT2. intros s Hs. apply HT1; auto. apply HS; auto.
  - assert (false = true); [|discriminate]. apply HT1. intros s Hs. apply HT2; auto. apply HS; auto.
Qed.

(** broadcastable *)
Lemma broadcastable_loop_ok src dst : (length src <= length dst)%nat ->
  broadcastable_loop src dst true =
  Ok (forallb (fun '(s, d) => (s =? d) || (s =? 1)) (combine src dst)).
Proof.
  revert dst. induction src as [|s src IH]; intros [|d dst] H; simpl in *; auto; try lia.
  destruct ((s =? d) || (s =? 1)); simpl.
  - apply IH; lia.
  - destruct src; reflexivity.
Qed.

Lemma broadcastable_lemma src dst :
  exists b, broadcastable src dst = Ok b /\
  (b = true <-> (length src <= length dst)%nat /\ forall k, axis src k = 1 \/ axis src k = axis dst k).
Proof.
  unfold broadcastable. destruct (Nat.leb_spec (length src) (length dst)) as [H|H].
  - rewrite broadcastable_loop_ok by (rewrite !rev_length; auto). eexists; split; [reflexivity|].
    rewrite forallb_forall. split.
    + intros HA. split; auto. intros k. destruct (Nat.lt_ge_cases k (length src)) as [Hk|Hk].
      * rewrite !axis_in by lia.
        assert (Hin : In (nth k (rev src) 0, nth k (rev dst) 0) (combine (rev src) (rev dst))).
        { assert (HC : forall (l1 l2 : list Z) k, (k < length l1)%nat -> (length l1 <= length l2)%nat ->
                    In (nth k l1 0, nth k l2 0) (combine l1 l2)).
          { clear. induction l1; intros [|b l2] [|k] Hk HL; simpl in *; try lia; auto. right. apply IHl1; lia. }
          apply HC; rewrite !rev_length; lia. }
        apply HA in Hin. apply orb_true_iff in Hin. rewrite !Z.eqb_eq in Hin. tauto.
      * left. apply axis_out; auto.
    + intros [_ HA] [x y] Hin. apply (In_nth _ _ (0, 0)) in Hin. destruct Hin as (k & Hk & Hn).
      rewrite combine_length, !rev_length in Hk.
      assert (HC : forall (l1 l2 : list Z) k, (k < length l1)%nat -> (length l1 <= length l2)%nat ->
                    nth k (combine l1 l2) (0, 0) = (nth k l1 0, nth k l2 0)).
      { clear. induction l1; intros [|b l2] [|k] Hk HL; simpl in *; try lia; auto. apply IHl1; lia. }
      rewrite HC in Hn by (rewrite !rev_length; lia). inversion Hn; subst.
      rewrite <- !axis_in by lia. apply orb_true_iff. rewrite !Z.eqb_eq. destruct (HA k); auto.
  - exists false. split.
    + destruct (rev src) eqn:E; [|reflexivity].
      apply (f_equal (@length Z)) in E. rewrite rev_length in E. simpl in E. lia.
    + split; [discriminate|]. intros [HH _]. lia.
Qed.

Lemma broadcastable_iff_keeps src dst :
  real_shape src -> real_shape dst ->
  (broadcastable src dst = Ok true <-> exists t, broadcast_shape src dst = Ok (dst, t)).
Proof.
  intros Hs Hd. destruct (broadcastable_lemma src dst) as (b & -> & Hb).
  assert (HP : (Ok b = Ok true) <-> b = true) by (split; congruence). rewrite HP, Hb. clear HP.
  rewrite broadcast_shape_ok. split.
  - intros (HL & HA).
    destruct (merge_rev (rev dst) (rev src)) as [r|] eqn:E.
    + apply merge_rev_some in E. destruct E as (E1 & _ & E3).
      eexists. f_equal. f_equal. rewrite <- (rev_involutive dst). f_equal. symmetry.
      rewrite rev_length in E1, E3. apply axis_nth_ext; [auto|]. intros k Hk.
      specialize (E3 k ltac:(lia)). rewrite rev_length in E3.
      destruct (Nat.ltb_spec k (length src)).
      * rewrite <- !axis_in in E3 by lia. unfold merge1 in E3.
        pose proof (real_axis dst k Hd). destruct (Z.eqb_spec (axis dst k) max_extent); [tauto|].
        specialize (HA k).
        destruct (Z.eqb_spec (axis dst k) 1); [|destruct (axis src k =? 1); [|destruct (axis src k =? axis dst k)]];
          inversion E3; intuition congruence.
      * rewrite E3. apply axis_in; lia.
    + exfalso. apply merge_rev_none in E; [|rewrite !rev_length; auto].
      destruct E as (k & Hk & HM). rewrite rev_length in Hk. rewrite <- !axis_in in HM by lia.
      unfold merge1 in HM. specialize (HA k).
      destruct (axis dst k =? max_extent); [discriminate|].
      destruct (axis dst k =? 1); [discriminate|].
      destruct (Z.eqb_spec (axis src k) 1); [discriminate|].
      destruct (Z.eqb_spec (axis src k) (axis dst k)); [discriminate|]. tauto.
  - intros (t & H). destruct (merge_rev (rev dst) (rev src)) as [r|] eqn:E; [|discriminate].
    inversion H; subst. apply merge_rev_some in E. rewrite !rev_length, !rev_involutive in E.
    destruct E as (E1 & E2 & E3). split; [rewrite rev_length; lia|].
    intros k. destruct (Nat.lt_ge_cases k (length src)) as [Hk|Hk].
    + specialize (E3 k ltac:(lia)). destruct (Nat.ltb_spec k (length src)); [|lia].
      rewrite (axis_in (rev r)) by (rewrite rev_length; lia). rewrite rev_involutive.
      rewrite <- axis_in in E3 by auto. unfold merge1 in E3.
      destruct (nth k r 0 =? max_extent); [inversion E3; auto|].
      destruct (nth k r 0 =? 1); [inversion E3; auto|].
      destruct (Z.eqb_spec (axis src k) 1); auto.
      destruct (Z.eqb_spec (axis src k) (nth k r 0)); [auto|discriminate].
    + left. apply axis_out; auto.
Qed.
