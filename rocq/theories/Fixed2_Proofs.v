(** Proofs about assignment when shapes are part of types. *)
From Coq Require Import List ZArith Bool Lia.
From Verif Require Import Prelude PreludeFacts Strides_Model Strides_Spec Strides_Proofs Broadcast_Model Broadcast_Spec
  Broadcast_Proofs Broadcast2_Proofs Layout_Model Slice_Model Access_Model
  Stepper_Model Stepper_Spec Stepper_Proofs Stepper3_Proofs Stepper4_Proofs Container_Model Container_Spec Container_Proofs
  Assign_Model Assign_Spec Assign_Proofs Assign2_Proofs Assign6_Proofs Assign7_Proofs Semantic_Model Semantic_Spec Semantic_Proofs
  Semantic2_Proofs Semantic3_Proofs Fixed_Model Fixed_Spec Fixed_Proofs.
Import ListNotations.
Open Scope Z_scope.

(** ** The shapes of the arguments and of the operands *)
Definition arg_ok (p : list (list Z) * list Z) : Prop :=
  (fst p <> [] /\ snd p <> [] /\ broadcast_of (fst p) (snd p)) \/ (fst p = [] /\ snd p = [1]).

Lemma axis_single1 k : axis [1] k = 1.
Proof. unfold axis. destruct k as [|[|k]]; reflexivity. Qed.

Lemma arg_axis p k : arg_ok p -> axis (snd p) k = 1 \/ exists s, In s (fst p) /\ axis s k = axis (snd p) k.
Proof.
  intros [(_ & _ & _ & _ & H)|[_ -> ]]; [|left; apply axis_single1]. apply H.
Qed.

Lemma args_compatible ps : Forall arg_ok ps -> compatible (flat_map fst ps) -> compatible (map snd ps).
Proof.
  intros HF HC s t k Hs Ht. apply in_map_iff in Hs, Ht. destruct Hs as (p & <- & Hp), Ht as (q & <- & Hq).
  rewrite Forall_forall in HF.
  destruct (arg_axis p k (HF _ Hp)) as [|(s' & Hs' & <-)]; [auto|].
  destruct (arg_axis q k (HF _ Hq)) as [|(t' & Ht' & <-)]; [auto|].
  apply HC; apply in_flat_map; eauto.
Qed.

Lemma args_broadcast ps out : Forall arg_ok ps -> (exists p, In p ps /\ fst p <> []) ->
  broadcast_of (map snd ps) out -> broadcast_of (flat_map fst ps) out.
Proof.
  intros HF (p0 & Hp0 & Hne0) (B1 & B2 & B3). rewrite Forall_forall in HF.
  assert (B1' : forall p, In p ps -> (length (snd p) <= length out)%nat) by (intros p Hp; apply B1; apply in_map; exact Hp).
  split; [|split].
  - intros s Hs. apply in_flat_map in Hs. destruct Hs as (p & Hp & Hs). specialize (B1' p Hp).
    destruct (HF p Hp) as [(_ & _ & A1 & _)|[E _]]; [|rewrite E in Hs; destruct Hs]. specialize (A1 s Hs). lia.
  - assert (Hlong : forall p, In p ps -> length (snd p) = length out -> fst p <> [] -> out = [] \/ exists s, In s (flat_map fst ps) /\ length s = length out).
    { intros p Hp El Hne. destruct (HF p Hp) as [(_ & Hn & _ & A2 & _)|[E _]]; [|congruence].
      destruct A2 as [A2|(s & Hs & A2)]; [contradiction|]. right. exists s. split; [apply in_flat_map; eauto|lia]. }
    destruct B2 as [B2|(t & Ht & B2)]; [auto|]. apply in_map_iff in Ht. destruct Ht as (p & <- & Hp).
    destruct (HF p Hp) as [(Hne & _)|[E1 E2]]; [eapply Hlong; eauto|].
    assert (length (snd p0) = length out).
    { rewrite E2 in B2. cbn in B2. specialize (B1' p0 Hp0). destruct (HF p0 Hp0) as [(_ & Hn & _)|[E _]]; [|congruence].
      destruct (snd p0); [congruence|cbn in *; lia]. }
    apply (Hlong p0); auto.
  - intros k. destruct (B3 k) as [B4 B5]. split.
    + intros s Hs. apply in_flat_map in Hs. destruct Hs as (p & Hp & Hs).
      destruct (HF p Hp) as [(_ & _ & _ & _ & A3)|[E _]]; [|rewrite E in Hs; destruct Hs].
      destruct (A3 k) as [A4 _]. destruct (A4 s Hs) as [A|A]; [auto|]. rewrite A. apply B4. apply in_map. exact Hp.
    + destruct B5 as [B5|(t & Ht & B5)]; [auto|]. apply in_map_iff in Ht. destruct Ht as (p & <- & Hp).
      destruct (arg_axis p k (HF p Hp)) as [A|(s & Hs & A)]; [left; congruence|]. right. exists s. split; [apply in_flat_map; eauto|congruence].
Qed.

Lemma broadcast_pos ss out : broadcast_of ss out -> Forall (fun s => Forall (fun d => 0 < d) s) ss -> Forall (fun d => 0 < d) out.
Proof.
  intros (_ & _ & B3) HF. rewrite Forall_forall in *. intros d Hd.
  destruct (In_nth out d 0 Hd) as (j & Hj & <-). rewrite <- axis_at by exact Hj.
  destruct (B3 (length out - 1 - j)%nat) as [_ [E|(s & Hs & E)]]; [lia|]. rewrite <- E. unfold axis.
  destruct (Nat.lt_ge_cases (length out - 1 - j) (length (rev s))) as [Hl|Hl].
  - specialize (HF s Hs). rewrite Forall_forall in HF. apply HF. apply in_rev. apply nth_In. exact Hl.
  - rewrite nth_overflow by exact Hl. lia.
Qed.

Lemma compatible_sub ss ss' : (forall s, In s ss' -> In s ss) -> compatible ss -> compatible ss'.
Proof. intros H HC s t k Hs Ht. apply HC; auto. Qed.

Section S.
Context {V : Type}.

Definition type_ok (e : aexp V) (ty : option (list Z)) : Prop :=
  match ty with
  | None => operand_shapes e = []
  | Some s => operand_shapes e <> [] /\ s <> [] /\ broadcast_of (operand_shapes e) s
  end.
Definition fill1 (ty : option (list Z)) : list Z := match ty with Some s => s | None => [1] end.

Lemma operand_fun (f : list V -> V) args : operand_shapes (AFun f args) = flat_map operand_shapes args.
Proof. unfold operand_shapes. cbn. induction args as [|x args IH]; cbn; [reflexivity|rewrite IH; reflexivity]. Qed.

Lemma operand_flat (l : list (aexp V)) ts : length ts = length l ->
  flat_map fst (map (fun p => (operand_shapes (fst p), fill1 (fst (snd p : option (list Z) * bool)))) (combine l ts)) = flat_map operand_shapes l.
Proof.
  revert ts. induction l as [|x l IH]; intros [|t ts] H; cbn in *; try lia; [reflexivity|]. rewrite IH by lia. reflexivity.
Qed.

(** What the compiler knows about the shape: broadcasting of the operands, and the flag
    "trivial" tells that all arguments of the outermost function have that shape. *)
Lemma static_type_ok (e : aexp V) : plain_operands e -> compatible (operand_shapes e) ->
  exists ty t, static_type e = Ok (ty, t) /\ type_ok e ty /\
    (t = true -> forall f args, e = AFun f args -> forall sh, ty = Some sh ->
       forall x, In x args -> (operand_shapes x = [] /\ sh = [1]) \/ broadcast_of (operand_shapes x) sh).
Proof.
  unfold plain_operands. induction e as [v|m k src|s f|f args IH] using aexp_ind'; intros HP HC.
  - exists None, true. split; [reflexivity|]. split; [reflexivity|]. intros _ f' args' E. discriminate E.
  - exists (Some (k_shape k)), true. split; [reflexivity|]. split; [|intros _ f' args' E; discriminate E].
    unfold operand_shapes in HP. cbn in *. inversion HP as [|? ? [H1 H2] ?]; subst.
    split; [discriminate|]. split; [exact H1|apply broadcast_single].
  - exists (Some s), true. split; [reflexivity|]. split; [|intros _ f' args' E; discriminate E].
    unfold operand_shapes in HP. cbn in *. inversion HP as [|? ? [H1 H2] ?]; subst.
    split; [discriminate|]. split; [exact H1|apply broadcast_single].
  - rewrite operand_fun in *.
    assert (HT : exists ts, seqM (map static_type args) = Ok ts /\ Forall2 (fun x (t : option (list Z) * bool) => type_ok x (fst t)) args ts).
    { clear f. induction args as [|x args IHa]; [exists []; split; [reflexivity|constructor]|].
      cbn [flat_map] in *. apply Forall_app in HP. destruct HP as [HP1 HP2]. inversion IH as [|? ? IH1 IH2]; subst.
      destruct (IH1 HP1) as (ty & t & E & Ho & _); [eapply compatible_sub; [|exact HC]; intros; apply in_or_app; auto|].
      destruct (IHa IH2 HP2) as (ts & E2 & HF); [eapply compatible_sub; [|exact HC]; intros; apply in_or_app; auto|].
      exists ((ty, t) :: ts). cbn [map seqM]. rewrite E. cbn [bind]. rewrite E2. split; [reflexivity|]. constructor; assumption. }
    destruct HT as (ts & E & HF). assert (Hlen : length args = length ts) by (clear - HF; induction HF; cbn; congruence).
    cbn [static_type]. rewrite E. cbn [bind].
    set (ps := map (fun p => (operand_shapes (fst p), fill1 (fst (snd p : option (list Z) * bool)))) (combine args ts)).
    assert (Hflat : flat_map fst ps = flat_map operand_shapes args) by (apply operand_flat; lia).
    assert (Hsnd : map snd ps = map (fun t : option (list Z) * bool => match fst t with Some s => s | None => [1] end) ts).
    { unfold ps. rewrite map_map. cbn [snd]. clear - Hlen. revert ts Hlen. induction args as [|x args IHa]; intros [|t ts] H; cbn in *; try lia; [reflexivity|]. f_equal. apply IHa. lia. }
    assert (Hps : Forall arg_ok ps).
    { unfold ps. clear - HF. induction HF as [|x t args ts H HF IHF]; cbn; constructor; auto. unfold arg_ok. cbn [fst snd].
      unfold type_ok in H. destruct (fst t) as [s|]; cbn [fill1]; [left; tauto|right; tauto]. }
    destruct (forallb (fun t : option (list Z) * bool => match fst t with None => true | Some _ => false end) ts) eqn:Eall.
    + exists None, true. split; [reflexivity|]. split; [|intros _ f' args' _ sh Es; discriminate Es].
      unfold type_ok. rewrite operand_fun. rewrite forallb_forall in Eall. clear - HF Eall.
      induction HF as [|x t args ts H HF IHF]; [reflexivity|]. cbn [flat_map]. rewrite IHF by (intros u Hu; apply Eall; right; exact Hu).
      specialize (Eall t (or_introl eq_refl)). unfold type_ok in H. destruct (fst t); [discriminate Eall|]. rewrite H. reflexivity.
    + assert (Hex : exists p, In p ps /\ fst p <> []).
      { unfold ps. clear - HF Eall. induction HF as [|x t args ts H HF IHF]; [discriminate Eall|]. cbn [forallb] in Eall.
        unfold type_ok in H. destruct (fst t) as [s|] eqn:Et.
        - eexists. split; [left; reflexivity|]. cbn. tauto.
        - destruct (IHF Eall) as (p & Hp & Hn). exists p. split; [right; exact Hp|exact Hn]. }
      rewrite <- Hsnd. destruct ps as [|p0 ps'] eqn:Eps; [destruct Hex as (p & [] & _)|]. cbn [map].
      assert (Hpos : Forall pos_shape (map snd (p0 :: ps'))).
      { rewrite <- Eps in *. apply Forall_forall. intros s Hs. apply in_map_iff in Hs. destruct Hs as (p & <- & Hp).
        rewrite Forall_forall in Hps. destruct (Hps p Hp) as [(_ & _ & Hb)|[_ -> ]]; [|constructor; [lia|constructor]].
        eapply broadcast_pos; [exact Hb|]. rewrite <- Hflat in HP. rewrite Forall_forall in HP. apply Forall_forall. intros s Hs.
        apply HP. apply in_flat_map. exists p. auto. }
      cbn [map] in Hpos. destruct (promote_fixed_lemma (map snd ps') (snd p0) Hpos) as [HY _].
      destruct HY as (out & t & Ep & Hb & Ht).
      { change (compatible (map snd (p0 :: ps'))). apply args_compatible; [exact Hps|]. rewrite Hflat. exact HC. }
      rewrite Ep. cbn [bind]. exists (Some out), t. split; [reflexivity|].
      change (broadcast_of (map snd (p0 :: ps')) out) in Hb. split.
      * unfold type_ok. rewrite operand_fun. split; [|split].
        -- rewrite <- Hflat. destruct Hex as (p & Hp & Hn). intros Hz. destruct (fst p) as [|s0 r0] eqn:Efp; [congruence|].
           assert (Hin : In s0 (flat_map fst (p0 :: ps'))) by (apply in_flat_map; exists p; split; [exact Hp|rewrite Efp; left; reflexivity]).
           rewrite Hz in Hin. destruct Hin.
        -- intros ->. destruct Hb as (B1 & _). rewrite Forall_forall in Hps. destruct Hex as (p & Hp & Hn).
           destruct (Hps p Hp) as [(_ & Hn2 & _)|[Hz _]]; [|contradiction].
           specialize (B1 (snd p) (in_map snd _ _ Hp)). destruct (snd p); [congruence|cbn in B1; lia].
        -- rewrite <- Hflat. apply args_broadcast; assumption.
      * intros Htt f' args' Ef sh Es x Hx. injection Es as <-. injection Ef as <- <-. rewrite Ht in Htt.
        destruct (In_nth args x x Hx) as (j & Hj & Ej).
        assert (Hp : In (operand_shapes x, fill1 (fst (nth j ts (None, true)))) (p0 :: ps')).
        { rewrite <- Eps. unfold ps. apply in_map_iff. exists (x, nth j ts (None, true)). split; [reflexivity|].
          rewrite <- Ej at 1. rewrite <- (combine_nth args ts j x (None, true)) by lia. apply nth_In. rewrite combine_length. lia. }
        assert (Eo : fill1 (fst (nth j ts (None, true))) = out) by (apply Htt; exact (in_map snd _ _ Hp)).
        rewrite Forall_forall in Hps. destruct (Hps _ Hp) as [(_ & _ & HB)|[Hz Ho]]; cbn [fst snd] in *.
        -- right. rewrite <- Eo. exact HB.
        -- left. split; [exact Hz|congruence].
Qed.

(** Shape and flag of the right-hand side. *)
Lemma unit_operand s : s <> [] -> (length s <= 1)%nat -> axis s 0 = 1 -> s = [1].
Proof. unfold axis. destruct s as [|x [|y s]]; cbn; intros; try congruence; lia. Qed.

Lemma static_rhs_ok (e : aexp V) : Forall real_shape (operand_shapes e) -> plain_operands e -> compatible (operand_shapes e) -> visible_broadcast e ->
  exists sh t, static_rhs e = Ok (sh, t) /\ broadcast_of (operand_shapes e) sh /\ (t = true -> Forall (fun s => s = sh) (operand_shapes e)).
Proof.
  intros HR HP HC Hv. destruct (static_type_ok e HP HC) as (ty & t & E & Hty & Ht).
  destruct (proj1 (rhs_shape_ok e HR) HC) as (sh0 & t0 & E0 & Hb0 & Ht0).
  destruct e as [v|m k src|s f|f args]; [exists sh0, t0; auto..|].
  unfold static_rhs. rewrite E. cbn [bind]. destruct ty as [sh|]; [|exists sh0, t0; auto].
  unfold type_ok in Hty. destruct Hty as (Hne & Hns & Hb). exists sh, t. split; [reflexivity|]. split; [exact Hb|].
  intros Htt. apply Forall_forall. intros s Hs. destruct (Hv sh Hb) as [Hall|(x & Hx & Hn)]; [apply Hall; exact Hs|].
  destruct (Ht Htt f args eq_refl sh eq_refl x Hx) as [[_ -> ]|Hbx]; [|contradiction].
  destruct Hb as (B1 & _ & B3). unfold plain_operands in HP. rewrite Forall_forall in HP. destruct (HP s Hs) as [Hs1 _].
  apply unit_operand; [exact Hs1|apply (B1 s Hs)|]. destruct (B3 0%nat) as [B4 _]. destruct (B4 s Hs) as [B|B]; exact B.
Qed.

Lemma one_level_visible (e : aexp V) : plain_operands e -> one_level e -> visible_broadcast e.
Proof.
  intros HP H sh Hb. destruct e as [v|m k src|s f|f args]; auto. unfold plain_operands in HP. rewrite operand_fun in *. cbn in H.
  destruct (Forall_Exists_dec (fun x : aexp V => forall s, In s (operand_shapes x) -> s = sh)) with (l := args) as [Ha|He].
  - intros x. destruct x as [v|m k src|s f'|f' args']; unfold operand_shapes; cbn.
    + left. intros s [].
    + destruct (list_eq_dec Z.eq_dec (k_shape k) sh) as [Eq|Nq]; [left; intros s [ <- |[]]; exact Eq|right; intros Hs; apply Nq; apply Hs; left; reflexivity].
    + destruct (list_eq_dec Z.eq_dec s sh) as [Eq|Nq]; [left; intros s' [ <- |[]]; exact Eq|right; intros Hs; apply Nq; apply Hs; left; reflexivity].
    + destruct (Forall_dec (fun s => s = sh) (fun s => list_eq_dec Z.eq_dec s sh) (flat_map leaves (map a_expr args'))) as [Hd|Hd]; rewrite Forall_forall in Hd; auto.
  - left. intros s Hs. apply in_flat_map in Hs. destruct Hs as (x & Hx & Hs). rewrite Forall_forall in Ha. eapply Ha; eauto.
  - right. apply Exists_exists in He. destruct He as (x & Hx & Hn). exists x. split; [exact Hx|]. intros Hbx. apply Hn.
    rewrite Forall_forall in H. specialize (H x Hx). intros s Hs.
    destruct x as [v|m k src|s' f'|f' args']; try contradiction; unfold operand_shapes in *; cbn in *.
    + destruct Hs as [ <- |[]]. eapply broadcast_of_unique; [|apply broadcast_single|exact Hbx]. tauto.
    + destruct Hs as [ <- |[]]. eapply broadcast_of_unique; [|apply broadcast_single|exact Hbx]. tauto.
Qed.
End S.
