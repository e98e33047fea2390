From Coq Require Import List ZArith Lia Bool Arith.
From Verif Require Import Prelude PreludeFacts Strides_Model Strides_Spec Strides_Proofs Layout_Model Broadcast_Model Broadcast_Spec Broadcast_Proofs Broadcast2_Proofs
  Slice_Model Stepper_Model Stepper_Spec Stepper_Proofs Stepper2_Proofs Stepper3_Proofs Stepper4_Proofs Container_Model Container_Spec Container_Proofs
  Assign_Model Assign_Spec Semantic_Model Semantic_Spec Semantic_Proofs Semantic2_Proofs Semantic3_Proofs Semantic5_Proofs
  Reduce_Spec Reduce5_Proofs Reduce13_Proofs Functor_Model Functor_Spec Functor_Proofs Functor2_Proofs Masked_Model Masked_Spec Masked_Proofs.
Import ListNotations.
Open Scope Z_scope.

Definition seen {V} (x : masked V) : option V := if m_visible x then Some (m_value x) else None.

Lemma usable_strided {V} (mem : list V) mm k : usable mem mm k -> strided_ok (mv_data k) /\ strided_ok (mask_cont (mv_mask k)).
Proof. intros (_ & (H1 & _) & _ & H2). split; [exact H1|]. destruct (mv_mask k); apply H2. Qed.
Lemma flag_bound {V} (mem : list V) mm k ix : usable mem mm k -> in_bounds (mv_shape k) ix ->
  0 <= flag_place k ix < match mv_mask k with Stored _ => Z.of_nat (length mm) | Lazy _ _ => Z.of_nat (length mem) end.
Proof.
  intros (_ & _ & [F1 F2] & H) Hb. unfold flag_place. destruct (mv_mask k) as [c|p c]; destruct H as [_ H]; apply H; eapply bc_index_in_bounds; eassumption.
Qed.

(** ** Reading *)
Lemma get_ok {V} (mem : list V) mm v u k ix : usable mem mm k -> contents mem v -> contents mm u -> in_bounds (mv_shape k) ix ->
  mv_get k mem mm (position (mv_data k) ix) (flag_place k ix) = Ok (mk_masked (v (position (mv_data k) ix)) (visible v u k ix)).
Proof.
  intros Hk Hv Hu Hb. pose proof (flag_bound _ _ _ _ Hk Hb) as Hf. destruct Hk as (_ & (_ & H) & _).
  unfold mv_get. rewrite (Hv _ (H ix Hb)). cbn [bind]. unfold visible, mask_get.
  destruct (mv_mask k); [rewrite (Hu _ Hf)|rewrite (Hv _ Hf)]; reflexivity.
Qed.
Lemma at_ok {V} (mem : list V) mm v u k sh ix : usable mem mm k -> contents mem v -> contents mm u -> fits (mv_shape k) sh -> in_bounds sh ix ->
  let jx := bc_index (mv_shape k) ix in
  mv_at k mem mm ix = Ok (mk_masked (v (position (mv_data k) jx)) (visible v u k jx)).
Proof.
  intros Hk Hv Hu Hf Hb jx. assert (Hj : in_bounds (mv_shape k) jx) by (destruct Hf as [F1 F2]; eapply bc_index_in_bounds; eassumption).
  rewrite <- (get_ok mem mm v u k jx Hk Hv Hu Hj). unfold mv_at. destruct (usable_strided _ _ _ Hk) as [S1 S2].
  rewrite (element_offset_bc (mv_data k) sh) by assumption. destruct Hk as (_ & _ & Hm & _).
  rewrite (element_offset_bc (mask_cont (mv_mask k)) sh); [|assumption|eapply fits_trans; eassumption|assumption].
  unfold flag_place, jx. rewrite bc_twice; [reflexivity|exact Hm|]. rewrite (in_bounds_length _ _ Hb). apply Hf.
Qed.
Lemma for_each_collect {A B} (f : A -> res B) (g : A -> B) : forall l acc, (forall x, In x l -> f x = Ok (g x)) ->
  for_each (fun x acc => let* y := f x in Ok (acc ++ [y])) l acc = Ok (acc ++ map g l).
Proof.
  induction l as [|x l IH]; intros acc H; cbn [for_each map]; [rewrite app_nil_r; reflexivity|].
  rewrite (H x (or_introl eq_refl)). cbn [bind]. rewrite IH by (intros; apply H; right; assumption). rewrite <- app_assoc. reflexivity.
Qed.
Lemma values_ok {V} (mem : list V) mm v u L k : is_order L -> usable mem mm k -> contents mem v -> contents mm u ->
  mv_values L k mem mm = Ok (map (fun ix => mk_masked (v (position (mv_data k) ix)) (visible v u k ix)) (indices_of L (mv_shape k))).
Proof.
  intros HL Hk Hv Hu. destruct (usable_strided _ _ _ Hk) as [S1 S2]. pose proof Hk as (Hsh & _ & Hm & _).
  unfold mv_values. rewrite iterate_all by assumption.
  rewrite (for_each_collect (fun ix => mv_get k mem mm (position (mv_data k) ix) (flag_place k ix)) (fun ix => mk_masked (v (position (mv_data k) ix)) (visible v u k ix))); [reflexivity|].
  intros ix Hi. apply get_ok; auto. apply indices_of_in in Hi; assumption.
Qed.

(** ** Writing *)
Section Writes.
  Context {V : Type} (hide : V -> V -> V * bool) (k : mview V) (mem : list V) (mm : list bool) (v : Z -> V) (u : Z -> bool).
  Hypothesis Hk : assignable mem mm k.
  Hypothesis Hv : contents mem v.
  Hypothesis Hu : contents mm u.
  Notation pos := (position (mv_data k)).
  Notation vis := (visible v u k).

  Definition state (g : list Z -> masked V) (done : list (list Z)) (s : list V * list bool) : Prop :=
    length (fst s) = length mem /\ length (snd s) = length mm /\
    (forall ix, In ix done -> vis ix = true -> m_visible (g ix) = true -> rdz (fst s) (pos ix) = Ok (m_value (g ix))) /\
    (forall p, (forall ix, In ix done -> vis ix = true -> pos ix <> p) -> rdz (fst s) p = rdz mem p) /\
    (forall q, (forall ix, has_flags k -> In ix done -> vis ix = true -> m_visible (g ix) = false -> flag_place k ix <> q) -> rdz (snd s) q = rdz mm q).
  (** No flag changes, or they are all distinct. *)
  Definition private (g : list Z -> masked V) : Prop :=
    (forall ix, in_bounds (mv_shape k) ix -> vis ix = true -> m_visible (g ix) = true) \/ own_flags k.

  Lemma state_nil g : state g [] (mem, mm).
  Proof. split; [reflexivity|]. split; [reflexivity|]. split; [intros ix []|]. split; reflexivity. Qed.

  (** A place of an operand: that of the element, or not assigned. *)
  Lemma state_read g done s c ix : state g done s -> Forall (in_bounds (mv_shape k)) done -> in_bounds (mv_shape k) ix -> ~ In ix done ->
    aligned (mv_data k) mem c -> fits (k_shape c) (mv_shape k) ->
    rdz (fst s) (position c (bc_index (k_shape c) ix)) = Ok (v (position c (bc_index (k_shape c) ix))).
  Proof.
    intros (_ & _ & _ & S4 & _) Hd Hb Hn ((R1 & R2) & Ha) [F1 F2]. rewrite Forall_forall in Hd. rewrite S4.
    - apply Hv, R2. eapply bc_index_in_bounds; eassumption.
    - intros jx Hj _ E. destruct (Ha ix Hb) as [X|X].
      + rewrite X in E. destruct Hk as (_ & (_ & _ & _ & W) & _). apply W in E; [subst jx; contradiction|apply Hd; exact Hj|exact Hb].
      + apply (X jx (Hd jx Hj)). symmetry. exact E.
  Qed.
  Lemma own_aligned : aligned (mv_data k) mem (mv_data k).
  Proof. split; [apply Hk|]. intros ix Hb. left. rewrite bc_index_self by exact Hb. reflexivity. Qed.

  Lemma state_get g done s ix : private g -> state g done s -> Forall (in_bounds (mv_shape k)) done -> in_bounds (mv_shape k) ix -> ~ In ix done ->
    mv_get k (fst s) (snd s) (pos ix) (flag_place k ix) = Ok (mk_masked (v (pos ix)) (vis ix)).
  Proof.
    intros Hp Hs Hd Hb Hn. unfold mv_get.
    pose proof (state_read g done s (mv_data k) ix Hs Hd Hb Hn own_aligned (fits_self _)) as E. rewrite (bc_index_self (k_shape (mv_data k)) ix Hb) in E. rewrite E. cbn [bind].
    pose proof (flag_bound _ _ _ _ (proj1 Hk) Hb) as Hf. destruct Hk as ((_ & _ & Hfit & _) & _ & Ha).
    unfold mask_get, visible. destruct (mv_mask k) as [c|f c] eqn:Em.
    - destruct Hs as (_ & _ & _ & _ & S5). rewrite S5; [rewrite (Hu _ Hf); reflexivity|].
      intros jx _ Hj Hvj Hgj Eq. rewrite Forall_forall in Hd. destruct Hp as [Hp|Hp].
      + rewrite (Hp jx (Hd jx Hj) Hvj) in Hgj. discriminate.
      + unfold own_flags in Hp. rewrite Em in Hp. apply Hp in Eq; [subst jx; contradiction|apply Hd; exact Hj|exact Hb].
    - unfold flag_place. rewrite Em. cbn [mask_cont] in *. rewrite (state_read g done s c ix Hs Hd Hb Hn Ha Hfit). reflexivity.
  Qed.

  Lemma state_put g done s ix : private g -> state g done s -> Forall (in_bounds (mv_shape k)) done -> in_bounds (mv_shape k) ix -> ~ In ix done ->
    exists s', mv_put hide k (pos ix) (flag_place k ix) (g ix) s = Ok s' /\ state g (ix :: done) s'.
  Proof.
    intros Hp Hs Hd Hb Hn. pose proof (state_get g done s ix Hp Hs Hd Hb Hn) as Eg. destruct s as [m w]. cbn [fst snd] in *.
    unfold mv_put. rewrite Eg. cbn [bind m_visible m_value]. destruct Hs as (S1 & S2 & S3 & S4 & S5). cbn [fst snd] in *.
    pose proof (flag_bound _ _ _ _ (proj1 Hk) Hb) as Hf. pose proof Hk as (_ & (_ & _ & W3 & W4) & _). rewrite Forall_forall in Hd.
    destruct (vis ix) eqn:Ev.
    2:{ exists (m, w). split; [reflexivity|]. split; [exact S1|]. split; [exact S2|]. cbn [fst snd]. split; [|split].
        - intros jx [<-|Hj] Hvj; [congruence|]. apply S3; assumption.
        - intros p Hpp. apply S4. intros jx Hj. apply Hpp. right. exact Hj.
        - intros q Hq. apply S5. intros jx Hw Hj. apply Hq; [exact Hw|]. right. exact Hj. }
    assert (K : forall x, exists m', wrz m (pos ix) x = Ok m' /\ length m' = length mem /\ rdz m' (pos ix) = Ok x /\
               (forall jx, In jx done -> vis jx = true -> m_visible (g jx) = true -> rdz m' (pos jx) = Ok (m_value (g jx))) /\
               (forall p, (forall jx, In jx (ix :: done) -> vis jx = true -> pos jx <> p) -> rdz m' p = rdz mem p)).
    { intros x. destruct (rdz_wrz m (pos ix) x) as (m' & E & Lm & R1 & R2); [rewrite S1; apply W3; exact Hb|].
      exists m'. split; [exact E|]. split; [congruence|]. split; [exact R1|]. split.
      - intros jx Hj Hvj Hgj. rewrite R2; [apply S3; assumption|]. intros Ep. apply W4 in Ep; [subst jx; contradiction|apply Hd; exact Hj|exact Hb].
      - intros p Hpp. rewrite R2; [|intros ->; exact (Hpp ix (or_introl eq_refl) Ev eq_refl)]. apply S4. intros jx Hj. apply Hpp. right. exact Hj. }
    destruct (m_visible (g ix)) eqn:Eg2.
    - destruct (K (m_value (g ix))) as (m' & E & Lm & R1 & R2 & R3). rewrite E. cbn [bind]. exists (m', w). split; [reflexivity|].
      split; [exact Lm|]. split; [exact S2|]. cbn [fst snd]. split; [|split].
      + intros jx [<-|Hj]; auto.
      + exact R3.
      + intros q Hq. apply S5. intros jx Hw Hj. apply Hq; [exact Hw|]. right. exact Hj.
    - destruct (hide (v (pos ix)) (m_value (g ix))) as [x b]. destruct (K x) as (m' & E & Lm & R1 & R2 & R3). rewrite E. cbn [bind].
      assert (G : forall w', length w' = length w -> (forall q, (has_flags k -> q <> flag_place k ix) -> rdz w' q = rdz w q) -> state g (ix :: done) (m', w')).
      { intros w' Lw Rw. split; [exact Lm|]. split; [cbn; congruence|]. cbn [fst snd]. split; [|split].
        - intros jx [<-|Hj]; [congruence|auto].
        - exact R3.
        - intros q Hq. rewrite Rw; [apply S5|]; [|intros Hw ->; exact (Hq ix Hw (or_introl eq_refl) Ev Eg2 eq_refl)]. intros jx Hw Hj. apply Hq; [exact Hw|]. right. exact Hj. }
      destruct (mv_mask k) as [c|f c] eqn:Em.
      + assert (Hw : has_flags k) by (unfold has_flags; rewrite Em; exact I). destruct (rdz_wrz w (flag_place k ix) b) as (w' & Ew & Lw & _ & Rw); [rewrite S2; exact Hf|]. rewrite Ew. cbn [bind].
        exists (m', w'). split; [reflexivity|]. apply G; auto.
      + exists (m', w). split; [reflexivity|]. apply G; auto.
  Qed.

  Lemma each_ok g (step : list Z -> list V * list bool -> res (list V * list bool)) : private g -> forall l done s,
    (forall ix done s, In ix l -> state g done s -> Forall (in_bounds (mv_shape k)) done -> in_bounds (mv_shape k) ix -> ~ In ix done ->
       step ix s = mv_put hide k (pos ix) (flag_place k ix) (g ix) s) ->
    state g done s -> Forall (in_bounds (mv_shape k)) done -> Forall (in_bounds (mv_shape k)) l -> NoDup l -> (forall ix, In ix l -> ~ In ix done) ->
    exists s', for_each step l s = Ok s' /\ state g (rev l ++ done) s'.
  Proof.
    intros Hp. induction l as [|ix l IH]; intros done s Hstep Hs Hd Hl Hn Hnew.
    - exists s. split; [reflexivity|exact Hs].
    - inversion Hl as [|? ? Hb Hl']; subst. inversion Hn as [|? ? Hni Hn']; subst.
      assert (Hnd : ~ In ix done) by (apply Hnew; left; reflexivity).
      destruct (state_put g done s ix Hp Hs Hd Hb Hnd) as (m1 & E1 & S1).
      cbn [for_each]. rewrite (Hstep ix done s (or_introl eq_refl) Hs Hd Hb Hnd), E1. cbn [bind].
      destruct (IH (ix :: done) m1) as (m' & E & S'); auto.
      + intros jx dn m2 Hj. apply Hstep. right. exact Hj.
      + intros jx Hj [<-|Hx]; [contradiction|]. exact (Hnew jx (or_intror Hj) Hx).
      + exists m'. split; [exact E|]. cbn [rev]. rewrite <- app_assoc. exact S'.
  Qed.

  Lemma state_assigned g l s : (forall ix, In ix l <-> in_bounds (mv_shape k) ix) -> state g l s ->
    mv_assigned k v u (fun ix => seen (g ix)) mem mm (fst s) (snd s).
  Proof.
    intros Hl (S1 & S2 & S3 & S4 & S5). split; [exact S1|]. split; [exact S2|]. unfold seen. split; [|split].
    - intros ix x Hb Hvx E. destruct (m_visible (g ix)) eqn:Eg; [|discriminate]. injection E as <-. apply S3; auto. apply Hl. exact Hb.
    - intros p Hp. apply S4. intros ix Hi. apply Hp, Hl. exact Hi.
    - intros q Hq. apply S5. intros ix Hw Hi Hvx Hg. apply Hq; [exact Hw|apply Hl; exact Hi|exact Hvx|]. rewrite Hg. reflexivity.
  Qed.

  Lemma order_ok L g (step : list Z -> list V * list bool -> res (list V * list bool)) : is_order L -> private g ->
    (forall ix done s, state g done s -> Forall (in_bounds (mv_shape k)) done -> in_bounds (mv_shape k) ix -> ~ In ix done ->
       step ix s = mv_put hide k (pos ix) (flag_place k ix) (g ix) s) ->
    exists s', for_each step (indices_of L (mv_shape k)) (mem, mm) = Ok s' /\ mv_assigned k v u (fun ix => seen (g ix)) mem mm (fst s') (snd s').
  Proof.
    intros HL Hp Hstep. destruct (each_ok g step Hp (indices_of L (mv_shape k)) [] (mem, mm)) as (m' & E & S').
    - intros ix done m _. apply Hstep.
    - apply state_nil.
    - constructor.
    - apply Forall_forall. intros ix. apply indices_of_in. exact HL.
    - apply indices_of_nodup. exact HL.
    - auto.
    - exists m'. split; [exact E|]. eapply state_assigned; [|exact S']. intros ix. rewrite app_nil_r, <- in_rev. apply indices_of_in. exact HL.
  Qed.
End Writes.
