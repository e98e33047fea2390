(** Proofs about steppers and iterators. *)
From Coq Require Import List ZArith Lia Bool.
From Verif Require Import Prelude PreludeFacts Strides_Model Strides_Spec Strides_Proofs
  Broadcast_Proofs Stepper_Model.
Import ListNotations.
Open Scope Z_scope.

(** * What a stepper must do to be usable by the iteration algorithms *)

(** Index of the end iterator. *)
Definition col_endx (sh : list Z) : list Z :=
  match sh with [] => [] | d :: t => d :: map (fun e => e - 1) t end.
Definition endx (l : layout) (sh : list Z) : list Z :=
  match l with row_major => rev (col_endx (rev sh)) | _ => col_endx sh end.

Definition posn (l : layout) (sh ix : list Z) : Z :=
  match l with row_major => row_pos sh ix | _ => col_pos sh ix end.

(** [at_ ix st]: the stepper state st represents index ix; [end_ st]: st is a
    past-the-end state. *)
Record laws {S} (ops : stepper_ops S) (l : layout) (sh : list Z)
  (at_ : list Z -> S -> Prop) (end_ : S -> Prop) : Prop := mk_laws {
  l_step : forall pre x post n d st,
    nth_error sh (length pre) = Some d -> in_bounds sh (pre ++ x :: post) ->
    0 <= n -> x + n < d -> at_ (pre ++ x :: post) st ->
    exists st', s_step ops (length pre) n st = Ok st' /\ at_ (pre ++ (x + n) :: post) st';
  l_back : forall pre x post n st,
    (in_bounds sh (pre ++ x :: post) \/ pre ++ x :: post = endx l sh) ->
    0 <= n <= x -> at_ (pre ++ x :: post) st ->
    exists st', s_step_back ops (length pre) n st = Ok st' /\ at_ (pre ++ (x - n) :: post) st';
  l_reset : forall pre x post d st,
    nth_error sh (length pre) = Some d -> in_bounds sh (pre ++ x :: post) ->
    x = d - 1 -> at_ (pre ++ x :: post) st ->
    exists st', s_reset ops (length pre) st = Ok st' /\ at_ (pre ++ 0 :: post) st';
  l_reset_back : forall pre post d st,
    nth_error sh (length pre) = Some d -> in_bounds sh (pre ++ 0 :: post) ->
    at_ (pre ++ 0 :: post) st ->
    exists st', s_reset_back ops (length pre) st = Ok st' /\ at_ (pre ++ (d - 1) :: post) st';
  l_begin : forall st, ((exists ix, at_ ix st) \/ end_ st) ->
    exists st', s_to_begin ops st = Ok st' /\ at_ (repeat 0 (length sh)) st';
  l_end : forall st, (exists ix, at_ ix st) -> exists st', s_to_end ops l st = Ok st' /\ end_ st'
}.

(** The same laws as far as the iteration algorithms rely on them: to_begin() only
    matters without axes, and a step of size 0 is never made from the end. *)
Record wlaws {S} (ops : stepper_ops S) (l : layout) (sh : list Z)
  (at_ : list Z -> S -> Prop) (end_ : S -> Prop) : Prop := mk_wlaws {
  w_step : forall pre x post n d st,
    nth_error sh (length pre) = Some d -> in_bounds sh (pre ++ x :: post) ->
    0 <= n -> x + n < d -> at_ (pre ++ x :: post) st ->
    exists st', s_step ops (length pre) n st = Ok st' /\ at_ (pre ++ (x + n) :: post) st';
  w_back : forall pre x post n st,
    (in_bounds sh (pre ++ x :: post) \/ 0 < n /\ pre ++ x :: post = endx l sh) ->
    0 <= n <= x -> at_ (pre ++ x :: post) st ->
    exists st', s_step_back ops (length pre) n st = Ok st' /\ at_ (pre ++ (x - n) :: post) st';
  w_reset : forall pre x post d st,
    nth_error sh (length pre) = Some d -> in_bounds sh (pre ++ x :: post) ->
    x = d - 1 -> at_ (pre ++ x :: post) st ->
    exists st', s_reset ops (length pre) st = Ok st' /\ at_ (pre ++ 0 :: post) st';
  w_reset_back : forall pre post d st,
    nth_error sh (length pre) = Some d -> in_bounds sh (pre ++ 0 :: post) ->
    at_ (pre ++ 0 :: post) st ->
    exists st', s_reset_back ops (length pre) st = Ok st' /\ at_ (pre ++ (d - 1) :: post) st';
  w_begin : sh = [] -> forall st, ((exists ix, at_ ix st) \/ end_ st) ->
    exists st', s_to_begin ops st = Ok st' /\ at_ (repeat 0 (length sh)) st';
  w_end : forall st, (exists ix, at_ ix st) -> exists st', s_to_end ops l st = Ok st' /\ end_ st'
}.

Lemma wlaws_of_laws {S} (ops : stepper_ops S) l sh at_ end_ : laws ops l sh at_ end_ -> wlaws ops l sh at_ end_.
Proof. intros [L1 L2 L3 L4 L5 L6]. split; auto. intros pre x post n st [H|[_ H]]; auto. Qed.
Coercion wlaws_of_laws : laws >-> wlaws.
#[export] Hint Resolve wlaws_of_laws : core.

(** * Positions *)

Lemma row_col_rev : forall sh ix, length ix = length sh -> row_pos sh ix = col_pos (rev sh) (rev ix).
Proof.
  assert (A : forall s1 i1 d i, length i1 = length s1 ->
            col_pos (s1 ++ [d]) (i1 ++ [i]) = col_pos s1 i1 + prod s1 * i).
  { induction s1 as [|e s1 IH]; intros [|j i1] d i H; try discriminate.
    - cbn. rewrite prod_nil. lia.
    - cbn [app col_pos]. rewrite IH by (cbn in H; lia). rewrite prod_cons. ring. }
  induction sh as [|d sh IH]; intros [|i ix] H; try discriminate; [reflexivity|].
  cbn [row_pos rev]. rewrite A by (rewrite !rev_length; cbn in H; lia).
  rewrite prod_rev, IH by (cbn in H; lia). ring.
Qed.

Lemma col_pos_app : forall s1 s2 i1 i2, length i1 = length s1 ->
  col_pos (s1 ++ s2) (i1 ++ i2) = col_pos s1 i1 + prod s1 * col_pos s2 i2.
Proof.
  induction s1 as [|d s1 IH]; intros s2 [|i i1] i2 H; try discriminate.
  - cbn [app col_pos]. rewrite prod_nil. lia.
  - cbn [app col_pos]. rewrite IH by (cbn in H; lia). rewrite prod_cons. ring.
Qed.

Lemma col_pos_zeros : forall s n, col_pos s (repeat 0 n) = 0.
Proof. induction s as [|d s IH]; intros [|n]; cbn [repeat col_pos]; try reflexivity. rewrite IH. lia. Qed.

Lemma col_pos_max : forall s, col_pos s (map (fun d => d - 1) s) = prod s - 1.
Proof. induction s as [|d s IH]; cbn [map col_pos]; [reflexivity|]. rewrite IH, prod_cons. ring. Qed.

Lemma zeros_in_bounds : forall s, Forall (fun d => 0 < d) s -> in_bounds s (repeat 0 (length s)).
Proof. intros s H. induction H; cbn; constructor; auto. lia. Qed.

Lemma max_in_bounds : forall s, Forall (fun d => 0 < d) s -> in_bounds s (map (fun d => d - 1) s).
Proof. intros s H. induction H; cbn; constructor; auto. lia. Qed.

Lemma zeros_snoc : forall n t, repeat 0 n ++ 0 :: t = repeat 0 (S n) ++ t.
Proof.
  induction n; intros; [reflexivity|]. change (0 :: (repeat 0 n ++ 0 :: t) = 0 :: (repeat 0 (S n) ++ t)).
  f_equal. apply IHn.
Qed.

Lemma max_snoc : forall s d t, map (fun e => e - 1) s ++ (d - 1) :: t = map (fun e => e - 1) (s ++ [d]) ++ t.
Proof. intros. rewrite map_app, <- app_assoc. reflexivity. Qed.

Lemma in_bounds_app_inv : forall s1 s2 i1 i2, length i1 = length s1 ->
  in_bounds (s1 ++ s2) (i1 ++ i2) -> in_bounds s1 i1 /\ in_bounds s2 i2.
Proof.
  induction s1 as [|d s1 IH]; intros s2 [|i i1] i2 HL H; try discriminate.
  - split; [constructor|exact H].
  - inversion H; subst. destruct (IH s2 i1 i2) as [A B]; [cbn in HL; lia|assumption|].
    split; [constructor; assumption|assumption].
Qed.

Lemma in_bounds_rev : forall s i, in_bounds s i -> in_bounds (rev s) (rev i).
Proof.
  intros s i H. unfold in_bounds in *. induction H; cbn [rev]; [constructor|].
  apply Forall2_app; [assumption|]. constructor; [assumption|constructor].
Qed.

Lemma rdm {A} (l1 : list A) x l2 n : n = length l1 -> rd (l1 ++ x :: l2) n = Ok x.
Proof. intros ->. apply rd_mid. Qed.
Lemma wrm {A} (l1 : list A) x l2 v n : n = length l1 -> wr (l1 ++ x :: l2) n v = Ok (l1 ++ v :: l2).
Proof. intros ->. apply wr_mid. Qed.
Lemma nthm {A} (l1 : list A) x l2 n : n = length l1 -> nth_error (l1 ++ x :: l2) n = Some x.
Proof. intros ->. rewrite nth_error_app2, Nat.sub_diag by lia. reflexivity. Qed.

Lemma pos_sub : forall sh, Forall (fun d => 0 < d) sh -> forall s1 s2, sh = s1 ++ s2 ->
  Forall (fun d => 0 < d) s1 /\ Forall (fun d => 0 < d) s2.
Proof. intros sh Hpos s1 s2 E. rewrite E in Hpos. apply Forall_app in Hpos. exact Hpos. Qed.

Lemma for_up_map_pred : forall s2 s1 p1 (v : list Z), length v = length s2 -> length p1 = length s1 ->
  for_up (fun k ix => let* d := rd (s1 ++ s2) k in wr ix k (d - 1)) (length s1) (length s2)
    (p1 ++ v) = Ok (p1 ++ map (fun d => d - 1) s2).
Proof.
  induction s2 as [|d s2 IH]; intros s1 p1 v H H1.
  - destruct v; [|discriminate]. reflexivity.
  - destruct v as [|y v]; [discriminate|]. cbn [length for_up].
    rewrite (rdm s1 d s2) by reflexivity. cbn [bind].
    rewrite wrm by auto. cbn [bind map].
    replace (s1 ++ d :: s2) with ((s1 ++ [d]) ++ s2) by (rewrite <- app_assoc; reflexivity).
    replace (p1 ++ (d - 1) :: v) with ((p1 ++ [d - 1]) ++ v) by (rewrite <- app_assoc; reflexivity).
    replace (Datatypes.S (length s1)) with (length (s1 ++ [d])) by (rewrite app_length; cbn; lia).
    rewrite IH; [|cbn in H; lia|rewrite !app_length; cbn; lia]. rewrite <- app_assoc. reflexivity.
Qed.

Lemma for_up_pred_from1 : forall d s y v, length v = length s ->
  for_up (fun k ix => let* d := rd (d :: s) k in wr ix k (d - 1)) 1 (length s) (y :: v) =
  Ok (y :: map (fun d => d - 1) s).
Proof. intros d s y v H. exact (for_up_map_pred s [d] [y] v H eq_refl). Qed.

(** * Column major: increments *)
Section Col.
Context {S : Type} (ops : stepper_ops S) (sh : list Z).
Context (at_ : list Z -> S -> Prop) (end_ : S -> Prop).
Hypothesis L : wlaws ops column_major sh at_ end_.
Hypothesis Hpos : Forall (fun d => 0 < d) sh.

Lemma col_inc_loop_ok : forall sh2 sh1 ix2 st,
  sh = sh1 ++ sh2 -> in_bounds sh2 ix2 -> at_ (repeat 0 (length sh1) ++ ix2) st ->
  exists ret ix' st',
    col_inc_loop ops sh (length sh2) (repeat 0 (length sh1) ++ ix2) st = Ok (ret, ix', st') /\
    ((ret = true /\ (exists ix2', ix' = repeat 0 (length sh1) ++ ix2' /\ in_bounds sh2 ix2' /\
        col_pos sh2 ix2' = col_pos sh2 ix2 + 1) /\ at_ ix' st') \/
     (ret = false /\ ix' = repeat 0 (length sh) /\ (exists ixx, at_ ixx st') /\
        col_pos sh2 ix2 = prod sh2 - 1)).
Proof.
  induction sh2 as [|d sh2 IH]; intros sh1 ix2 st E Hb Hat.
  - inversion Hb; subst. exists false. eexists; eexists. split; [reflexivity|]. right.
    rewrite !app_nil_r in *. subst. cbn. split; [reflexivity|]. split; [reflexivity|]. split; [eauto|reflexivity].
  - inversion Hb as [|? x ? t Hx Ht]; subst.
    set (z := repeat 0 (length sh1)) in *.
    assert (Lz : length z = length sh1) by (unfold z; apply repeat_length).
    assert (Lt : length t = length sh2) by (apply Forall2_length in Ht; auto).
    cbn [length col_inc_loop].
    assert (Hi : (length (z ++ x :: t) - Datatypes.S (length sh2))%nat = length z).
    { rewrite app_length. cbn [length]. lia. }
    rewrite Hi, rd_mid. cbn [bind].
    rewrite (rdm sh1 d sh2 (length z)) by lia. cbn [bind].
    assert (Hfull : in_bounds (sh1 ++ d :: sh2) (z ++ x :: t)).
    { apply in_bounds_app; [|exact Hb]. unfold z. apply zeros_in_bounds. apply (pos_sub _ Hpos _ _ eq_refl). }
    destruct (Z.eqb_spec x (d - 1)) as [Ex|Ex]; cbn [negb].
    + rewrite wr_mid. cbn [bind].
      rewrite app_length. cbn [length].
      destruct (Nat.eqb_spec (length z) (length z + Datatypes.S (length t) - 1)) as [El|El].
      * (* last axis *)
        assert (sh2 = []) by (destruct sh2; [reflexivity|cbn in *; lia]). subst sh2.
        assert (t = []) by (destruct t; [reflexivity|cbn in *; lia]). subst t.
        cbn [bind length col_inc_loop]. exists false. eexists; eexists. split; [reflexivity|]. right.
        split; [reflexivity|]. split.
        { rewrite app_length. cbn [length]. rewrite Nat.add_comm. cbn [Nat.add].
          unfold z. rewrite zeros_snoc, app_nil_r. reflexivity. }
        split; [eauto|]. cbn [col_pos]. rewrite prod_cons, prod_nil. lia.
      * destruct (w_reset _ _ _ _ _ L z x t d st) as (st1 & Es & Hat1); auto.
        { apply nthm. lia. }
        rewrite Es. cbn [bind].
        assert (Ez : z ++ 0 :: t = repeat 0 (length (sh1 ++ [d])) ++ t).
        { unfold z. rewrite zeros_snoc, app_length. cbn [length]. rewrite Nat.add_comm. reflexivity. }
        rewrite Ez in *.
        destruct (IH (sh1 ++ [d]) t st1) as (ret & ix' & st' & E1 & R); auto.
        { rewrite <- app_assoc. reflexivity. }
        rewrite E1. exists ret, ix', st'. split; [reflexivity|].
        destruct R as [(R0 & (ix2' & R1 & R2 & R3) & R4)|(R0 & R1 & R2 & R3)].
        -- left. split; [exact R0|]. split; [|exact R4]. exists (0 :: ix2').
           split; [|split].
           ++ rewrite R1. unfold z. rewrite zeros_snoc, app_length. cbn [length].
              rewrite Nat.add_comm. reflexivity.
           ++ constructor; [lia|assumption].
           ++ cbn [col_pos]. rewrite R3. lia.
        -- right. split; [exact R0|]. split; [exact R1|]. split; [exact R2|].
           cbn [col_pos]. rewrite R3, prod_cons. lia.
    + rewrite wr_mid. cbn [bind].
      destruct (w_step _ _ _ _ _ L z x t 1 d st) as (st1 & Es & Hat1); auto; try lia.
      { apply nthm. lia. }
      rewrite Es. cbn [bind]. exists true. eexists; eexists. split; [reflexivity|]. left.
      split; [reflexivity|]. split; [|exact Hat1]. exists ((x + 1) :: t). split; [reflexivity|].
      split; [constructor; [lia|assumption]|]. cbn [col_pos]. lia.
Qed.

Lemma col_end_index_ok : forall ix, length ix = length sh -> col_end_index sh ix = Ok (col_endx sh).
Proof.
  intros ix H. unfold col_end_index. destruct sh as [|d t]; destruct ix as [|y v]; try discriminate.
  - reflexivity.
  - cbn [length Nat.eqb]. cbn in H. replace (Datatypes.S (length v) - 1)%nat with (length t) by lia.
    rewrite for_up_pred_from1 by lia. cbn [bind]. rewrite (rdm [] d t) by reflexivity. cbn [bind].
    reflexivity.
Qed.

Lemma col_increment_ok : forall ix st, in_bounds sh ix -> at_ ix st ->
  exists ix' st', col_increment ops sh ix st = Ok (ix', st') /\
    ((col_pos sh ix + 1 < prod sh /\ in_bounds sh ix' /\ col_pos sh ix' = col_pos sh ix + 1 /\ at_ ix' st') \/
     (col_pos sh ix + 1 = prod sh /\ ix' = col_endx sh /\ end_ st')).
Proof.
  intros ix st Hb Hat. unfold col_increment.
  assert (Ln : length ix = length sh) by (apply in_bounds_length in Hb; auto).
  destruct (col_inc_loop_ok sh [] ix st eq_refl Hb Hat) as (ret & ix' & st' & E & R).
  cbn [length repeat app] in *. rewrite Ln, E. cbn [bind].
  destruct R as [(-> & (ix2 & -> & R2 & R3) & R4)|(-> & -> & R2 & R3)].
  - eexists; eexists. split; [reflexivity|]. left. split; [|auto].
    pose proof (col_pos_bound _ _ R2). lia.
  - rewrite col_end_index_ok by apply repeat_length. cbn [bind].
    destruct (w_end _ _ _ _ _ L st' R2) as (st2 & E2 & He). rewrite E2. cbn [bind].
    eexists; eexists. split; [reflexivity|]. right. split; [lia|auto].
Qed.

Lemma col_dec_loop_ok : forall sh2 sh1 ix2 st,
  sh = sh1 ++ sh2 ->
  (in_bounds sh2 ix2 \/ (sh1 = [] /\ ix2 = col_endx sh)) ->
  at_ (map (fun d => d - 1) sh1 ++ ix2) st ->
  exists ret ix' st',
    col_dec_loop ops sh (length sh2) (map (fun d => d - 1) sh1 ++ ix2) st = Ok (ret, ix', st') /\
    ((ret = true /\ (exists ix2', ix' = map (fun d => d - 1) sh1 ++ ix2' /\ in_bounds sh2 ix2' /\
        col_pos sh2 ix2' = col_pos sh2 ix2 - 1) /\ at_ ix' st') \/
     (ret = false /\ ix' = map (fun d => d - 1) sh /\ (exists ixx, at_ ixx st') /\
        col_pos sh2 ix2 = 0)).
Proof.
  induction sh2 as [|d sh2 IH]; intros sh1 ix2 st E Hb Hat.
  - assert (ix2 = []). { destruct Hb as [Hb|[E1 Hb]]; [inversion Hb; auto|]. subst. reflexivity. }
    subst ix2. exists false. eexists; eexists. split; [reflexivity|]. right.
    rewrite !app_nil_r in *. subst. split; [reflexivity|]. split; [reflexivity|]. split; [eauto|reflexivity].
  - set (z := map (fun d => d - 1) sh1) in *.
    assert (Lz : length z = length sh1) by (unfold z; apply map_length).
    assert (HX : exists x t, ix2 = x :: t /\ in_bounds sh2 t /\ 0 <= x /\ (x < d \/ sh1 = [] /\ ix2 = col_endx sh)).
    { destruct Hb as [Hb|[E1 Hb]].
      - inversion Hb as [|? x ? t Hx Ht]; subst. exists x, t. split; [reflexivity|]. split; [assumption|]. lia.
      - subst. cbn [app col_endx]. exists d, (map (fun e => e - 1) sh2). split; [reflexivity|].
        destruct (pos_sub _ Hpos [] (d :: sh2) eq_refl) as [_ P]. inversion P; subst.
        split; [apply max_in_bounds; assumption|]. split; [lia|]. right. split; reflexivity. }
    destruct HX as (x & t & -> & Ht & Hx0 & Hxd).
    assert (Lt : length t = length sh2) by (apply Forall2_length in Ht; auto).
    cbn [length col_dec_loop].
    assert (Hi : (length (z ++ x :: t) - Datatypes.S (length sh2))%nat = length z).
    { rewrite app_length. cbn [length]. lia. }
    rewrite Hi, rd_mid. cbn [bind].
    destruct (pos_sub _ Hpos sh1 (d :: sh2) E) as [P1 P2]. inversion P2 as [|? ? Pd P3]; subst.
    assert (Hfull : in_bounds (sh1 ++ d :: sh2) (z ++ x :: t) \/ z ++ x :: t = endx column_major (sh1 ++ d :: sh2)).
    { destruct Hxd as [Hxd|[E1 Hxd]].
      - left. apply in_bounds_app; [unfold z; apply max_in_bounds; assumption|].
        constructor; [lia|assumption].
      - right. subst sh1. cbn [app] in *. unfold z. cbn [map app]. exact Hxd. }
    destruct (Z.eqb_spec x 0) as [Ex|Ex]; cbn [negb].
    + subst x. rewrite (rdm sh1 d sh2 (length z)) by lia. cbn [bind]. rewrite wr_mid. cbn [bind].
      rewrite app_length. cbn [length].
      assert (Hin : in_bounds (sh1 ++ d :: sh2) (z ++ 0 :: t)).
      { apply in_bounds_app; [unfold z; apply max_in_bounds; assumption|]. constructor; [lia|assumption]. }
      destruct (Nat.eqb_spec (length z) (length z + Datatypes.S (length t) - 1)) as [El|El].
      * assert (sh2 = []) by (destruct sh2; [reflexivity|cbn in *; lia]). subst sh2.
        assert (t = []) by (destruct t; [reflexivity|cbn in *; lia]). subst t.
        cbn [bind length col_dec_loop]. exists false. eexists; eexists. split; [reflexivity|]. right.
        split; [reflexivity|]. split.
        { unfold z. rewrite max_snoc, app_nil_r. reflexivity. }
        split; [eauto|]. cbn [col_pos]. lia.
      * destruct (w_reset_back _ _ _ _ _ L z t d st) as (st1 & Es & Hat1); auto.
        { apply nthm. lia. }
        rewrite Es. cbn [bind]. unfold z in *. rewrite max_snoc in *.
        destruct (IH (sh1 ++ [d]) t st1) as (ret & ix' & st' & E1 & R); auto.
        { rewrite <- app_assoc. reflexivity. }
        rewrite E1. exists ret, ix', st'. split; [reflexivity|].
        destruct R as [(R0 & (ix2' & R1 & R2 & R3) & R4)|(R0 & R1 & R2 & R3)].
        -- left. split; [exact R0|]. split; [|exact R4]. exists ((d - 1) :: ix2').
           split; [|split].
           ++ rewrite R1, max_snoc. reflexivity.
           ++ constructor; [lia|assumption].
           ++ cbn [col_pos]. rewrite R3. lia.
        -- right. split; [exact R0|]. split; [exact R1|]. split; [exact R2|].
           cbn [col_pos]. rewrite R3. lia.
    + rewrite wr_mid. cbn [bind].
      destruct (w_back _ _ _ _ _ L z x t 1 st) as (st1 & Es & Hat1); auto; try lia. { destruct Hfull; [left; assumption|right; split; [lia|assumption]]. }
      rewrite Es. cbn [bind]. exists true. eexists; eexists. split; [reflexivity|]. left.
      split; [reflexivity|]. split; [|exact Hat1]. exists ((x - 1) :: t). split; [reflexivity|].
      split; [|cbn [col_pos]; lia]. constructor; [|assumption].
      destruct Hxd as [Hxd|[E1 Hxd]]; [lia|]. subst sh1. cbn [app col_endx] in Hxd. injection Hxd as -> _. lia.
Qed.

Lemma col_pos_endx : sh <> [] -> col_pos sh (col_endx sh) = prod sh.
Proof.
  destruct sh as [|d t]; [congruence|]. intros _. cbn [col_endx col_pos].
  rewrite col_pos_max, prod_cons. ring.
Qed.

Lemma col_decrement_ok : forall ix st,
  (sh <> [] -> end_ st -> at_ (col_endx sh) st) ->
  (in_bounds sh ix /\ at_ ix st /\ 0 < col_pos sh ix \/ ix = col_endx sh /\ end_ st) ->
  exists ix' st', col_decrement ops sh ix st = Ok (ix', st') /\
    in_bounds sh ix' /\ at_ ix' st' /\
    col_pos sh ix' = (if list_eq_dec Z.eq_dec ix (col_endx sh) then prod sh else col_pos sh ix) - 1.
Proof.
  intros ix st Hend H.
  destruct (list_eq_dec Z.eq_dec sh []) as [E0|E0].
  - (* 0-d *)
    destruct H as [(H & Ha & Hc)|(H & He)].
    + exfalso. pose proof (col_pos_bound _ _ H). rewrite E0 in *. cbn in Hc. lia.
    + subst ix. rewrite E0. cbn [col_endx]. unfold col_decrement. cbn [length col_dec_loop bind].
      destruct (w_begin _ _ _ _ _ L E0 st) as (st' & E & Hat); [auto|]. rewrite E. cbn [bind].
      eexists; eexists. split; [reflexivity|]. rewrite E0 in Hat. split; [constructor|]. split; [exact Hat|].
      reflexivity.
  - assert (Hat : at_ ix st) by (destruct H as [(H & Ha & _)|(-> & He)]; auto).
    assert (Hb : in_bounds sh ix \/ ([] : list Z) = [] /\ ix = col_endx sh) by (destruct H as [(H & _)|(H & _)]; auto).
    assert (Ln : length ix = length sh).
    { destruct Hb as [Hb|[_ ->]]; [apply in_bounds_length in Hb; auto|].
      destruct sh; [reflexivity|]. cbn. rewrite map_length. reflexivity. }
    destruct (col_dec_loop_ok sh [] ix st eq_refl Hb Hat) as (ret & ix' & st' & E & R).
    unfold col_decrement. cbn [map app] in *. rewrite Ln, E. cbn [bind].
    assert (Ecase : (if list_eq_dec Z.eq_dec ix (col_endx sh) then prod sh else col_pos sh ix) = col_pos sh ix).
    { destruct (list_eq_dec Z.eq_dec ix (col_endx sh)) as [->|_]; [|reflexivity]. symmetry. apply col_pos_endx. exact E0. }
    rewrite Ecase.
    destruct R as [(-> & (ix2 & -> & R2 & R3) & R4)|(-> & -> & R2 & R3)].
    + eexists; eexists. split; [reflexivity|]. auto.
    + exfalso. destruct H as [(_ & _ & H)|(H & _)]; [lia|]. subst ix.
      rewrite col_pos_endx in R3 by exact E0. pose proof (prod_pos _ Hpos). lia.
Qed.

End Col.

(** * Column major: jumps *)
Lemma jump_stop : forall S (ops : stepper_ops S) sh fuel i ix st, col_jump_loop ops sh (Datatypes.S fuel) i 0 ix st = Ok (i, 0, ix, st).
Proof. intros. cbn [col_jump_loop]. rewrite Z.eqb_refl, orb_true_r. reflexivity. Qed.

Lemma back_stop : forall S (ops : stepper_ops S) sh fuel i ix st, col_back_loop ops sh (Datatypes.S fuel) i 0 ix st = Ok (i, 0, ix, st).
Proof. intros. cbn [col_back_loop]. rewrite Z.eqb_refl, orb_true_r. reflexivity. Qed.

Section ColJump.
Context {S : Type} (ops : stepper_ops S) (sh : list Z).
Context (at_ : list Z -> S -> Prop) (end_ : S -> Prop).
Hypothesis L : wlaws ops column_major sh at_ end_.
Hypothesis Hpos : Forall (fun d => 0 < d) sh.

Lemma col_jump_loop_ok : forall fuel sh1 sh2 n ix2 st,
  sh = sh1 ++ sh2 -> 0 < n ->
  (Z.to_nat n * Datatypes.S (length sh) + length sh2 < fuel)%nat ->
  in_bounds sh2 ix2 ->
  (sh2 <> [] -> at_ (repeat 0 (length sh1) ++ ix2) st) ->
  (exists ixx, at_ ixx st) ->
  let T := prod sh1 * col_pos sh2 ix2 + prod sh1 - 1 + n in
  exists i' n' ix' st',
    col_jump_loop ops sh fuel (length sh1) n (repeat 0 (length sh1) ++ ix2) st = Ok (i', n', ix', st') /\
    ((n' = 0 /\ in_bounds sh ix' /\ at_ ix' st' /\ col_pos sh ix' = T) \/
     (0 < n' /\ i' = length sh /\ length ix' = length sh /\ (exists ixx, at_ ixx st') /\ prod sh <= T)).
Proof.
  induction fuel as [|fuel IH]; intros sh1 sh2 n ix2 st E Hn Hf Hb Hat Hex T; [lia|].
  set (z := repeat 0 (length sh1)) in *.
  assert (Lz : length z = length sh1) by (unfold z; apply repeat_length).
  destruct (pos_sub _ Hpos _ _ E) as [P1 P2].
  assert (HT1 : 0 < prod sh1) by (apply prod_pos; assumption).
  cbn [col_jump_loop]. destruct (Z.eqb_spec n 0) as [|_]; [lia|]. rewrite orb_false_r.
  destruct sh2 as [|d sh2].
  - inversion Hb; subst ix2. rewrite !app_nil_r in *. subst sh1.
    rewrite Lz, Nat.eqb_refl. do 4 eexists. split; [reflexivity|]. right.
    split; [exact Hn|]. split; [reflexivity|]. split; [exact Lz|]. split; [exact Hex|].
    unfold T. cbn [col_pos]. lia.
  - inversion Hb as [|? x ? t Hx Ht]; subst ix2. subst.
    assert (Lt : length t = length sh2) by (apply Forall2_length in Ht; auto).
    assert (Lix : length (z ++ x :: t) = length (sh1 ++ d :: sh2)) by (rewrite !app_length; cbn; lia).
    specialize (Hat ltac:(discriminate)).
    destruct (Nat.eqb_spec (length sh1) (length (z ++ x :: t))) as [Eb|_];
      [rewrite app_length in Eb; cbn in Eb; lia|].
    inversion P2 as [|? ? Pd P3]; subst.
    assert (Hz : in_bounds sh1 z) by (unfold z; apply zeros_in_bounds; assumption).
    assert (Hfull : in_bounds (sh1 ++ d :: sh2) (z ++ x :: t)) by (apply in_bounds_app; assumption).
    rewrite (rdm z x t (length sh1)) by auto. cbn [bind].
    rewrite (rdm sh1 d sh2 (length sh1)) by auto. cbn [bind].
    destruct (Nat.eqb_spec (length sh1) 0) as [E1|E1].
    + (* leading axis *)
      assert (sh1 = []) by (destruct sh1; [reflexivity|discriminate]). subst sh1.
      cbn [length repeat app negb orb] in *. unfold z in *. clear z. cbn [app] in *.
      pose proof prod_nil as PN.
      destruct (Z.ltb_spec (x + n) d) as [Hfit|Hfit].
      * change (wr (x :: t) 0 (x + n)) with (Ok ((x + n) :: t)). cbn [bind app].
        destruct (w_step _ _ _ _ _ L [] x t n d st) as (st1 & Es & Hat1); auto; try lia.
        cbn [length] in Es. rewrite Es. cbn [bind app] in *. rewrite Z.sub_diag.
        destruct fuel as [|fuel]; [lia|].
        assert (C : col_pos (d :: sh2) ((x + n) :: t) = T).
        { unfold T. rewrite PN. cbn [col_pos]. lia. }
        cbn [length]; destruct (Datatypes.S (length t) =? 1)%nat; rewrite jump_stop;
          do 4 eexists; (split; [reflexivity|]); left; (split; [reflexivity|]);
          (split; [constructor; [lia|assumption]|]); auto.
      * set (off := d - x - 1).
        destruct (w_step _ _ _ _ _ L [] x t off d st) as (st1 & Es & Hat1); auto; try (unfold off; lia).
        cbn [length] in Es. rewrite Es. cbn [bind app] in *.
        change (wr (x :: t) 0 0) with (Ok (0 :: t)). cbn [bind app length].
        replace (x + off) with (d - 1) in Hat1 by (unfold off; lia).
        assert (Hb1 : in_bounds (d :: sh2) ((d - 1) :: t)) by (constructor; [lia|assumption]).
        assert (Hn' : 0 < n - off) by (unfold off; lia).
        assert (Hf' : (Z.to_nat (n - off) * Datatypes.S (length (d :: sh2)) + length sh2 < fuel)%nat).
        { assert (Z.to_nat (n - off) <= Z.to_nat n)%nat by (unfold off in *; lia). cbn [length] in Hf |- *. nia. }
        assert (TT : forall ixx, prod [d] * col_pos sh2 ixx + prod [d] - 1 + (n - off) =
                  (x + d * col_pos sh2 ixx) + n).
        { intros. rewrite prod_cons, prod_nil. unfold off. lia. }
        destruct (Nat.eqb_spec 0 (Datatypes.S (length t) - 1)) as [El|El]; cbn [bind].
        -- assert (sh2 = []) by (destruct sh2; [reflexivity|cbn in *; lia]). subst sh2.
           assert (t = []) by (destruct t; [reflexivity|cbn in *; lia]). subst t.
           destruct (IH [d] [] (n - off) [] st1) as (i' & n' & ix' & st' & E2 & R); auto; try (constructor).
           { congruence. }
           { eauto. }
           cbn [length repeat app] in E2. rewrite E2. do 4 eexists. split; [reflexivity|].
           rewrite TT in R. unfold T. rewrite PN. cbn [col_pos] in *. 
           replace (1 * (x + d * 0) + 1 - 1 + n) with (x + d * 0 + n) by lia. exact R.
        -- destruct (w_reset _ _ _ _ _ L [] (d - 1) t d st1) as (st2 & Es2 & Hat2); auto.
           cbn [length] in Es2. rewrite Es2. cbn [bind app] in *.
           destruct (IH [d] sh2 (n - off) t st2) as (i' & n' & ix' & st' & E2 & R); auto.
           { eauto. }
           cbn [length repeat app] in E2. rewrite E2. do 4 eexists. split; [reflexivity|].
           rewrite TT in R. unfold T. rewrite PN. cbn [col_pos].
           replace (1 * (x + d * col_pos sh2 t) + 1 - 1 + n) with (x + d * col_pos sh2 t + n) by lia. exact R.
    + cbn [negb orb].
      destruct (Z.ltb_spec (x + 1) d) as [Hfit|Hfit].
      * rewrite (wrm z x t (x + 1) (length sh1)) by auto. cbn [bind].
        destruct (w_step _ _ _ _ _ L z x t 1 d st) as (st1 & Es & Hat1); auto; try lia.
        { apply nthm. auto. }
        rewrite Lz in Es. rewrite Es. cbn [bind].
        assert (Hb1 : in_bounds (sh1 ++ d :: sh2) (z ++ (x + 1) :: t)).
        { apply in_bounds_app; [assumption|]. constructor; [lia|assumption]. }
        assert (C : col_pos (sh1 ++ d :: sh2) (z ++ (x + 1) :: t) + (n - 1) = T).
        { rewrite col_pos_app by auto. unfold z, T. rewrite col_pos_zeros. cbn [col_pos]. lia. }
        destruct (Z.eq_dec n 1) as [->|Hn1].
        -- destruct fuel as [|fuel]; [lia|]. change (1 - 1) with 0. rewrite jump_stop.
           do 4 eexists. split; [reflexivity|]. left. split; [reflexivity|]. split; [assumption|].
           split; [assumption|]. lia.
        -- destruct (IH [] (sh1 ++ d :: sh2) (n - 1) (z ++ (x + 1) :: t) st1) as (i' & n' & ix' & st' & E2 & R); auto; try lia.
           { eauto. }
           cbn [length repeat app] in E2. rewrite E2. do 4 eexists. split; [reflexivity|].
           rewrite prod_nil in R.
           replace (1 * col_pos (sh1 ++ d :: sh2) (z ++ (x + 1) :: t) + 1 - 1 + (n - 1)) with T in R by lia.
           exact R.
      * cbn [bind]. rewrite (wrm z x t 0 (length sh1)) by auto. cbn [bind].
        assert (Ex : x = d - 1) by lia.
        assert (Ez : z ++ 0 :: t = repeat 0 (length (sh1 ++ [d])) ++ t).
        { unfold z. rewrite zeros_snoc, app_length. cbn [length]. rewrite Nat.add_comm. reflexivity. }
        assert (TT : prod (sh1 ++ [d]) * col_pos sh2 t + prod (sh1 ++ [d]) - 1 + n = T).
        { unfold T. cbn [col_pos]. rewrite prod_app, prod_cons, prod_nil, Ex. ring. }
        assert (Hf' : (Z.to_nat n * Datatypes.S (length (sh1 ++ d :: sh2)) + length sh2 < fuel)%nat)
          by (cbn [length] in Hf; lia).
        rewrite app_length. cbn [length].
        destruct (Nat.eqb_spec (length sh1) (length z + Datatypes.S (length t) - 1)) as [El|El]; cbn [bind].
        -- assert (sh2 = []) by (destruct sh2; [reflexivity|cbn in *; lia]). subst sh2.
           assert (t = []) by (destruct t; [reflexivity|cbn in *; lia]). subst t.
           rewrite Ez.
           destruct (IH (sh1 ++ [d]) [] n [] st) as (i' & n' & ix' & st' & E2 & R); auto; try (constructor).
           { rewrite app_nil_r. reflexivity. }
           { congruence. }
           rewrite app_length in E2 at 1. cbn [length] in E2. rewrite Nat.add_comm in E2. cbn [Nat.add] in E2.
           rewrite E2. do 4 eexists. split; [reflexivity|]. rewrite TT in R. exact R.
        -- destruct (w_reset _ _ _ _ _ L z x t d st) as (st2 & Es2 & Hat2); auto.
           { apply nthm. auto. }
           rewrite Lz in Es2. rewrite Es2. cbn [bind]. rewrite Ez in *.
           destruct (IH (sh1 ++ [d]) sh2 n t st2) as (i' & n' & ix' & st' & E2 & R); auto.
           { rewrite <- app_assoc. reflexivity. }
           { eauto. }
           rewrite app_length in E2 at 1. cbn [length] in E2. rewrite Nat.add_comm in E2. cbn [Nat.add] in E2.
           rewrite E2. do 4 eexists. split; [reflexivity|]. rewrite TT in R. exact R.
Qed.

Lemma col_increment_n_ok : forall ix st n, in_bounds sh ix -> at_ ix st -> 0 <= n ->
  exists ix' st', col_increment_n ops sh ix st n = Ok (ix', st') /\
    ((col_pos sh ix + n < prod sh /\ in_bounds sh ix' /\ col_pos sh ix' = col_pos sh ix + n /\ at_ ix' st') \/
     (prod sh <= col_pos sh ix + n /\ ix' = col_endx sh /\ end_ st')).
Proof.
  intros ix st n Hb Hat Hn. unfold col_increment_n.
  assert (Ln : length ix = length sh) by (apply in_bounds_length in Hb; auto).
  destruct (Z.eq_dec n 0) as [->|Hn0].
  - unfold jump_fuel. change (Z.to_nat 0) with 0%nat. cbn [Nat.mul Nat.add]. rewrite jump_stop. cbn [bind].
    rewrite andb_false_r. do 2 eexists. split; [reflexivity|]. left.
    pose proof (col_pos_bound _ _ Hb). split; [lia|]. split; [assumption|]. split; [lia|assumption].
  - destruct (col_jump_loop_ok (jump_fuel ix n) [] sh n ix st eq_refl) as (i' & n' & ix' & st' & E & R); auto; try lia.
    { unfold jump_fuel. rewrite Ln. lia. }
    { eauto. }
    cbn [length repeat app] in E. rewrite E. cbn [bind].
    rewrite prod_nil in R. replace (1 * col_pos sh ix + 1 - 1 + n) with (col_pos sh ix + n) in R by lia.
    destruct R as [(-> & R1 & R2 & R3)|(R0 & -> & R1 & R2 & R3)].
    + cbn [Z.eqb negb]. rewrite andb_false_r. do 2 eexists. split; [reflexivity|]. left.
      pose proof (col_pos_bound _ _ R1). split; [lia|]. auto.
    + rewrite R1, Nat.eqb_refl. destruct (Z.eqb_spec n' 0); [lia|]. cbn [negb andb].
      rewrite col_end_index_ok with (ops := ops) (at_ := at_) (end_ := end_) by auto. cbn [bind].
      destruct (w_end _ _ _ _ _ L st' R2) as (st2 & E2 & He). rewrite E2. cbn [bind].
      do 2 eexists. split; [reflexivity|]. right. auto.
Qed.

Lemma col_back_loop_ok : forall fuel sh1 sh2 n ix2 st,
  sh = sh1 ++ sh2 -> 0 < n ->
  (Z.to_nat n * Datatypes.S (length sh) + length sh2 < fuel)%nat ->
  (in_bounds sh2 ix2 \/ (sh1 = [] /\ sh <> [] /\ ix2 = col_endx sh)) ->
  (sh2 <> [] -> at_ (map (fun d => d - 1) sh1 ++ ix2) st) ->
  (exists ixx, at_ ixx st) ->
  let T := prod sh1 * col_pos sh2 ix2 - n in
  0 <= T ->
  exists i' n' ix' st',
    col_back_loop ops sh fuel (length sh1) n (map (fun d => d - 1) sh1 ++ ix2) st = Ok (i', n', ix', st') /\
    n' = 0 /\ in_bounds sh ix' /\ at_ ix' st' /\ col_pos sh ix' = T.
Proof.
  induction fuel as [|fuel IH]; intros sh1 sh2 n ix2 st E Hn Hf Hb Hat Hex T HT; [lia|].
  set (z := map (fun d => d - 1) sh1) in *.
  assert (Lz : length z = length sh1) by (unfold z; apply map_length).
  destruct (pos_sub _ Hpos _ _ E) as [P1 P2].
  assert (HT1 : 0 < prod sh1) by (apply prod_pos; assumption).
  cbn [col_back_loop]. destruct (Z.eqb_spec n 0) as [|_]; [lia|]. rewrite orb_false_r.
  destruct sh2 as [|d sh2].
  - exfalso. assert (ix2 = []). { destruct Hb as [Hb|(E1 & H & _)]; [inversion Hb; auto|]. subst. cbn in H. congruence. }
    subst. unfold T in HT. cbn [col_pos] in HT. lia.
  - inversion P2 as [|? ? Pd P3]; subst.
    assert (HX : exists x t, ix2 = x :: t /\ in_bounds sh2 t /\ 0 <= x <= d /\
               (x < d \/ sh1 = [] /\ ix2 = col_endx (sh1 ++ d :: sh2))).
    { destruct Hb as [Hb|(E1 & _ & Hb)].
      - inversion Hb as [|? x ? t Hx Ht]; subst. exists x, t. split; [reflexivity|]. split; [assumption|]. lia.
      - subst. cbn [app col_endx]. exists d, (map (fun e => e - 1) sh2). split; [reflexivity|].
        split; [apply max_in_bounds; assumption|]. split; [lia|]. right. split; reflexivity. }
    destruct HX as (x & t & -> & Ht & Hx & Hxd).
    assert (Lt : length t = length sh2) by (apply Forall2_length in Ht; auto).
    assert (Lix : length (z ++ x :: t) = length (sh1 ++ d :: sh2)) by (rewrite !app_length; cbn; lia).
    specialize (Hat ltac:(discriminate)).
    destruct (Nat.eqb_spec (length sh1) (length (z ++ x :: t))) as [Eb|_];
      [rewrite app_length in Eb; cbn in Eb; lia|].
    assert (Hz : in_bounds sh1 z) by (unfold z; apply max_in_bounds; assumption).
    assert (Hfull : in_bounds (sh1 ++ d :: sh2) (z ++ x :: t) \/
                    z ++ x :: t = endx column_major (sh1 ++ d :: sh2)).
    { destruct Hxd as [Hxd|[E1 Hxd]].
      - left. apply in_bounds_app; [assumption|]. constructor; [lia|assumption].
      - right. subst sh1. cbn [app] in *. unfold z. cbn [map app]. exact Hxd. }
    rewrite (rdm z x t (length sh1)) by auto. cbn [bind].
    destruct (Nat.eqb_spec (length sh1) 0) as [E1|E1].
    + assert (sh1 = []) by (destruct sh1; [reflexivity|discriminate]). subst sh1.
      cbn [length map app negb orb] in *. unfold z in *. clear z. cbn [app] in *.
      pose proof prod_nil as PN.
      destruct (Z.leb_spec n x) as [Hfit|Hfit].
      * change (wr (x :: t) 0 (x - n)) with (Ok ((x - n) :: t)). cbn [bind app].
        destruct (w_back _ _ _ _ _ L [] x t n st) as (st1 & Es & Hat1); auto; try lia. { destruct Hfull; [left; assumption|right; split; [lia|assumption]]. }
        cbn [length] in Es. rewrite Es. cbn [bind app] in *. rewrite Z.sub_diag.
        destruct fuel as [|fuel]; [lia|].
        assert (C : col_pos (d :: sh2) ((x - n) :: t) = T).
        { unfold T. rewrite PN. cbn [col_pos]. lia. }
        cbn [length]; destruct (Datatypes.S (length t) =? 1)%nat; rewrite back_stop;
          do 4 eexists; (split; [reflexivity|]); (split; [reflexivity|]);
          (split; [constructor; [lia|assumption]|]); auto.
      * destruct (w_back _ _ _ _ _ L [] x t x st) as (st1 & Es & Hat1); auto; try lia. { destruct Hfull as [Hfull|Hfull]; [left; assumption|right; split; [cbn in Hfull; injection Hfull as -> _; lia|assumption]]. }
        cbn [length] in Es. rewrite Es. cbn [bind app] in *.
        change (rd (d :: sh2) 0) with (Ok d). cbn [bind].
        change (wr (x :: t) 0 (d - 1)) with (Ok ((d - 1) :: t)). cbn [bind app length].
        replace (x - x) with 0 in Hat1 by lia.
        assert (Hb1 : in_bounds (d :: sh2) (0 :: t)) by (constructor; [lia|assumption]).
        assert (Hn' : 0 < n - x) by lia.
        assert (Hf' : (Z.to_nat (n - x) * Datatypes.S (length (d :: sh2)) + length sh2 < fuel)%nat).
        { assert (Z.to_nat (n - x) <= Z.to_nat n)%nat by lia. cbn [length] in Hf |- *. nia. }
        assert (TT : forall ixx, prod [d] * col_pos sh2 ixx - (n - x) = 1 * (x + d * col_pos sh2 ixx) - n).
        { intros. rewrite prod_cons, prod_nil. lia. }
        destruct (Nat.eqb_spec 0 (Datatypes.S (length t) - 1)) as [El|El]; cbn [bind].
        -- exfalso. assert (sh2 = []) by (destruct sh2; [reflexivity|cbn in *; lia]). subst sh2.
           unfold T in HT. rewrite PN in HT. cbn [col_pos] in HT. lia.
        -- destruct (w_reset_back _ _ _ _ _ L [] t d st1) as (st2 & Es2 & Hat2); auto.
           cbn [length] in Es2. rewrite Es2. cbn [bind app] in *.
           destruct (IH [d] sh2 (n - x) t st2) as (i' & n' & ix' & st' & E2 & R); auto.
           { eauto. }
           { rewrite TT. rewrite <- PN. exact HT. }
           cbn [length map app] in E2. rewrite E2. do 4 eexists. split; [reflexivity|].
           rewrite TT in R. unfold T. rewrite PN. exact R.
    + cbn [negb orb].
      assert (Hxlt : x < d) by (destruct Hxd as [|[-> _]]; [assumption|cbn in E1; congruence]).
      destruct (Z.leb_spec 1 x) as [Hfit|Hfit].
      * rewrite (wrm z x t (x - 1) (length sh1)) by auto. cbn [bind].
        destruct (w_back _ _ _ _ _ L z x t 1 st) as (st1 & Es & Hat1); auto; try lia. { destruct Hfull; [left; assumption|right; split; [lia|assumption]]. }
        rewrite Lz in Es. rewrite Es. cbn [bind].
        assert (Hb1 : in_bounds (sh1 ++ d :: sh2) (z ++ (x - 1) :: t)).
        { apply in_bounds_app; [assumption|]. constructor; [lia|assumption]. }
        assert (C : col_pos (sh1 ++ d :: sh2) (z ++ (x - 1) :: t) - (n - 1) = T).
        { rewrite col_pos_app by auto. unfold z, T. rewrite col_pos_max. cbn [col_pos]. lia. }
        destruct (Z.eq_dec n 1) as [->|Hn1].
        -- destruct fuel as [|fuel]; [lia|]. change (1 - 1) with 0. rewrite back_stop.
           do 4 eexists. split; [reflexivity|]. split; [reflexivity|]. split; [assumption|].
           split; [assumption|]. lia.
        -- destruct (IH [] (sh1 ++ d :: sh2) (n - 1) (z ++ (x - 1) :: t) st1) as (i' & n' & ix' & st' & E2 & R); auto; try lia.
           { eauto. }
           { rewrite prod_nil. lia. }
           cbn [length map app] in E2. rewrite E2. do 4 eexists. split; [reflexivity|].
           rewrite prod_nil in R.
           replace (1 * col_pos (sh1 ++ d :: sh2) (z ++ (x - 1) :: t) - (n - 1)) with T in R by lia.
           exact R.
      * assert (Ex : x = 0) by lia. subst x.
        cbn [bind]. rewrite (rdm sh1 d sh2 (length sh1)) by auto. cbn [bind].
        rewrite (wrm z 0 t (d - 1) (length sh1)) by auto. cbn [bind].
        assert (Ez : z ++ (d - 1) :: t = map (fun d => d - 1) (sh1 ++ [d]) ++ t).
        { unfold z. apply max_snoc. }
        assert (TT : prod (sh1 ++ [d]) * col_pos sh2 t - n = T).
        { unfold T. cbn [col_pos]. rewrite prod_app, prod_cons, prod_nil. ring. }
        assert (Hf' : (Z.to_nat n * Datatypes.S (length (sh1 ++ d :: sh2)) + length sh2 < fuel)%nat)
          by (cbn [length] in Hf; lia).
        rewrite app_length. cbn [length].
        destruct (Nat.eqb_spec (length sh1) (length z + Datatypes.S (length t) - 1)) as [El|El]; cbn [bind].
        -- exfalso. assert (sh2 = []) by (destruct sh2; [reflexivity|cbn in *; lia]). subst sh2.
           unfold T in HT. cbn [col_pos] in HT. lia.
        -- assert (Hfull' : in_bounds (sh1 ++ d :: sh2) (z ++ 0 :: t)).
           { apply in_bounds_app; [assumption|]. constructor; [lia|assumption]. }
           destruct (w_reset_back _ _ _ _ _ L z t d st) as (st2 & Es2 & Hat2); auto.
           { apply nthm. auto. }
           rewrite Lz in Es2. rewrite Es2. cbn [bind]. rewrite Ez in *.
           destruct (IH (sh1 ++ [d]) sh2 n t st2) as (i' & n' & ix' & st' & E2 & R); auto.
           { rewrite <- app_assoc. reflexivity. }
           { eauto. }
           { rewrite TT. exact HT. }
           rewrite app_length in E2 at 1. cbn [length] in E2. rewrite Nat.add_comm in E2. cbn [Nat.add] in E2.
           rewrite E2. do 4 eexists. split; [reflexivity|]. rewrite TT in R. exact R.
Qed.

End ColJump.
