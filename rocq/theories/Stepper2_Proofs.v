(** Proofs about steppers and iterators, continued: positions along an iteration,
    in either layout. *)
From Coq Require Import List ZArith Lia Bool.
From Verif Require Import Prelude PreludeFacts Strides_Model Strides_Spec Strides_Proofs
  Broadcast_Proofs Stepper_Model Stepper_Proofs.
Import ListNotations.
Open Scope Z_scope.

(** [valid l sh at_ end_ k ix st]: index and stepper are those of the k-th
    element of the iteration, or of the end when k is the number of elements. *)
Definition valid {S} (l : layout) (sh : list Z) (at_ : list Z -> S -> Prop) (end_ : S -> Prop)
  (k : Z) (ix : list Z) (st : S) : Prop :=
  (in_bounds sh ix /\ posn l sh ix = k /\ at_ ix st) \/ (k = prod sh /\ ix = endx l sh /\ end_ st).

Lemma col_pos_endx' : forall sh, sh <> [] -> col_pos sh (col_endx sh) = prod sh.
Proof.
  intros [|d t] H; [congruence|]. cbn [col_endx col_pos]. rewrite col_pos_max, prod_cons. ring.
Qed.

Lemma col_end_index_ok' : forall sh ix, length ix = length sh -> col_end_index sh ix = Ok (col_endx sh).
Proof.
  intros sh ix H. unfold col_end_index. destruct sh as [|d t]; destruct ix as [|y v]; try discriminate.
  - reflexivity.
  - cbn [length Nat.eqb]. cbn in H. replace (Datatypes.S (length v) - 1)%nat with (length t) by lia.
    rewrite for_up_pred_from1 by lia. reflexivity.
Qed.

Section ColValid.
Context {S : Type} (ops : stepper_ops S) (sh : list Z).
Context (at_ : list Z -> S -> Prop) (end_ : S -> Prop).
Hypothesis L : wlaws ops column_major sh at_ end_.
Hypothesis Hpos : Forall (fun d => 0 < d) sh.
Hypothesis Hend : forall st, sh <> [] -> end_ st -> at_ (col_endx sh) st.

Notation val := (valid column_major sh at_ end_).

Lemma col_endx_not_in : in_bounds sh (col_endx sh) -> sh = [].
Proof.
  intros H. destruct sh as [|d t]; [reflexivity|]. inversion H; subst. lia.
Qed.

Lemma cv_inc : forall k ix st, val k ix st -> k < prod sh ->
  exists ix' st', col_increment ops sh ix st = Ok (ix', st') /\ val (k + 1) ix' st'.
Proof.
  intros k ix st [(Hb & Hk & Ha)|(Hk & _ & _)] Hlt; [|lia]. cbn [posn] in Hk.
  destruct (col_increment_ok ops sh at_ end_ L Hpos ix st Hb Ha) as (ix' & st' & E & R).
  exists ix', st'. split; [exact E|]. destruct R as [(R1 & R2 & R3 & R4)|(R1 & R2 & R3)].
  - left. cbn [posn]. split; [assumption|]. split; [lia|assumption].
  - right. split; [lia|]. auto.
Qed.

Lemma cv_dec : forall k ix st, val k ix st -> 0 < k ->
  exists ix' st', col_decrement ops sh ix st = Ok (ix', st') /\ val (k - 1) ix' st'.
Proof.
  intros k ix st Hv Hk.
  destruct (col_decrement_ok ops sh at_ end_ L Hpos ix st (Hend st)) as (ix' & st' & E & R1 & R2 & R3).
  { destruct Hv as [(Hb & Hp & Ha)|(Hp & Hx & He)]; [left|right]; auto. cbn [posn] in Hp. split; [assumption|]. split; [assumption|lia]. }
  exists ix', st'. split; [exact E|]. left. cbn [posn]. split; [assumption|]. split; [|assumption].
  rewrite R3. destruct (list_eq_dec Z.eq_dec ix (col_endx sh)) as [Ex|Ex].
  - destruct Hv as [(Hb & Hp & Ha)|(Hp & Hx & He)]; [|lia].
    rewrite Ex in Hb. pose proof (col_endx_not_in Hb) as E0. cbn [posn] in Hp. subst ix. rewrite E0 in *.
    cbn in Hp. lia.
  - destruct Hv as [(Hb & Hp & Ha)|(Hp & Hx & He)]; [cbn [posn] in Hp; lia|]. cbn [endx] in Hx. congruence.
Qed.

Lemma cv_inc_n : forall k ix st n, val k ix st -> 0 <= n -> k + n <= prod sh ->
  exists ix' st', col_increment_n ops sh ix st n = Ok (ix', st') /\ val (k + n) ix' st'.
Proof.
  intros k ix st n [(Hb & Hk & Ha)|(Hk & Hx & He)] Hn Hle.
  - cbn [posn] in Hk. destruct (col_increment_n_ok ops sh at_ end_ L Hpos ix st n Hb Ha Hn) as (ix' & st' & E & R).
    exists ix', st'. split; [exact E|]. destruct R as [(R1 & R2 & R3 & R4)|(R1 & R2 & R3)].
    + left. cbn [posn]. split; [assumption|]. split; [lia|assumption].
    + right. split; [lia|]. auto.
  - assert (n = 0) by lia. subst n. exists ix, st. split.
    + unfold col_increment_n, jump_fuel. change (Z.to_nat 0) with 0%nat. cbn [Nat.mul Nat.add].
      rewrite jump_stop. cbn [bind]. rewrite andb_false_r. reflexivity.
    + right. split; [lia|]. auto.
Qed.

Lemma cv_dec_n : forall k ix st n, val k ix st -> 0 <= n <= k ->
  exists ix' st', col_decrement_n ops sh ix st n = Ok (ix', st') /\ val (k - n) ix' st'.
Proof.
  intros k ix st n Hv Hn.
  destruct (Z.eq_dec n 0) as [->|Hn0].
  { exists ix, st. split.
    - unfold col_decrement_n, jump_fuel. change (Z.to_nat 0) with 0%nat. cbn [Nat.mul Nat.add].
      rewrite back_stop. cbn [bind]. rewrite andb_false_r. reflexivity.
    - rewrite Z.sub_0_r. exact Hv. }
  destruct (list_eq_dec Z.eq_dec sh []) as [E0|E0].
  - (* 0-d *)
    destruct Hv as [(Hb & Hk & Ha)|(Hk & Hx & He)].
    + exfalso. cbn [posn] in Hk. pose proof (col_pos_bound _ _ Hb). rewrite E0, prod_nil in *. lia.
    + rewrite E0 in Hx. cbn in Hx. subst ix. rewrite E0, prod_nil in Hk. assert (n = 1) by lia. subst k n.
      destruct (w_begin _ _ _ _ _ L E0 st (or_intror He)) as (st' & E & Ha).
      exists [], st'. unfold col_decrement_n. change (jump_fuel [] 1) with 3%nat. cbn [col_back_loop length Nat.eqb orb bind Z.eqb negb andb]. rewrite E. split; [reflexivity|].
      left. rewrite E0 in *. split; [constructor|]. split; [reflexivity|assumption].
  - assert (Ha : at_ ix st) by (destruct Hv as [(? & ? & ?)|(? & -> & ?)]; auto).
    assert (Hp : col_pos sh ix = k).
    { destruct Hv as [(? & ? & ?)|(? & Hx & ?)]; [assumption|]. cbn [endx] in Hx. rewrite Hx, col_pos_endx' by auto. lia. }
    assert (Ln : length ix = length sh).
    { destruct Hv as [(Hb & ? & ?)|(? & Hx & ?)]; [apply in_bounds_length in Hb; auto|].
      rewrite Hx. cbn [endx]. destruct sh; [reflexivity|]. cbn. rewrite map_length. reflexivity. }
    destruct (col_back_loop_ok ops sh at_ end_ L Hpos (jump_fuel ix n) [] sh n ix st eq_refl)
      as (i' & n' & ix' & st' & E & R0 & R1 & R2 & R3); try lia.
    { unfold jump_fuel. rewrite Ln. lia. }
    { destruct Hv as [(? & ? & ?)|(? & ? & ?)]; auto. }
    { intros _. exact Ha. }
    { eauto. }
    { rewrite prod_nil. lia. }
    cbn [length map app] in E. unfold col_decrement_n. rewrite E. cbn [bind]. subst n'.
    rewrite andb_false_r. exists ix', st'. split; [reflexivity|]. left. cbn [posn].
    rewrite prod_nil in R3. split; [assumption|]. split; [lia|assumption].
Qed.
End ColValid.

(** * Row major is the mirror image of column major *)

Definition m_ops {S} (ops : stepper_ops S) (N : nat) : stepper_ops S :=
  mk_ops (fun d n st => s_step ops (N - 1 - d) n st) (fun d n st => s_step_back ops (N - 1 - d) n st)
    (fun d st => s_reset ops (N - 1 - d) st) (fun d st => s_reset_back ops (N - 1 - d) st)
    (s_to_begin ops) (fun _ st => s_to_end ops row_major st).

Definition rmap {A B} (f : A -> B) (r : res A) : res B := let* x := r in Ok (f x).

Lemma nth_error_rev' {A} (l : list A) k : (k < length l)%nat ->
  nth_error (rev l) k = nth_error l (length l - 1 - k).
Proof.
  intros H. destruct (nth_error_lt_ex (rev l) k) as [x Hx]; [rewrite rev_length; exact H|].
  rewrite Hx. destruct l as [|d0 l0]; [cbn in H; lia|]. set (l := d0 :: l0) in *.
  symmetry. rewrite (nth_error_nth' _ d0) by lia. f_equal.
  apply nth_error_nth with (d := d0) in Hx. rewrite <- Hx. rewrite rev_nth by lia. f_equal. lia.
Qed.

Lemma rd_rev {A} (l : list A) k : (k < length l)%nat -> rd (rev l) (length l - 1 - k) = rd l k.
Proof.
  intros H. unfold rd. rewrite nth_error_rev' by lia. replace (length l - 1 - (length l - 1 - k))%nat with k by lia.
  reflexivity.
Qed.

Lemma wr_rev {A} (l : list A) k v : (k < length l)%nat ->
  wr (rev l) (length l - 1 - k) v = rmap (@rev A) (wr l k v).
Proof.
  intros H. destruct (nth_error_split l k) with (a := nth k l v) as (l1 & l2 & E & Lk).
  { rewrite (nth_error_nth' _ v) by lia. reflexivity. }
  set (x := nth k l v) in *. clearbody x. subst l k.
  rewrite (wrm l1 x l2) by reflexivity. unfold rmap. cbn [bind].
  rewrite !rev_app_distr. cbn [rev]. rewrite <- !app_assoc. cbn [app].
  rewrite (wrm (rev l2) x (rev l1)); [reflexivity|]. rewrite rev_length, app_length. cbn. lia.
Qed.

Lemma wr_ex {A} (l : list A) k v : (k < length l)%nat -> exists l', wr l k v = Ok l' /\ length l' = length l.
Proof. intros H. exists (upd l k v). split; [apply wr_ok; assumption|apply upd_length]. Qed.

Section Mirror.
Context {S : Type} (ops : stepper_ops S) (sh : list Z).
Notation N := (length sh).
Notation mops := (m_ops ops N).

Definition mf3 (t : bool * list Z * S) : bool * list Z * S := let '(b, ix, st) := t in (b, rev ix, st).
Definition mf2 (t : list Z * S) : list Z * S := let '(ix, st) := t in (rev ix, st).
Definition mf4 (t : nat * Z * list Z * S) : nat * Z * list Z * S :=
  let '(i, n, ix, st) := t in ((N - i)%nat, n, rev ix, st).

Lemma mirror_inc_loop : forall i ix st, length ix = N -> (i <= N)%nat ->
  col_inc_loop mops (rev sh) i (rev ix) st = rmap mf3 (row_inc_loop ops sh i ix st).
Proof.
  induction i as [|i IH]; intros ix st Ln Hi; [reflexivity|].
  cbn [col_inc_loop row_inc_loop]. rewrite rev_length, Ln.
  replace (N - Datatypes.S i)%nat with (N - 1 - i)%nat by lia.
  pose proof (rd_rev ix i ltac:(lia)) as Ri. rewrite Ln in Ri. rewrite Ri, rd_rev by lia.
  destruct (rd ix i) as [x| |] ; [|reflexivity|reflexivity]. cbn [bind].
  destruct (rd sh i) as [d| |] ; [|reflexivity|reflexivity]. cbn [bind].
  destruct (negb (x =? d - 1)).
  - pose proof (wr_rev ix i (x + 1) ltac:(lia)) as Wi. rewrite Ln in Wi. rewrite Wi.
    destruct (wr ix i (x + 1)) as [ix'| |]; [|reflexivity|reflexivity]. unfold rmap. cbn [bind].
    cbn [m_ops s_step]. replace (N - 1 - (N - 1 - i))%nat with i by lia.
    destruct (s_step ops i 1 st); reflexivity.
  - pose proof (wr_rev ix i 0 ltac:(lia)) as Wi. rewrite Ln in Wi. rewrite Wi.
    destruct (wr_ex ix i 0 ltac:(lia)) as (ix' & Ew & Ln'). rewrite Ew. unfold rmap at 1. cbn [bind].
    rewrite rev_length, Ln', Ln. cbn [m_ops s_reset]. replace (N - 1 - (N - 1 - i))%nat with i by lia.
    replace (N - 1 - i =? N - 1)%nat with (i =? 0)%nat
      by (destruct (Nat.eqb_spec i 0), (Nat.eqb_spec (N - 1 - i) (N - 1)); auto; lia).
    destruct (i =? 0)%nat; cbn [bind].
    + apply IH; lia.
    + destruct (s_reset ops i st); [|reflexivity|reflexivity]. cbn [bind]. apply IH; lia.
Qed.

Lemma mirror_dec_loop : forall i ix st, length ix = N -> (i <= N)%nat ->
  col_dec_loop mops (rev sh) i (rev ix) st = rmap mf3 (row_dec_loop ops sh i ix st).
Proof.
  induction i as [|i IH]; intros ix st Ln Hi; [reflexivity|].
  cbn [col_dec_loop row_dec_loop]. rewrite rev_length, Ln.
  replace (N - Datatypes.S i)%nat with (N - 1 - i)%nat by lia.
  pose proof (rd_rev ix i ltac:(lia)) as Ri. rewrite Ln in Ri. rewrite Ri, rd_rev by lia.
  destruct (rd ix i) as [x| |] ; [|reflexivity|reflexivity]. cbn [bind].
  destruct (negb (x =? 0)).
  - pose proof (wr_rev ix i (x - 1) ltac:(lia)) as Wi. rewrite Ln in Wi. rewrite Wi.
    destruct (wr ix i (x - 1)) as [ix'| |]; [|reflexivity|reflexivity]. unfold rmap. cbn [bind].
    cbn [m_ops s_step_back]. replace (N - 1 - (N - 1 - i))%nat with i by lia.
    destruct (s_step_back ops i 1 st); reflexivity.
  - destruct (rd sh i) as [d| |] ; [|reflexivity|reflexivity]. cbn [bind].
    pose proof (wr_rev ix i (d - 1) ltac:(lia)) as Wi. rewrite Ln in Wi. rewrite Wi.
    destruct (wr_ex ix i (d - 1) ltac:(lia)) as (ix' & Ew & Ln'). rewrite Ew. unfold rmap at 1. cbn [bind].
    rewrite rev_length, Ln', Ln. cbn [m_ops s_reset_back]. replace (N - 1 - (N - 1 - i))%nat with i by lia.
    replace (N - 1 - i =? N - 1)%nat with (i =? 0)%nat
      by (destruct (Nat.eqb_spec i 0), (Nat.eqb_spec (N - 1 - i) (N - 1)); auto; lia).
    destruct (i =? 0)%nat; cbn [bind].
    + apply IH; lia.
    + destruct (s_reset_back ops i st); [|reflexivity|reflexivity]. cbn [bind]. apply IH; lia.
Qed.

Lemma mirror_jump_loop : forall fuel i n ix st, length ix = N -> (i <= N)%nat ->
  col_jump_loop mops (rev sh) fuel (N - i) n (rev ix) st = rmap mf4 (row_jump_loop ops sh fuel i n ix st).
Proof.
  induction fuel as [|fuel IH]; intros i n ix st Ln Hi; [reflexivity|].
  cbn [col_jump_loop row_jump_loop]. rewrite rev_length, Ln.
  destruct i as [|i].
  { rewrite Nat.sub_0_r, Nat.eqb_refl. cbn [orb]. unfold rmap. cbn [bind mf4]. rewrite Nat.sub_0_r. reflexivity. }
  replace (N - Datatypes.S i =? N)%nat with false
    by (symmetry; apply Nat.eqb_neq; lia). cbn [orb].
  destruct (n =? 0); [reflexivity|].
  replace (N - Datatypes.S i)%nat with (N - 1 - i)%nat by lia.
  pose proof (rd_rev ix i ltac:(lia)) as Ri. rewrite Ln in Ri. rewrite Ri, rd_rev by lia.
  replace (N - 1 - i =? 0)%nat with (i =? N - 1)%nat
    by (destruct (Nat.eqb_spec i (N - 1)), (Nat.eqb_spec (N - 1 - i) 0); auto; lia).
  set (lead := (i =? N - 1)%nat). set (inc := if lead then n else 1).
  destruct (rd ix i) as [x| |] ; [|reflexivity|reflexivity]. cbn [bind].
  destruct (rd sh i) as [d| |] ; [|reflexivity|reflexivity]. cbn [bind].
  cbn [m_ops s_step s_reset].
  replace (N - 1 - (N - 1 - i))%nat with i by lia.
  destruct (x + inc <? d).
  - pose proof (wr_rev ix i (x + inc) ltac:(lia)) as Wi. rewrite Ln in Wi. rewrite Wi.
    destruct (wr_ex ix i (x + inc) ltac:(lia)) as (ix' & Ew & Ln'). rewrite Ew. unfold rmap at 1. cbn [bind].
    destruct (s_step ops i inc st) as [st'| |]; [|reflexivity|reflexivity]. cbn [bind].
    rewrite rev_length, Ln', Ln.
    destruct (negb lead || (N =? 1)%nat).
    + rewrite <- IH by lia. rewrite Nat.sub_diag. reflexivity.
    + rewrite <- IH by lia. replace (N - i)%nat with (Datatypes.S (N - 1 - i)) by lia. reflexivity.
  - match goal with |- bind ?a ?f = rmap _ (bind ?b ?g) => change b with a; destruct a as [[n' st']| |] end;
      [|reflexivity|reflexivity]. cbn [bind].
    pose proof (wr_rev ix i 0 ltac:(lia)) as Wi. rewrite Ln in Wi. rewrite Wi.
    destruct (wr_ex ix i 0 ltac:(lia)) as (ix' & Ew & Ln'). rewrite Ew. unfold rmap at 1. cbn [bind].
    rewrite rev_length, Ln', Ln.
    replace (N - 1 - i =? N - 1)%nat with (i =? 0)%nat
      by (destruct (Nat.eqb_spec i 0), (Nat.eqb_spec (N - 1 - i) (N - 1)); auto; lia).
    replace (Datatypes.S (N - 1 - i)) with (N - i)%nat by lia.
    destruct (i =? 0)%nat; cbn [bind].
    + apply IH; lia.
    + destruct (s_reset ops i st'); [|reflexivity|reflexivity]. cbn [bind]. apply IH; lia.
Qed.

Lemma mirror_back_loop : forall fuel i n ix st, length ix = N -> (i <= N)%nat ->
  col_back_loop mops (rev sh) fuel (N - i) n (rev ix) st = rmap mf4 (row_back_loop ops sh fuel i n ix st).
Proof.
  induction fuel as [|fuel IH]; intros i n ix st Ln Hi; [reflexivity|].
  cbn [col_back_loop row_back_loop]. rewrite rev_length, Ln.
  destruct i as [|i].
  { rewrite Nat.sub_0_r, Nat.eqb_refl. cbn [orb]. unfold rmap. cbn [bind mf4]. rewrite Nat.sub_0_r. reflexivity. }
  replace (N - Datatypes.S i =? N)%nat with false
    by (symmetry; apply Nat.eqb_neq; lia). cbn [orb].
  destruct (n =? 0); [reflexivity|].
  replace (N - Datatypes.S i)%nat with (N - 1 - i)%nat by lia.
  pose proof (rd_rev ix i ltac:(lia)) as Ri. rewrite Ln in Ri. rewrite Ri, rd_rev by lia.
  replace (N - 1 - i =? 0)%nat with (i =? N - 1)%nat
    by (destruct (Nat.eqb_spec i (N - 1)), (Nat.eqb_spec (N - 1 - i) 0); auto; lia).
  set (lead := (i =? N - 1)%nat). set (inc := if lead then n else 1).
  destruct (rd ix i) as [x| |] ; [|reflexivity|reflexivity]. cbn [bind].
  cbn [m_ops s_step_back s_reset_back].
  replace (N - 1 - (N - 1 - i))%nat with i by lia.
  destruct (inc <=? x).
  - pose proof (wr_rev ix i (x - inc) ltac:(lia)) as Wi. rewrite Ln in Wi. rewrite Wi.
    destruct (wr_ex ix i (x - inc) ltac:(lia)) as (ix' & Ew & Ln'). rewrite Ew. unfold rmap at 1. cbn [bind].
    destruct (s_step_back ops i inc st) as [st'| |]; [|reflexivity|reflexivity]. cbn [bind].
    rewrite rev_length, Ln', Ln.
    destruct (negb lead || (N =? 1)%nat).
    + rewrite <- IH by lia. rewrite Nat.sub_diag. reflexivity.
    + rewrite <- IH by lia. replace (N - i)%nat with (Datatypes.S (N - 1 - i)) by lia. reflexivity.
  - match goal with |- bind ?a ?f = rmap _ (bind ?b ?g) => change b with a; destruct a as [[n' st']| |] end;
      [|reflexivity|reflexivity]. cbn [bind].
    destruct (rd sh i) as [d| |] ; [|reflexivity|reflexivity]. cbn [bind].
    pose proof (wr_rev ix i (d - 1) ltac:(lia)) as Wi. rewrite Ln in Wi. rewrite Wi.
    destruct (wr_ex ix i (d - 1) ltac:(lia)) as (ix' & Ew & Ln'). rewrite Ew. unfold rmap at 1. cbn [bind].
    rewrite rev_length, Ln', Ln.
    replace (N - 1 - i =? N - 1)%nat with (i =? 0)%nat
      by (destruct (Nat.eqb_spec i 0), (Nat.eqb_spec (N - 1 - i) (N - 1)); auto; lia).
    replace (Datatypes.S (N - 1 - i)) with (N - i)%nat by lia.
    destruct (i =? 0)%nat; cbn [bind].
    + apply IH; lia.
    + destruct (s_reset_back ops i st'); [|reflexivity|reflexivity]. cbn [bind]. apply IH; lia.
Qed.

Lemma endx_row_app : forall s d, endx row_major (s ++ [d]) = map (fun e => e - 1) s ++ [d].
Proof.
  intros. cbn [endx]. rewrite rev_app_distr. cbn [rev app col_endx]. rewrite map_rev, rev_involutive. reflexivity.
Qed.

Lemma row_end_index_ok : forall ix, length ix = N -> row_end_index sh ix = Ok (endx row_major sh).
Proof.
  intros ix Ln. unfold row_end_index. destruct (Nat.eqb_spec (length ix) 0) as [E|E].
  - destruct ix; [|discriminate]. destruct sh; [reflexivity|discriminate].
  - destruct (exists_last (l := sh)) as (s & d & Es). { intros ->. cbn in Ln. lia. }
    destruct (exists_last (l := ix)) as (i & x & Ex). { intros ->. cbn in E. lia. }
    rewrite Es, Ex in *. rewrite !app_length in *. cbn [length] in *.
    assert (Li : length i = length s) by lia.
    replace (length i + 1 - 1)%nat with (length s) by lia.
    rewrite (for_up_ext _ (fun k ix0 => let* d0 := rd ([] ++ (s ++ [d])) k in wr ix0 k (d0 - 1))) by reflexivity.
    pose proof (for_up_map_pred s [] [] i Li eq_refl) as Hm. cbn [app length] in Hm.
    assert (HH : for_up (fun k ix0 => let* d0 := rd ([] ++ (s ++ [d])) k in wr ix0 k (d0 - 1)) 0 (length s) (i ++ [x])
            = Ok (map (fun e => e - 1) s ++ [x])).
    { clear -Li. cbn [app].
      enough (A : forall s2 s1 i2 p1, length i2 = length s2 -> length p1 = length s1 ->
         for_up (fun k ix0 => let* d0 := rd (s1 ++ s2 ++ [d]) k in wr ix0 k (d0 - 1)) (length s1) (length s2)
           (p1 ++ i2 ++ [x]) = Ok (p1 ++ map (fun e => e - 1) s2 ++ [x])).
      { apply (A s [] i []); auto. }
      induction s2 as [|e s2 IH]; intros s1 i2 p1 H1 H2.
      - destruct i2; [|discriminate]. reflexivity.
      - destruct i2 as [|y i2]; [discriminate|]. cbn [length for_up app].
        rewrite (rdm s1 e _) by reflexivity. cbn [bind]. rewrite (wrm p1 y) by auto. cbn [bind].
        specialize (IH (s1 ++ [e]) i2 (p1 ++ [e - 1])). rewrite !app_length in IH. cbn [length] in IH.
        rewrite <- !app_assoc in IH. cbn [app] in IH. rewrite (Nat.add_1_r (length s1)) in IH. cbn [map]. apply IH; cbn in *; lia. }
    rewrite HH. cbn [bind]. rewrite (rdm s d []) by reflexivity. cbn [bind].
    rewrite (wrm (map (fun e => e - 1) s) x []) by (rewrite map_length; reflexivity).
    rewrite endx_row_app. reflexivity.
Qed.

Context (at_ : list Z -> S -> Prop) (end_ : S -> Prop).
Hypothesis L : wlaws ops row_major sh at_ end_.
Hypothesis Hpos : Forall (fun d => 0 < d) sh.
Hypothesis Hend : forall st, sh <> [] -> end_ st -> at_ (endx row_major sh) st.

Definition m_at (ix : list Z) (st : S) : Prop := length ix = N /\ at_ (rev ix) st.

Lemma m_laws : wlaws mops column_major (rev sh) m_at end_.
Proof.
  assert (R : forall (pre : list Z) x post, rev (pre ++ x :: post) = rev post ++ x :: rev pre).
  { intros. rewrite rev_app_distr. cbn [rev]. rewrite <- app_assoc. reflexivity. }
  assert (NL : forall (pre : list Z) x post, length (pre ++ x :: post) = N -> (N - 1 - length pre)%nat = length (rev post)).
  { intros pre x post H. rewrite app_length in H. cbn in H. rewrite rev_length. lia. }
  assert (IB : forall ix, in_bounds (rev sh) ix -> in_bounds sh (rev ix)).
  { intros ix H. apply in_bounds_rev in H. rewrite rev_involutive in H. exact H. }
  assert (NE : forall pre x post d, in_bounds (rev sh) (pre ++ x :: post) ->
     nth_error (rev sh) (length pre) = Some d -> nth_error sh (length (rev post)) = Some d).
  { intros pre x post d Hb He. apply in_bounds_length in Hb. rewrite rev_length, app_length in Hb. cbn in Hb.
    rewrite nth_error_rev' in He by lia. rewrite rev_length. rewrite <- He. f_equal. lia. }
  constructor.
  - intros pre x post n d st He Hb Hn Hlt [Hl Ha]. rewrite R in Ha.
    destruct (w_step _ _ _ _ _ L (rev post) x (rev pre) n d st) as (st' & E & Ha'); auto.
    { eapply NE; eauto. }
    { rewrite <- R. apply IB. assumption. }
    exists st'. cbn [m_ops s_step]. rewrite (NL _ _ _ Hl). split; [exact E|]. split.
    + rewrite app_length in *. exact Hl.
    + rewrite R. exact Ha'.
  - intros pre x post n st Hb Hn [Hl Ha]. rewrite R in Ha.
    destruct (w_back _ _ _ _ _ L (rev post) x (rev pre) n st) as (st' & E & Ha'); auto.
    { rewrite <- R. destruct Hb as [Hb|Hb]; [left; apply IB; assumption|]. right. destruct Hb as [Hn1 Hb]. split; [exact Hn1|]. rewrite Hb. reflexivity. }
    exists st'. cbn [m_ops s_step_back]. rewrite (NL _ _ _ Hl). split; [exact E|]. split.
    + rewrite app_length in *. exact Hl.
    + rewrite R. exact Ha'.
  - intros pre x post d st He Hb Hx [Hl Ha]. rewrite R in Ha.
    destruct (w_reset _ _ _ _ _ L (rev post) x (rev pre) d st) as (st' & E & Ha'); auto.
    { eapply NE; eauto. }
    { rewrite <- R. apply IB. assumption. }
    exists st'. cbn [m_ops s_reset]. rewrite (NL _ _ _ Hl). split; [exact E|]. split.
    + rewrite app_length in *. exact Hl.
    + rewrite R. exact Ha'.
  - intros pre post d st He Hb [Hl Ha]. rewrite R in Ha.
    destruct (w_reset_back _ _ _ _ _ L (rev post) (rev pre) d st) as (st' & E & Ha'); auto.
    { eapply NE; eauto. }
    { rewrite <- R. apply IB. assumption. }
    exists st'. cbn [m_ops s_reset_back]. rewrite (NL _ _ _ Hl). split; [exact E|]. split.
    + rewrite app_length in *. exact Hl.
    + rewrite R. exact Ha'.
  - intros E0 st H. destruct (w_begin _ _ _ _ _ L ltac:(rewrite <- (rev_involutive sh), E0; reflexivity) st) as (st' & E & Ha).
    { destruct H as [[ix [_ H]]|H]; [left; eauto|right; exact H]. }
    exists st'. split; [exact E|]. rewrite rev_length. split; [apply repeat_length|].
    replace (rev (repeat 0 N)) with (repeat 0 N); [exact Ha|].
    clear. induction N as [|k IH]; [reflexivity|]. cbn [repeat rev]. rewrite <- IH.
    rewrite <- repeat_cons. reflexivity.
  - intros st [ix [_ H]]. destruct (w_end _ _ _ _ _ L st) as (st' & E & He); [eauto|].
    exists st'. split; [exact E|exact He].
Qed.

Lemma endx_length : length (endx row_major sh) = N.
Proof.
  cbn [endx]. rewrite rev_length. destruct (rev sh) eqn:E.
  - apply (f_equal (@length Z)) in E. rewrite rev_length in E. cbn in *. lia.
  - cbn. rewrite map_length. apply (f_equal (@length Z)) in E. rewrite rev_length in E. cbn in *. lia.
Qed.

Lemma valid_mirror : forall k ix st,
  valid row_major sh at_ end_ k ix st <-> valid column_major (rev sh) m_at end_ k (rev ix) st.
Proof.
  intros k ix st. unfold valid. split.
  - intros [(Hb & Hp & Ha)|(Hk & Hx & He)].
    + left. pose proof (in_bounds_length _ _ Hb). split; [apply in_bounds_rev; assumption|].
      split; [cbn [posn] in *; rewrite <- row_col_rev; auto|].
      split; [rewrite rev_length; auto|]. rewrite rev_involutive. assumption.
    + right. rewrite prod_rev. split; [assumption|]. split; [|assumption]. rewrite Hx. cbn [endx].
      rewrite rev_involutive. reflexivity.
  - intros [(Hb & Hp & Ha)|(Hk & Hx & He)].
    + left. pose proof (in_bounds_rev _ _ Hb) as Hb'. rewrite !rev_involutive in Hb'.
      pose proof (in_bounds_length _ _ Hb'). split; [assumption|].
      split; [cbn [posn] in *; rewrite row_col_rev; auto|].
      destruct Ha as [_ Ha]. rewrite rev_involutive in Ha. assumption.
    + right. rewrite prod_rev in Hk. split; [assumption|]. split; [|assumption].
      rewrite <- (rev_involutive ix), Hx. reflexivity.
Qed.

Lemma valid_len : forall k ix st, valid row_major sh at_ end_ k ix st -> length ix = N.
Proof.
  intros k ix st [(Hb & _)|(_ & -> & _)]; [apply in_bounds_length in Hb; auto|apply endx_length].
Qed.

Lemma Hpos_rev : Forall (fun d => 0 < d) (rev sh).
Proof. apply Forall_rev. exact Hpos. Qed.

Lemma Hend_rev : forall st, rev sh <> [] -> end_ st -> m_at (col_endx (rev sh)) st.
Proof.
  intros st Hn He. split.
  - rewrite <- rev_length. apply endx_length.
  - apply Hend; [|assumption]. intros E0. rewrite E0 in Hn. apply Hn. reflexivity.
Qed.

Lemma col_end_index_rev : forall ix, length ix = N -> col_end_index (rev sh) (rev ix) = rmap (@rev Z) (row_end_index sh ix).
Proof.
  intros ix Ln. rewrite row_end_index_ok by assumption.
  rewrite col_end_index_ok' by (rewrite !rev_length; assumption).
  unfold rmap. cbn [bind endx]. rewrite rev_involutive. reflexivity.
Qed.

Lemma rv_of : forall (c : res (list Z * S)) r (P : list Z -> S -> Prop),
  c = rmap mf2 r -> (exists ix' st', c = Ok (ix', st') /\ P ix' st') ->
  exists ix' st', r = Ok (ix', st') /\ P (rev ix') st'.
Proof.
  intros c r P Ec (ix' & st' & E & HP). rewrite Ec in E.
  destruct r as [[ix st]| |]; try discriminate. unfold rmap in E. cbn [bind mf2] in E.
  injection E as E1 E2. subst. eauto.
Qed.

Lemma row_inc_loop_len : forall i ix st b ix' st', length ix = N ->
  row_inc_loop ops sh i ix st = Ok (b, ix', st') -> length ix' = N.
Proof.
  induction i as [|i IH]; intros ix st b ix' st' Ln E; cbn [row_inc_loop] in E.
  - injection E as _ E _. subst. assumption.
  - apply bind_ok in E. destruct E as (x & _ & E). apply bind_ok in E. destruct E as (d & _ & E).
    destruct (negb (x =? d - 1)).
    + apply bind_ok in E. destruct E as (ix1 & E1 & E). apply bind_ok in E. destruct E as (st1 & _ & E).
      injection E as _ E _. subst. apply wr_ok_inv in E1. destruct E1 as [_ ->]. rewrite upd_length. assumption.
    + apply bind_ok in E. destruct E as (ix1 & E1 & E). apply bind_ok in E. destruct E as (st1 & _ & E).
      apply IH in E; auto. apply wr_ok_inv in E1. destruct E1 as [_ ->]. rewrite upd_length. assumption.
Qed.

Lemma row_jump_loop_len : forall fuel i n ix st i' n' ix' st', length ix = N -> (i <= N)%nat ->
  row_jump_loop ops sh fuel i n ix st = Ok (i', n', ix', st') -> length ix' = N /\ (i' <= N)%nat.
Proof.
  induction fuel as [|fuel IH]; intros i n ix st i' n' ix' st' Ln Hi E; [discriminate|].
  cbn [row_jump_loop] in E. destruct i as [|i].
  - injection E as E1 _ E2 _. subst. auto.
  - destruct (n =? 0); [injection E as E1 _ E2 _; subst; auto|].
    apply bind_ok in E. destruct E as (x & _ & E). apply bind_ok in E. destruct E as (d & _ & E).
    match type of E with (if ?c then _ else _) = _ => destruct c end.
    + apply bind_ok in E. destruct E as (ix1 & E1 & E). apply bind_ok in E. destruct E as (st1 & _ & E).
      apply wr_ok_inv in E1. destruct E1 as [_ E1].
      assert (L1 : length ix1 = N) by (subst ix1; rewrite upd_length; assumption).
      apply IH in E; auto. destruct (negb _ || _); lia.
    + apply bind_ok in E. destruct E as ([n1 st1] & _ & E).
      apply bind_ok in E. destruct E as (ix1 & E1 & E). apply bind_ok in E. destruct E as (st2 & _ & E).
      apply wr_ok_inv in E1. destruct E1 as [_ E1].
      assert (L1 : length ix1 = N) by (subst ix1; rewrite upd_length; assumption).
      apply IH in E; auto. lia.
Qed.

Lemma row_back_loop_len : forall fuel i n ix st i' n' ix' st', length ix = N -> (i <= N)%nat ->
  row_back_loop ops sh fuel i n ix st = Ok (i', n', ix', st') -> length ix' = N /\ (i' <= N)%nat.
Proof.
  induction fuel as [|fuel IH]; intros i n ix st i' n' ix' st' Ln Hi E; [discriminate|].
  cbn [row_back_loop] in E. destruct i as [|i].
  - injection E as E1 _ E2 _. subst. auto.
  - destruct (n =? 0); [injection E as E1 _ E2 _; subst; auto|].
    apply bind_ok in E. destruct E as (x & _ & E).
    match type of E with (if ?c then _ else _) = _ => destruct c end.
    + apply bind_ok in E. destruct E as (ix1 & E1 & E). apply bind_ok in E. destruct E as (st1 & _ & E).
      apply wr_ok_inv in E1. destruct E1 as [_ E1].
      assert (L1 : length ix1 = N) by (subst ix1; rewrite upd_length; assumption).
      apply IH in E; auto. destruct (negb _ || _); lia.
    + apply bind_ok in E. destruct E as ([n1 st1] & _ & E). apply bind_ok in E. destruct E as (d & _ & E).
      apply bind_ok in E. destruct E as (ix1 & E1 & E). apply bind_ok in E. destruct E as (st2 & _ & E).
      apply wr_ok_inv in E1. destruct E1 as [_ E1].
      assert (L1 : length ix1 = N) by (subst ix1; rewrite upd_length; assumption).
      apply IH in E; auto. lia.
Qed.

Lemma mirror_inc : forall ix st, length ix = N ->
  col_increment mops (rev sh) (rev ix) st = rmap mf2 (row_increment ops sh ix st).
Proof.
  intros ix st Ln. unfold col_increment, row_increment. rewrite rev_length, Ln, mirror_inc_loop by auto.
  destruct (row_inc_loop ops sh N ix st) as [[[b ix'] st']| |] eqn:E; [|reflexivity|reflexivity].
  apply row_inc_loop_len in E; [|assumption]. unfold rmap. cbn [bind mf3].
  destruct b; [reflexivity|]. rewrite col_end_index_rev by assumption. unfold rmap.
  destruct (row_end_index sh ix'); [|reflexivity|reflexivity]. cbn [bind m_ops s_to_end].
  destruct (s_to_end ops row_major st'); reflexivity.
Qed.

Lemma mirror_dec : forall ix st, length ix = N ->
  col_decrement mops (rev sh) (rev ix) st = rmap mf2 (row_decrement ops sh ix st).
Proof.
  intros ix st Ln. unfold col_decrement, row_decrement. rewrite rev_length, Ln, mirror_dec_loop by auto.
  destruct (row_dec_loop ops sh N ix st) as [[[b ix'] st']| |] eqn:E; [|reflexivity|reflexivity].
  unfold rmap. cbn [bind mf3]. destruct b; [reflexivity|]. cbn [m_ops s_to_begin].
  destruct (s_to_begin ops st'); reflexivity.
Qed.

Lemma mirror_inc_n : forall ix st n, length ix = N ->
  col_increment_n mops (rev sh) (rev ix) st n = rmap mf2 (row_increment_n ops sh ix st n).
Proof.
  intros ix st n Ln. unfold col_increment_n, row_increment_n, jump_fuel. rewrite rev_length.
  pose proof (mirror_jump_loop (Z.to_nat n * Datatypes.S (length ix) + Datatypes.S (Datatypes.S (length ix))) N n ix st Ln (le_n _)) as Hmm.
  rewrite Nat.sub_diag in Hmm. rewrite Hmm, Ln. clear Hmm.
  destruct (row_jump_loop ops sh _ N n ix st) as [[[[i n'] ix'] st']| |] eqn:E; [|reflexivity|reflexivity].
  apply row_jump_loop_len in E; auto. destruct E as [L1 L2]. unfold rmap. cbn [bind mf4].
  rewrite rev_length, L1.
  replace (N - i =? N)%nat with (i =? 0)%nat
    by (destruct (Nat.eqb_spec i 0), (Nat.eqb_spec (N - i) N); auto; lia).
  destruct ((i =? 0)%nat && negb (n' =? 0)); [|reflexivity].
  rewrite col_end_index_rev by assumption. unfold rmap.
  destruct (row_end_index sh ix'); [|reflexivity|reflexivity]. cbn [bind m_ops s_to_end].
  destruct (s_to_end ops row_major st'); reflexivity.
Qed.

Lemma mirror_dec_n : forall ix st n, length ix = N ->
  col_decrement_n mops (rev sh) (rev ix) st n = rmap mf2 (row_decrement_n ops sh ix st n).
Proof.
  intros ix st n Ln. unfold col_decrement_n, row_decrement_n, jump_fuel. rewrite rev_length.
  pose proof (mirror_back_loop (Z.to_nat n * Datatypes.S (length ix) + Datatypes.S (Datatypes.S (length ix))) N n ix st Ln (le_n _)) as Hmm.
  rewrite Nat.sub_diag in Hmm. rewrite Hmm, Ln. clear Hmm.
  destruct (row_back_loop ops sh _ N n ix st) as [[[[i n'] ix'] st']| |] eqn:E; [|reflexivity|reflexivity].
  apply row_back_loop_len in E; auto. destruct E as [L1 L2]. unfold rmap. cbn [bind mf4].
  rewrite rev_length, L1.
  replace (N - i =? N)%nat with (i =? 0)%nat
    by (destruct (Nat.eqb_spec i 0), (Nat.eqb_spec (N - i) N); auto; lia).
  destruct ((i =? 0)%nat && negb (n' =? 0)); [|reflexivity]. cbn [m_ops s_to_begin].
  destruct (s_to_begin ops st'); reflexivity.
Qed.

Notation val := (valid row_major sh at_ end_).

Ltac mir k ix st := 
  match goal with H : valid _ _ _ _ k ix st |- _ =>
    pose proof (valid_len _ _ _ H) as Ln; pose proof H as Hm; apply valid_mirror in Hm end.

Lemma rv_fin : forall k r,
  (exists ix' st', r = Ok (ix', st') /\ valid column_major (rev sh) m_at end_ k (rev ix') st') ->
  exists ix' st', r = Ok (ix', st') /\ val k ix' st'.
Proof. intros k r (ix' & st' & E & H). exists ix', st'. split; [exact E|]. apply valid_mirror. exact H. Qed.

Lemma vv : forall k (c : res (list Z * S)),
  (exists ix' st', c = Ok (ix', st') /\ valid column_major (rev sh) m_at end_ k ix' st') ->
  exists ix' st', c = Ok (ix', st') /\ valid column_major (rev sh) m_at end_ k (rev (rev ix')) st'.
Proof. intros k c (ix' & st' & E & H). exists ix', st'. rewrite rev_involutive. auto. Qed.

Lemma rv_all : forall k c r, c = rmap mf2 r ->
  (exists ix' st', c = Ok (ix', st') /\ valid column_major (rev sh) m_at end_ k ix' st') ->
  exists ix' st', r = Ok (ix', st') /\ val k ix' st'.
Proof.
  intros k c r Ec (ix' & st' & E & HP). rewrite Ec in E.
  destruct r as [[ix st]| |]; try discriminate. unfold rmap in E. cbn [bind mf2] in E.
  injection E as E1 E2. subst. do 2 eexists. split; [reflexivity|]. apply valid_mirror. assumption.
Qed.

Lemma rv_inc : forall k ix st, val k ix st -> k < prod sh ->
  exists ix' st', row_increment ops sh ix st = Ok (ix', st') /\ val (k + 1) ix' st'.
Proof.
  intros k ix st Hv Hk. mir k ix st. eapply rv_all; [apply mirror_inc; assumption|].
  apply (cv_inc _ _ _ _ m_laws Hpos_rev _ _ _ Hm). rewrite prod_rev. assumption.
Qed.

Lemma rv_dec : forall k ix st, val k ix st -> 0 < k ->
  exists ix' st', row_decrement ops sh ix st = Ok (ix', st') /\ val (k - 1) ix' st'.
Proof.
  intros k ix st Hv Hk. mir k ix st. eapply rv_all; [apply mirror_dec; assumption|].
  apply (cv_dec _ _ _ _ m_laws Hpos_rev Hend_rev _ _ _ Hm). assumption.
Qed.

Lemma rv_inc_n : forall k ix st n, val k ix st -> 0 <= n -> k + n <= prod sh ->
  exists ix' st', row_increment_n ops sh ix st n = Ok (ix', st') /\ val (k + n) ix' st'.
Proof.
  intros k ix st n Hv Hn Hk. mir k ix st. eapply rv_all; [apply mirror_inc_n; assumption|].
  apply (cv_inc_n _ _ _ _ m_laws Hpos_rev _ _ _ _ Hm); rewrite ?prod_rev; assumption.
Qed.

Lemma rv_dec_n : forall k ix st n, val k ix st -> 0 <= n <= k ->
  exists ix' st', row_decrement_n ops sh ix st n = Ok (ix', st') /\ val (k - n) ix' st'.
Proof.
  intros k ix st n Hv Hk. mir k ix st. eapply rv_all; [apply mirror_dec_n; assumption|].
  apply (cv_dec_n _ _ _ _ m_laws Hpos_rev Hend_rev _ _ _ _ Hm). assumption.
Qed.
End Mirror.
