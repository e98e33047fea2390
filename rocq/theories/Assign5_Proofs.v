(** The strided loop visits every element exactly once. *)
From Coq Require Import List ZArith Bool Lia.
From Verif Require Import Prelude PreludeFacts Strides_Model Strides_Spec Strides_Proofs Broadcast_Spec Layout_Model Slice_Model
  Stepper_Model Stepper_Spec Stepper_Proofs Stepper2_Proofs Stepper3_Proofs Stepper4_Proofs Container_Proofs
  Assign_Model Assign_Spec Assign_Proofs Assign2_Proofs Assign3_Proofs Assign4_Proofs.
Import ListNotations.
Open Scope Z_scope.

(** The leaf moves by one when the index moves by one along axis a. *)
Definition unit_at (sh : list Z) (a : nat) (k : container) : Prop :=
  (k_offset k sh <= a)%nat /\ (a - k_offset k sh < length (k_strides k))%nat /\
  nth (a - k_offset k sh) (k_strides k) 0 = 1.

Lemma advance_at {V} sh (e : aexp V) pre x post n : a_strided e = true -> leaves_ok (fun _ k => unit_at sh (length pre) k) e ->
  forall st, x_at sh (inst [] e) (pre ++ x :: post) st ->
  exists st', advance e n st = Ok st' /\ x_at sh (inst [] e) (pre ++ (x + n) :: post) st'.
Proof.
  induction e as [v|m c s|s f|f args IH] using aexp_ind'; intros Hs Hlv st Ha.
  - destruct st; try contradiction. exists TUnit. split; [reflexivity|exact I].
  - destruct st as [|p| |]; try contradiction. exists (TPtr (p + n)). split; [reflexivity|].
    destruct Ha as [H1 H2]. destruct Hlv as (U1 & U2 & U3). cbn [inst x_at]. split; [rewrite app_length in *; exact H1|].
    rewrite (dot_skip_upd pre x (x + n)) by assumption. rewrite U3, H2. ring.
  - discriminate.
  - cbn [inst] in *. apply at_fun in Ha. destruct Ha as (ss & -> & Ha). cbn [advance].
    enough (exists ss', zipM (fun g s => g s) (map (fun a => advance a n) args) ss = Ok ss' /\
              Forall2 (fun a s => x_at sh (inst [] a) (pre ++ (x + n) :: post) s) args ss') as (ss' & E & H).
    { rewrite E. cbn [bind]. eexists. split; [reflexivity|]. apply at_fun. exists ss'. split; [reflexivity|]. apply Forall2_map_l. exact H. }
    rewrite leaves_fun in Hlv. apply Forall2_map_l in Ha. cbn [a_strided] in Hs. clear f. revert ss Ha.
    induction IH as [|a args Hia _ IH2]; intros ss Ha; inversion Ha as [|? s0 ? ss0 Ha1 Ha2]; subst; cbn [map zipM].
    + exists []. split; [reflexivity|constructor].
    + cbn [forallb] in Hs. apply andb_true_iff in Hs. destruct Hs as [Hs1 Hs2]. inversion Hlv as [|? ? Hl1 Hl2]; subst.
      destruct (Hia Hs1 Hl1 s0 Ha1) as (s' & E & H). rewrite E. cbn [bind].
      destruct (IH2 Hs2 Hl2 ss0 Ha2) as (ss' & E' & H'). rewrite E'. cbn [bind].
      eexists. split; [reflexivity|]. constructor; assumption.
Qed.

Section Strided.
Context {V : Type} (c : container) (e : aexp V) (row : bool) (osh : list Z) (d : Z).
Let sh := k_shape c.
Let l := ord row.
(** The index with outer part o and inner part i. *)
Definition mk (o : list Z) (i : Z) : list Z := if row then o ++ [i] else i :: o.
Hypothesis Hsh : sh = mk osh d.
Hypothesis Hpos : Forall (fun d => 0 < d) sh.
Hypothesis Hst : strided_ok c.
Hypothesis Hop : operands_ok sh (inst [] e).
Hypothesis Hs : a_strided e = true.
Let a := if row then length osh else 0%nat.
Hypothesis Hcu : unit_at sh a c.
Hypothesis Hlu : leaves_ok (fun _ k => unit_at sh a k) e.

Let pre (o : list Z) := if row then o else [].
Let post (o : list Z) := if row then [] else o.
Lemma mk_split o i : mk o i = pre o ++ i :: post o.
Proof. unfold mk, pre, post. destruct row; reflexivity. Qed.
Lemma pre_len o : length o = length osh -> length (pre o) = a.
Proof. unfold pre, a. destruct row; auto. Qed.

Lemma mk_bounds o i : in_bounds osh o -> 0 <= i < d -> in_bounds sh (mk o i).
Proof.
  intros H1 H2. rewrite Hsh. unfold mk. destruct row.
  - apply in_bounds_app; [assumption|]. constructor; [assumption|constructor].
  - constructor; assumption.
Qed.
Lemma mk_bounds_inv ix : in_bounds sh ix -> exists o i, ix = mk o i /\ in_bounds osh o /\ 0 <= i < d.
Proof.
  rewrite Hsh. unfold mk. destruct row; intros H.
  - pose proof (in_bounds_length _ _ H) as HL. rewrite app_length in HL. cbn in HL.
    destruct (exists_last (l := ix)) as (o & i & ->). { intros ->. cbn in HL. lia. }
    rewrite app_length in HL. cbn in HL. apply in_bounds_app_inv in H; [|lia]. destruct H as [A B].
    exists o, i. split; [reflexivity|]. split; [assumption|]. inversion B; subst. assumption.
  - inversion H; subst. eexists _, _. split; [reflexivity|]. auto.
Qed.
Lemma mk_pos o i : in_bounds osh o -> order_pos l sh (mk o i) = order_pos l osh o * d + i.
Proof.
  intros H. rewrite Hsh. unfold l, mk, ord. destruct row; cbn [order_pos].
  - apply row_pos_snoc. apply in_bounds_length. assumption.
  - cbn [col_pos]. ring.
Qed.
Lemma mk_prod : prod sh = prod osh * d.
Proof.
  rewrite Hsh. unfold mk. destruct row.
  - rewrite prod_app, prod_cons, prod_nil. ring.
  - rewrite prod_cons. ring.
Qed.
Lemma osh_pos : Forall (fun d => 0 < d) osh /\ 0 < d.
Proof.
  revert Hpos. rewrite Hsh. unfold mk. destruct row; intros H.
  - apply Forall_app in H. destruct H as [H1 H2]. inversion H2; subst. auto.
  - inversion H; subst. auto.
Qed.

Lemma pos_mk o i n : length o = length osh -> position c (mk o (i + n)) = position c (mk o i) + n.
Proof.
  intros HL. unfold position. rewrite !mk_split. destruct Hcu as (U1 & U2 & U3). unfold k_offset, sh in *.
  rewrite Nat.sub_diag in *. rewrite Nat.sub_0_r in *.
  pose proof (dot_skip_upd (pre o) i (i + n) (post o) 0 (k_strides c)) as E. rewrite (pre_len o HL), Nat.sub_0_r in E.
  cbn [skipn] in E. rewrite E by lia. rewrite U3. ring.
Qed.

Lemma adv o i n st : length o = length osh -> x_at sh (inst [] e) (mk o i) st ->
  exists st', advance e n st = Ok st' /\ x_at sh (inst [] e) (mk o (i + n)) st'.
Proof.
  intros HL. rewrite !mk_split. apply advance_at; [assumption|]. rewrite pre_len by assumption. assumption.
Qed.

Lemma inner_ok w : 0 <= w -> forall n o i p st, length o = length osh ->
  p = position c (mk o i) -> x_at sh (inst [] e) (mk o i) st ->
  exists ts st', inner_loop e w n p st = Ok (ts, p + Z.of_nat n * w, st') /\
    x_at sh (inst [] e) (mk o (i + Z.of_nat n * w)) st' /\
    length (concat ts) = (n * Z.to_nat w)%nat /\
    forall j, 0 <= j < Z.of_nat n * w -> exists ln, nth_error (concat ts) (Z.to_nat j) = Some ln /\ lane_at c e (mk o (i + j)) ln.
Proof.
  intros Hw. induction n as [|n IH]; intros o i p st HL Hp Ha; cbn [inner_loop].
  - exists [], st. rewrite Z.mul_0_l, !Z.add_0_r. split; [reflexivity|]. split; [assumption|]. split; [reflexivity|]. intros; lia.
  - assert (exists t : task, seqM (map (fun j => let* s := advance e j st in Ok (p + j, s)) (zseq 0 (Z.to_nat w))) = Ok t /\
              @length lane t = Z.to_nat w /\ forall j, 0 <= j < w -> exists ln, @nth_error lane t (Z.to_nat j) = Some ln /\ lane_at c e (mk o (i + j)) ln) as (t & Et & Lt & Ht).
    { assert (G : forall m b, exists t : task, seqM (map (fun j => let* s := advance e j st in Ok (p + j, s)) (zseq b m)) = Ok t /\ @length lane t = m /\
              forall j, b <= j < b + Z.of_nat m -> exists ln, @nth_error lane t (Z.to_nat (j - b)) = Some ln /\ lane_at c e (mk o (i + j)) ln).
      { induction m as [|m IHm]; intros b.
        - exists []. split; [reflexivity|]. split; [reflexivity|]. intros; lia.
        - change (S m) with (1 + m)%nat. rewrite zseq_app. cbn [zseq seq map app]. rewrite Z.add_0_r. cbn [seqM].
          destruct (adv o i b st HL Ha) as (sb & Eb & Hb). rewrite Eb. cbn [bind].
          destruct (IHm (b + Z.of_nat 1)) as (t & Et & Lt & Ht). rewrite Et. cbn [bind].
          exists ((p + b, sb) :: t). split; [reflexivity|]. split; [cbn; lia|]. intros j Hj.
          destruct (Z.eq_dec j b) as [->|Nj].
          + exists (p + b, sb). rewrite Z.sub_diag. split; [reflexivity|]. split; [|exact Hb]. cbn [fst]. rewrite pos_mk by assumption. lia.
          + destruct (Ht j ltac:(lia)) as (ln & Hn & Hla). exists ln. split; [|assumption].
            replace (Z.to_nat (j - b)) with (S (Z.to_nat (j - (b + Z.of_nat 1)))) by lia. exact Hn. }
      destruct (G (Z.to_nat w) 0) as (t & Et & Lt & Ht). exists t. split; [exact Et|]. split; [assumption|]. intros j Hj.
      destruct (Ht j ltac:(lia)) as (ln & Hn & Hla). rewrite Z.sub_0_r in Hn. eauto. }
    rewrite Et. cbn [bind]. destruct (adv o i w st HL Ha) as (st1 & E1 & Ha1). rewrite E1. cbn [bind].
    destruct (IH o (i + w) (p + w) st1 HL) as (ts & st2 & E2 & Ha2 & L2 & H2); [rewrite pos_mk by assumption; lia|assumption|].
    rewrite E2. cbn [bind]. exists (t :: ts), st2. split; [replace (p + w + Z.of_nat n * w) with (p + Z.of_nat (S n) * w) by lia; reflexivity|]. split.
    + replace (i + Z.of_nat (S n) * w) with (i + w + Z.of_nat n * w) by lia. exact Ha2.
    + cbn [concat]. split; [transitivity (length t + length (concat ts))%nat; [apply app_length|]; rewrite Lt, L2; reflexivity|]. intros j Hj. destruct (Z.lt_ge_cases j w) as [Hlt|Hge].
      * destruct (Ht j ltac:(lia)) as (ln & Hn & Hla). exists ln. split; [|assumption]. rewrite nth_error_app1 by lia. assumption.
      * destruct (H2 (j - w) ltac:(lia)) as (ln & Hn & Hla). exists ln. split.
        -- rewrite nth_error_app2 by lia. rewrite Lt. replace (Z.to_nat j - Z.to_nat w)%nat with (Z.to_nat (j - w)) by lia. assumption.
        -- replace (i + j) with (i + w + (j - w)) by lia. assumption.
Qed.

(** ** Moving the steppers to an outer index *)
Definition step_dim : nat := if row then 0%nat else 1%nat.

Lemma step_all_at {St} (ops : stepper_ops St) at_ end_ st idx : laws ops l sh at_ end_ -> in_bounds osh idx ->
  at_ (repeat 0 (length sh)) st -> exists st', step_all ops step_dim idx st = Ok st' /\ at_ (mk idx 0) st'.
Proof.
  intros L Hb Hz. pose proof (in_bounds_length _ _ Hb) as HL. destruct osh_pos as [Hop' Hd].
  set (cur := fun i : nat => mk (firstn i idx ++ repeat 0 (length idx - i)) 0).
  assert (Hcb : forall i, in_bounds sh (cur i)).
  { intros i. apply mk_bounds; [|lia]. clear - Hb Hop'. revert i. unfold in_bounds in *. induction Hb; intros i.
    - destruct i; constructor.
    - inversion Hop'; subst. destruct i; cbn.
      + constructor; [lia|]. specialize (IHHb H3 0%nat). cbn in IHHb. rewrite Nat.sub_0_r in IHHb. exact IHHb.
      + constructor; [lia|]. apply IHHb. assumption. }
  destruct (for_up_inv (fun i st => at_ (cur i) st) (fun i st => let* x := rd idx i in s_step ops (i + step_dim) x st) 0 (length idx) st) as (st' & E & H).
  - unfold cur. cbn [firstn app]. rewrite Nat.sub_0_r. replace (mk (repeat 0 (length idx)) 0) with (repeat 0 (length sh)); [assumption|].
    rewrite Hsh. unfold mk. rewrite HL. destruct row.
    + rewrite app_length. cbn [length]. rewrite repeat_app. reflexivity.
    + reflexivity.
  - intros i s Hi Ha. rewrite (rd_nth' idx i 0) by lia. cbn [bind].
    set (P := if row then firstn i idx else 0 :: firstn i idx).
    set (Q := if row then repeat 0 (length idx - S i) ++ [0] else repeat 0 (length idx - S i)).
    assert (E1 : cur i = P ++ 0 :: Q).
    { unfold cur, P, Q, mk. replace (length idx - i)%nat with (S (length idx - S i)) by lia. cbn [repeat].
      destruct row; [rewrite <- app_assoc; reflexivity|reflexivity]. }
    assert (E2 : cur (S i) = P ++ (0 + nth i idx 0) :: Q).
    { unfold cur, P, Q, mk. rewrite (firstn_nth_snoc idx i 0) by lia. rewrite Z.add_0_l.
      destruct row; rewrite <- !app_assoc; reflexivity. }
    assert (LP : length P = (i + step_dim)%nat).
    { unfold P, step_dim. destruct row; cbn [length]; rewrite firstn_length; lia. }
    assert (Hnth : nth_error sh (i + step_dim) = Some (nth i osh 0)).
    { rewrite Hsh. unfold mk, step_dim. destruct row.
      - rewrite Nat.add_0_r. rewrite nth_error_app1 by lia. apply nth_error_nth'. lia.
      - rewrite Nat.add_1_r. cbn. apply nth_error_nth'. lia. }
    pose proof (in_bounds_nth' osh idx i Hb ltac:(lia)) as Hx.
    rewrite E1 in Ha. destruct (l_step _ _ _ _ _ L P 0 Q (nth i idx 0) (nth i osh 0) s) as (s' & Es & Ha').
    + rewrite LP. assumption.
    + rewrite <- E1. apply Hcb.
    + lia.
    + lia.
    + assumption.
    + rewrite LP in Es. exists s'. split; [assumption|]. rewrite E2. assumption.
  - exists st'. split; [exact E|]. unfold cur in H. cbn [plus] in H. rewrite firstn_all, Nat.sub_diag, app_nil_r in H. exact H.
Qed.

Lemma step_all_ptr o sd idx p : step_all (ptr_ops o) sd idx (TPtr p) = let* q := step_all o sd idx p in Ok (TPtr q).
Proof.
  unfold step_all. generalize 0%nat. generalize (length idx) as n. intros n. revert p. induction n as [|n IH]; intros p b; cbn [for_up]; [reflexivity|].
  destruct (rd idx b); try reflexivity. cbn [bind ptr_ops s_step ptr_op]. destruct (s_step o (b + sd) a0 p); try reflexivity.
  cbn [bind]. apply IH.
Qed.

Lemma fct_begin st : x_shaped (inst [] e) st -> forall idx, in_bounds osh idx ->
  exists st0 st1, s_to_begin (x_ops sh (inst [] e)) st = Ok st0 /\ step_all (x_ops sh (inst [] e)) step_dim idx st0 = Ok st1 /\
    x_at sh (inst [] e) (mk idx 0) st1.
Proof.
  intros Hsd idx Hb. destruct (to_begin_ok sh (inst [] e) Hop st Hsd) as (st0 & E0 & H0).
  destruct (step_all_at _ _ _ st0 idx (x_laws l sh (ord_rc row) (inst [] e) Hop) Hb H0) as (st1 & E1 & H1). eauto 6.
Qed.

Lemma res_step idx : in_bounds osh idx -> step_all (xs_ops c 0) step_dim idx (k_begin c) = Ok (position c (mk idx 0)).
Proof.
  intros Hb. assert (Hf : fits (k_shape c) sh) by apply fits_self.
  assert (H0 : x_at sh (@XStrided V c []) (repeat 0 (length sh)) (TPtr (k_begin c))).
  { split; [apply repeat_length|]. rewrite dot_zeros. ring. }
  destruct (step_all_at _ _ _ _ idx (x_laws_strided l sh (ord_rc row) c (@nil V) Hf Hst) Hb H0) as (st1 & E1 & H1).
  cbn [x_ops] in E1. rewrite step_all_ptr in E1. unfold k_offset, sh in E1. rewrite Nat.sub_diag in E1.
  apply bind_ok in E1. destruct E1 as (q & Eq & E1). injection E1 as <-. rewrite Eq. f_equal.
  destruct H1 as [_ H1]. rewrite H1. unfold k_offset, sh. rewrite Nat.sub_diag. reflexivity.
Qed.

(** ** The outer loop *)
Section Outer.
Context (contiguous : bool) (w : Z).
Hypothesis Hw : 0 < w.
Hypothesis Hcont : contiguous = true -> dense l c \/ prod osh = 1.
Let simd_size := Z.to_nat (d / w).
Let simd_rest := Z.to_nat (d mod w).

Lemma outer_ok : forall n idx p st, in_bounds osh idx -> order_pos l osh idx + Z.of_nat n <= prod osh ->
  p = position c (mk idx 0) -> x_at sh (inst [] e) (mk idx 0) st ->
  exists ts, outer_loop e c contiguous row step_dim osh w simd_size simd_rest n idx p st = Ok ts /\
    length (concat ts) = (n * Z.to_nat d)%nat /\
    forall o i, in_bounds osh o -> 0 <= i < d -> order_pos l osh idx <= order_pos l osh o < order_pos l osh idx + Z.of_nat n ->
      exists ln, nth_error (concat ts) (Z.to_nat ((order_pos l osh o - order_pos l osh idx) * d + i)) = Some ln /\ lane_at c e (mk o i) ln.
Proof.
  destruct osh_pos as [Hopos Hd]. pose proof (ord_rc row) as Hl. fold l in Hl.
  assert (Hdw : Z.of_nat simd_size * w + Z.of_nat simd_rest = d).
  { unfold simd_size, simd_rest. pose proof (Z.div_pos d w ltac:(lia) Hw). pose proof (Z.mod_pos_bound d w Hw).
    rewrite !Z2Nat.id by lia. pose proof (Z.div_mod d w ltac:(lia)). lia. }
  induction n as [|n IH]; intros idx p st Hb Hn Hp Ha; cbn [outer_loop].
  - exists []. split; [reflexivity|]. split; [reflexivity|]. intros; lia.
  - pose proof (in_bounds_length _ _ Hb) as HL.
    destruct (inner_ok w ltac:(lia) simd_size idx 0 p st HL Hp Ha) as (t1 & st1 & E1 & A1 & L1 & H1). rewrite E1. cbn [bind].
    destruct (inner_ok 1 ltac:(lia) simd_rest idx (0 + Z.of_nat simd_size * w) (p + Z.of_nat simd_size * w) st1 HL) as (t2 & st2 & E2 & A2 & L2 & H2).
    { rewrite pos_mk by assumption. lia. }
    { assumption. }
    rewrite E2. cbn [bind].
    destruct (next_idx_ok row osh idx Hb) as (idx' & E3 & B3 & N3 & Z3). rewrite E3. cbn [bind]. fold l in N3, Z3.
    destruct (fct_begin st2 (x_at_shaped _ _ _ _ A2) idx' B3) as (st3 & st4 & E4 & E5 & A5). fold sh. rewrite E4. cbn [bind]. rewrite E5. cbn [bind].
    set (p2 := p + Z.of_nat simd_size * w + Z.of_nat simd_rest * 1).
    assert (exists p3, (if contiguous then Ok p2 else step_all (xs_ops c 0) step_dim idx' (k_begin c)) = Ok p3 /\
              (order_pos l osh idx + 1 < prod osh -> p3 = position c (mk idx' 0))) as (p3 & E6 & Hp3).
    { destruct contiguous.
      - exists p2. split; [reflexivity|]. intros Hlt. destruct (Hcont eq_refl) as [Hde|H1']; [|pose proof (order_pos_bound l osh idx Hl Hb); lia].
        unfold p2. rewrite Hp. unfold position.
        rewrite !Hde by (apply mk_bounds; [assumption|lia]). fold sh. rewrite !mk_pos by assumption. rewrite N3 by assumption. lia.
      - exists (position c (mk idx' 0)). split; [apply res_step; assumption|auto]. }
    rewrite E6. cbn [bind].
    assert (Hrec : exists r, outer_loop e c contiguous row step_dim osh w simd_size simd_rest n idx' p3 st4 = Ok r /\
       length (concat r) = (n * Z.to_nat d)%nat /\
       forall o i, in_bounds osh o -> 0 <= i < d -> order_pos l osh idx + 1 <= order_pos l osh o < order_pos l osh idx + 1 + Z.of_nat n ->
        exists ln, nth_error (concat r) (Z.to_nat ((order_pos l osh o - (order_pos l osh idx + 1)) * d + i)) = Some ln /\ lane_at c e (mk o i) ln).
    { destruct n as [|n'].
      - exists []. cbn [outer_loop]. split; [reflexivity|]. split; [reflexivity|]. intros; lia.
      - destruct (IH idx' p3 st4 B3) as (r & Er & Lr & Hr).
        + rewrite N3 by lia. lia.
        + apply Hp3. lia.
        + assumption.
        + exists r. split; [assumption|]. split; [assumption|]. rewrite N3 in Hr by lia. exact Hr. }
    destruct Hrec as (r & Er & Lr & Hr). rewrite Er. cbn [bind].
    exists (t1 ++ t2 ++ r). split; [reflexivity|]. rewrite !concat_app, !app_length.
    assert (L12 : (length (concat t1) + length (concat t2) = Z.to_nat d)%nat).
    { rewrite L1, L2. change (Z.to_nat 1) with 1%nat. rewrite Nat.mul_1_r. rewrite <- Hdw. rewrite Z2Nat.inj_add, Z2Nat.inj_mul, !Nat2Z.id by lia. reflexivity. }
    split; [rewrite Lr; nia|]. intros o i Hbo Hi Hro.
    destruct (Z.eq_dec (order_pos l osh o) (order_pos l osh idx)) as [Eq|Ne].
    + assert (o = idx) by (eapply (order_pos_inj l osh Hl); eauto). subst o. rewrite Z.sub_diag, Z.mul_0_l, Z.add_0_l.
      destruct (Z.lt_ge_cases i (Z.of_nat simd_size * w)) as [Hlt|Hge].
      * destruct (H1 i ltac:(lia)) as (ln & Hnth & Hla). exists ln. split; [|assumption].
        rewrite nth_error_app1; [assumption|]. apply nth_error_Some. congruence.
      * destruct (H2 (i - Z.of_nat simd_size * w) ltac:(lia)) as (ln & Hnth & Hla). exists ln. split.
        -- rewrite nth_error_app2 by nia. rewrite nth_error_app1 by nia.
           replace (Z.to_nat i - length (concat t1))%nat with (Z.to_nat (i - Z.of_nat simd_size * w)); [assumption|].
           rewrite L1. rewrite Z2Nat.inj_sub, Z2Nat.inj_mul, Nat2Z.id by nia. reflexivity.
        -- replace i with (0 + Z.of_nat simd_size * w + (i - Z.of_nat simd_size * w)) by lia. assumption.
    + destruct (Hr o i Hbo Hi ltac:(lia)) as (ln & Hnth & Hla). exists ln. split; [|assumption].
      rewrite app_assoc, nth_error_app2 by (rewrite app_length; nia). rewrite app_length.
      replace (Z.to_nat ((order_pos l osh o - order_pos l osh idx) * d + i) - (length (concat t1) + length (concat t2)))%nat
        with (Z.to_nat ((order_pos l osh o - (order_pos l osh idx + 1)) * d + i)); [assumption|]. rewrite L12. nia.
Qed.
End Outer.
End Strided.
