(** Proofs about transpose with check_policy::full, swapaxes and moveaxis. *)
From Coq Require Import List ZArith Bool Lia Permutation.
From Verif Require Import Prelude PreludeFacts Strides_Model Strides_Spec Strides_Proofs Slice_Model
  Container_Spec SView_Model SView_Spec SView_Proofs Manip_Model Manip_Spec Manip_Proofs.
Import ListNotations.
Open Scope Z_scope.

(** ** exceptions *)
Lemma perm_of_Z n perm : Permutation perm (iota n) ->
  exists p, perm = map Z.of_nat p /\ is_perm n p.
Proof.
  intros H. exists (map Z.to_nat perm). split.
  - rewrite map_map. rewrite <- (map_id perm) at 1. apply map_ext_in. intros x Hx.
    apply (Permutation_in _ H) in Hx. unfold iota in Hx. apply in_map_iff in Hx. destruct Hx as (k & <- & _). lia.
  - apply is_perm_Permutation. apply (Permutation_map Z.to_nat) in H. unfold iota in H. rewrite map_to_of in H. exact H.
Qed.

Lemma is_perm_iota n p : is_perm n p -> Permutation (map Z.of_nat p) (iota n).
Proof. intros H. apply is_perm_Permutation in H. apply Permutation_map. exact H. Qed.

Lemma transpose_none_throws T e perm : wf_exp e -> x_direct e = true ->
  length perm <> length (x_shape e) \/ Exists (fun p => ~ 0 <= p < Z.of_nat (length (x_shape e))) perm ->
  transpose_none T e perm = Throw transpose_error.
Proof.
  intros He Hd H. rewrite transpose_none_eq by auto.
  destruct (Nat.eqb_spec (length perm) (length (x_shape e))) as [E|E]; cbn [negb]; [|reflexivity].
  destruct H as [H|H]; [contradiction|].
  assert (existsb (bad (length (x_shape e))) perm = true) as ->; [|reflexivity].
  apply existsb_exists. apply Exists_exists in H. destruct H as (x & Hx & Hb). exists x. split; auto.
  unfold bad. apply orb_true_iff. destruct (Z.ltb_spec x 0); auto. right. apply Z.leb_le. lia.
Qed.

Lemma for_up_check (f : nat -> res unit) (P : nat -> bool) e n : forall start,
  (forall i, (start <= i < start + n)%nat -> f i = if P i then Ok tt else Throw e) ->
  for_up (fun i _ => f i) start n tt = if forallb P (seq start n) then Ok tt else Throw e.
Proof.
  induction n; intros start H; cbn [for_up seq forallb]; auto.
  rewrite H by lia. destruct (P start); cbn [bind andb]; auto. apply IHn. intros i Hi. apply H. lia.
Qed.

Definition distinct_from (perm : list Z) (i : nat) : bool :=
  forallb (fun j => negb (nth i perm 0 =? nth j perm 0)) (seq (i + 1) (length perm - (i + 1))).

Lemma full_eq T e perm : transpose_full T e perm =
  if forallb (distinct_from perm) (seq 0 (length perm)) then transpose_none T e perm else Throw transpose_error.
Proof.
  unfold transpose_full.
  rewrite (for_up_check _ (distinct_from perm) transpose_error).
  - destruct (forallb (distinct_from perm) (seq 0 (length perm))); reflexivity.
  - intros i Hi. rewrite (for_up_check _ (fun j => negb (nth i perm 0 =? nth j perm 0)) transpose_error).
    + reflexivity.
    + intros j Hj. rewrite !(rd_nth 0) by lia. cbn [bind].
      destruct (nth i perm 0 =? nth j perm 0); reflexivity.
Qed.

Lemma distinct_NoDup perm : forallb (distinct_from perm) (seq 0 (length perm)) = true <-> NoDup perm.
Proof.
  rewrite (NoDup_nth perm 0), forallb_forall. split.
  - intros H i j Hi Hj E. destruct (Nat.lt_trichotomy i j) as [L|[L|L]]; auto; exfalso.
    + specialize (H i). unfold distinct_from in H. rewrite forallb_forall in H.
      assert (Hs : In i (seq 0 (length perm))) by (apply in_seq; lia).
      specialize (H Hs j ltac:(apply in_seq; lia)). rewrite E, Z.eqb_refl in H. discriminate.
    + specialize (H j). unfold distinct_from in H. rewrite forallb_forall in H.
      assert (Hs : In j (seq 0 (length perm))) by (apply in_seq; lia).
      specialize (H Hs i ltac:(apply in_seq; lia)). rewrite E, Z.eqb_refl in H. discriminate.
  - intros H i Hi. apply in_seq in Hi. unfold distinct_from. apply forallb_forall. intros j Hj. apply in_seq in Hj.
    apply negb_true_iff, Z.eqb_neq. intros E. apply H in E; lia.
Qed.

Lemma transpose_full_lemma : forall (T : layout) (e : xexp) (perm : list Z),
  T = row_major \/ T = column_major -> wf_exp e -> x_direct e = true ->
  (Permutation perm (iota (length (x_shape e))) ->
    exists v, transpose_full T e perm = Ok v /\
      rearranges e v (permute (map Z.to_nat perm) (x_shape e)) (permute (map Z.to_nat perm)) /\
      wf_exp (as_exp v) /\ (layout_true e -> view_layout_true v)) /\
  (~ Permutation perm (iota (length (x_shape e))) -> transpose_full T e perm = Throw transpose_error).
Proof.
  intros T e perm HT He Hd. split.
  - intros H. destruct (perm_of_Z _ _ H) as (p & -> & Hp). rewrite map_to_of.
    destruct (transpose_none_lemma T e p HT He Hd Hp) as (v & E & A & B & _ & C).
    exists v. split; [|auto]. rewrite full_eq.
    rewrite (proj2 (distinct_NoDup _)); auto.
    apply (Permutation_NoDup (Permutation_sym H)).
    unfold iota. apply FinFun.Injective_map_NoDup; [intros x y Hxy; lia|apply seq_NoDup].
  - intros H. rewrite full_eq. destruct (forallb (distinct_from perm) (seq 0 (length perm))) eqn:E; [|reflexivity].
    apply distinct_NoDup in E. apply transpose_none_throws; auto.
    destruct (Nat.eq_dec (length perm) (length (x_shape e))) as [Hl|Hl]; [|auto]. right.
    destruct (Exists_dec (fun p => ~ 0 <= p < Z.of_nat (length (x_shape e))) perm) as [Hx|Hx]; auto.
    { intros x. destruct (Z_le_dec 0 x); [|left; lia]. destruct (Z_lt_dec x (Z.of_nat (length (x_shape e)))); [right|left]; lia. }
    exfalso. apply H. apply NoDup_Permutation_bis; auto.
    + unfold iota. rewrite map_length, seq_length. lia.
    + intros x Hin. unfold iota. apply in_map_iff. exists (Z.to_nat x).
      assert (0 <= x < Z.of_nat (length (x_shape e))).
      { destruct (Z_le_dec 0 x); [destruct (Z_lt_dec x (Z.of_nat (length (x_shape e))))|]; [lia|exfalso|exfalso]; apply Hx;
          apply Exists_exists; exists x; split; auto; lia. }
      split; [lia|]. apply in_seq. lia.
Qed.

Lemma transpose_perm_lemma : forall (T : layout) (e : xexp) (perm : list Z),
  T = row_major \/ T = column_major -> wf_exp e -> x_direct e = true ->
  (Permutation perm (iota (length (x_shape e))) ->
    exists v, transpose_none T e perm = Ok v /\
      rearranges e v (permute (map Z.to_nat perm) (x_shape e)) (permute (map Z.to_nat perm)) /\
      wf_exp (as_exp v) /\ (layout_true e -> view_layout_true v)) /\
  (length perm <> length (x_shape e) \/ Exists (fun p => ~ 0 <= p < Z.of_nat (length (x_shape e))) perm ->
    transpose_none T e perm = Throw transpose_error).
Proof.
  intros T e perm HT He Hd. split.
  - intros H. destruct (perm_of_Z _ _ H) as (p & -> & Hp). rewrite map_to_of.
    destruct (transpose_none_lemma T e p HT He Hd Hp) as (v & E & A & B & _ & C). exists v. auto.
  - apply transpose_none_throws; auto.
Qed.

(** ** axes *)
Lemma check_axis_ok a n : - Z.of_nat n <= a < Z.of_nat n -> check_axis_in_dim a n = Ok tt.
Proof.
  intros H. unfold check_axis_in_dim. destruct (Z.leb_spec (Z.of_nat n) a); [lia|].
  destruct (Z.ltb_spec a (- Z.of_nat n)); [lia|]. reflexivity.
Qed.
Lemma check_axis_bad a n : ~ (- Z.of_nat n <= a < Z.of_nat n) -> check_axis_in_dim a n = Throw out_of_range.
Proof.
  intros H. unfold check_axis_in_dim. destruct (Z.leb_spec (Z.of_nat n) a); [reflexivity|].
  destruct (Z.ltb_spec a (- Z.of_nat n)); [reflexivity|]. lia.
Qed.
Lemma normalize_ok a n k : axis_of n a k -> normalize_axis n a = Z.of_nat k /\ (k < n)%nat.
Proof.
  intros (H1 & H2). unfold normalize_axis. destruct (Z.ltb_spec a 0).
  - assert (a mod Z.of_nat n = Z.of_nat n + a).
    { symmetry. apply Z.mod_unique with (q := -1); lia. }
    split; lia.
  - rewrite Z.mod_small in H2 by lia. split; lia.
Qed.
Lemma axis_of_range n a : - Z.of_nat n <= a < Z.of_nat n -> exists k, axis_of n a k.
Proof.
  intros H. exists (Z.to_nat (a mod Z.of_nat n)). split; auto. pose proof (Z.mod_pos_bound a (Z.of_nat n)). lia.
Qed.

Lemma nth_iota n k : (k < n)%nat -> nth k (iota n) 0 = Z.of_nat k.
Proof.
  intros H. unfold iota. change 0 with (Z.of_nat 0) at 1. rewrite map_nth. rewrite seq_nth by auto. reflexivity.
Qed.
Lemma iota_length n : length (iota n) = n.
Proof. unfold iota. rewrite map_length, seq_length. reflexivity. Qed.

Definition upd_nat (l : list nat) (i : nat) (v : nat) := upd l i v.
Lemma map_upd {A B} (f : A -> B) l i v : map f (upd l i v) = upd (map f l) i (f v).
Proof. revert i; induction l; intros [|i]; simpl; f_equal; auto. Qed.

Lemma nth_upd_cases {A} (d : A) l i j v : (i < length l)%nat ->
  nth j (upd l i v) d = if (i =? j)%nat then v else nth j l d.
Proof.
  intros H. destruct (Nat.eqb_spec i j) as [<-|E].
  - apply nth_upd_same. auto.
  - apply nth_upd_other. auto.
Qed.

Definition swap_perm (n a b : nat) : list nat := upd (upd (seq 0 n) a b) b a.
Lemma swap_perm_nth n a b i : (a < n)%nat -> (b < n)%nat -> (i < n)%nat ->
  nth i (swap_perm n a b) 0%nat = if (b =? i)%nat then a else if (a =? i)%nat then b else i.
Proof.
  intros Ha Hb Hi. unfold swap_perm. rewrite nth_upd_cases by (rewrite upd_length, seq_length; auto).
  destruct (b =? i)%nat; auto. rewrite nth_upd_cases by (rewrite seq_length; auto).
  destruct (a =? i)%nat; auto. rewrite seq_nth by auto. reflexivity.
Qed.
Lemma swap_perm_is_perm n a b : (a < n)%nat -> (b < n)%nat -> is_perm n (swap_perm n a b).
Proof.
  intros Ha Hb. assert (L : length (swap_perm n a b) = n) by (unfold swap_perm; rewrite !upd_length, seq_length; auto).
  split; [auto|]. split.
  - apply (NoDup_nth _ 0%nat). rewrite L. intros i j Hi Hj. rewrite !swap_perm_nth by auto.
    repeat match goal with |- context [Nat.eqb ?x ?y] => destruct (Nat.eqb_spec x y) end; lia.
  - apply Forall_forall. intros x Hx. apply (In_nth _ _ 0%nat) in Hx. destruct Hx as (i & Hi & <-). rewrite L in Hi.
    rewrite swap_perm_nth by auto.
    repeat match goal with |- context [Nat.eqb ?x ?y] => destruct (Nat.eqb_spec x y) end; lia.
Qed.
Lemma permute_swap n a b l : (a < n)%nat -> (b < n)%nat -> length l = n -> permute (swap_perm n a b) l = swap_at a b l.
Proof.
  intros Ha Hb Hl. assert (L : length (swap_perm n a b) = n) by (unfold swap_perm; rewrite !upd_length, seq_length; auto).
  apply list_eq_nth; [rewrite permute_length; unfold swap_at; rewrite !upd_length; lia|].
  intros i Hi. rewrite permute_length, L in Hi. rewrite permute_nth by lia. rewrite swap_perm_nth by auto.
  unfold swap_at. rewrite !nth_upd_cases by (rewrite ?upd_length; lia).
  repeat match goal with |- context [Nat.eqb ?x ?y] => destruct (Nat.eqb_spec x y) end; subst; auto.
Qed.

Lemma swapaxes_perm_ok n a1 a2 k1 k2 : axis_of n a1 k1 -> axis_of n a2 k2 ->
  swapaxes_perm n a1 a2 = Ok (map Z.of_nat (swap_perm n k1 k2)).
Proof.
  intros H1 H2. destruct (normalize_ok _ _ _ H1) as (N1 & L1). destruct (normalize_ok _ _ _ H2) as (N2 & L2).
  unfold swapaxes_perm. rewrite N1, N2.
  rewrite wrz_ok by (rewrite iota_length; lia). cbn [bind].
  rewrite wrz_ok by (rewrite upd_length, iota_length; lia). rewrite !Nat2Z.id.
  unfold swap_perm. rewrite !map_upd. reflexivity.
Qed.

Lemma rearranges_ext e v sh sh' f g : sh = sh' -> (forall jx, in_bounds (x_shape e) jx -> f jx = g jx) ->
  rearranges e v sh f -> rearranges e v sh' g.
Proof.
  intros <- H (A & B & C). split; [auto|]. split.
  - intros jx Hj. rewrite <- H by auto. auto.
  - intros ix Hi. destruct (C ix Hi) as (jx & J1 & J2). exists jx. split; auto. rewrite <- H; auto.
Qed.

Lemma swapaxes_lemma : forall (T : layout) (e : xexp) (a1 a2 : Z),
  T = row_major \/ T = column_major -> wf_exp e -> x_direct e = true ->
  let n := length (x_shape e) in
  (forall k1 k2, axis_of n a1 k1 -> axis_of n a2 k2 ->
    exists v, swapaxes T e a1 a2 = Ok v /\
      rearranges e v (swap_at k1 k2 (x_shape e)) (swap_at k1 k2) /\ (layout_true e -> view_layout_true v)) /\
  (~ (- Z.of_nat n <= a1 < Z.of_nat n) \/ ~ (- Z.of_nat n <= a2 < Z.of_nat n) ->
    swapaxes T e a1 a2 = Throw out_of_range).
Proof.
  intros T e a1 a2 HT He Hd n. split.
  - intros k1 k2 H1 H2. unfold swapaxes. fold n. rewrite !check_axis_ok by (apply H1 || apply H2). cbn [bind].
    rewrite (swapaxes_perm_ok _ _ _ _ _ H1 H2). cbn [bind].
    destruct (normalize_ok _ _ _ H1) as (_ & L1). destruct (normalize_ok _ _ _ H2) as (_ & L2).
    destruct (transpose_none_lemma T e _ HT He Hd (swap_perm_is_perm n k1 k2 L1 L2)) as (v & E & A & B & _ & C).
    exists v. split; [exact E|]. split; [|exact C]. eapply rearranges_ext; [| |exact A].
    + apply permute_swap; auto.
    + intros jx Hj. apply permute_swap; auto. apply in_bounds_length; auto.
  - intros H. unfold swapaxes. fold n.
    destruct (Z_le_dec (- Z.of_nat n) a1); [destruct (Z_lt_dec a1 (Z.of_nat n))|].
    + rewrite (check_axis_ok a1) by lia. cbn [bind]. rewrite check_axis_bad by lia. reflexivity.
    + rewrite check_axis_bad by lia. reflexivity.
    + rewrite check_axis_bad by lia. reflexivity.
Qed.

(** ** moveaxis *)
Definition rest_ (s c : nat) : nat := if (c <? s)%nat then c else S c.
Definition order (s d j : nat) : nat :=
  if (j <? d)%nat then rest_ s j else if (j =? d)%nat then s else rest_ s (j - 1).
Definition order_perm (n s d : nat) : list nat := map (order s d) (seq 0 n).

Ltac cases := repeat match goal with
  | |- context [Nat.eqb ?x ?y] => destruct (Nat.eqb_spec x y)
  | |- context [Nat.ltb ?x ?y] => destruct (Nat.ltb_spec x y)
  | H : context [Nat.eqb ?x ?y] |- _ => destruct (Nat.eqb_spec x y)
  | H : context [Nat.ltb ?x ?y] |- _ => destruct (Nat.ltb_spec x y)
  end.

Lemma order_nth n s d i : (i < n)%nat -> nth i (order_perm n s d) 0%nat = order s d i.
Proof.
  intros H. unfold order_perm. rewrite nth_indep with (d' := order s d 0) by (rewrite map_length, seq_length; auto).
  rewrite map_nth. rewrite seq_nth by auto. reflexivity.
Qed.
Lemma order_is_perm n s d : (s < n)%nat -> (d < n)%nat -> is_perm n (order_perm n s d).
Proof.
  intros Hs Hd. assert (L : length (order_perm n s d) = n) by (unfold order_perm; rewrite map_length, seq_length; auto).
  split; [auto|]. split.
  - apply (NoDup_nth _ 0%nat). rewrite L. intros i j Hi Hj. rewrite !order_nth by auto. unfold order, rest_. cases; lia.
  - apply Forall_forall. intros x Hx. apply (In_nth _ _ 0%nat) in Hx. destruct Hx as (i & Hi & <-). rewrite L in Hi.
    rewrite order_nth by auto. unfold order, rest_. cases; lia.
Qed.

Lemma nth_removed s (l : list Z) c : (s < length l)%nat ->
  nth c (firstn s l ++ skipn (S s) l) 0 = nth (rest_ s c) l 0.
Proof.
  intros H. unfold rest_. assert (HL : length (firstn s l) = s) by (rewrite firstn_length; lia). destruct (Nat.ltb_spec c s).
  - rewrite app_nth1 by lia. rewrite nth_firstn; auto.
  - rewrite app_nth2 by lia. rewrite HL, nth_skipn. f_equal. lia.
Qed.

Lemma permute_order n s d l : (s < n)%nat -> (d < n)%nat -> length l = n -> permute (order_perm n s d) l = move_at s d l.
Proof.
  intros Hs Hd Hl. assert (L : length (order_perm n s d) = n) by (unfold order_perm; rewrite map_length, seq_length; auto).
  set (r := firstn s l ++ skipn (S s) l).
  assert (Hr : length r = (n - 1)%nat) by (unfold r; rewrite app_length, firstn_length, skipn_length; lia).
  assert (Hfd : length (firstn d r) = d) by (rewrite firstn_length; lia).
  apply list_eq_nth.
  { rewrite permute_length. unfold move_at. fold r. rewrite app_length. cbn [length]. rewrite Hfd, skipn_length. lia. }
  intros i Hi. rewrite permute_length, L in Hi. rewrite permute_nth by lia. rewrite order_nth by auto.
  unfold move_at. fold r. unfold order. destruct (Nat.ltb_spec i d).
  - rewrite app_nth1 by lia. rewrite nth_firstn by auto. unfold r. rewrite nth_removed by lia. reflexivity.
  - rewrite app_nth2 by lia. rewrite Hfd. destruct (Nat.eqb_spec i d) as [->|Hne].
    + rewrite Nat.sub_diag. reflexivity.
    + destruct (i - d)%nat as [|m] eqn:Em; [lia|]. cbn [nth]. rewrite nth_skipn.
      unfold r. rewrite nth_removed by lia. f_equal. f_equal. lia.
Qed.

Lemma moveaxis_perm_ok n a1 a2 s d : axis_of n a1 s -> axis_of n a2 d ->
  moveaxis_perm n a1 a2 = Ok (map Z.of_nat (order_perm n s d)).
Proof.
  intros H1 H2. destruct (normalize_ok _ _ _ H1) as (N1 & L1). destruct (normalize_ok _ _ _ H2) as (N2 & L2).
  unfold moveaxis_perm. rewrite N1, N2.
  pose (cnt := fun i : nat => if (s <? i)%nat then (i - 1)%nat else i).
  pose (kk := fun i : nat => match i with O => O | S j => (cnt i + if (d <=? cnt j)%nat then 1 else 0)%nat end).
  destruct (for_up_inv (fun i (st : list Z * nat) => let '(P, k) := st in
      length P = n /\ k = kk i /\ (forall j, (j < k)%nat -> nth j P 0 = Z.of_nat (order s d j)) /\
      (forall j, (k <= j < n)%nat -> nth j P 0 = Z.of_nat s))
    (fun i '(perm, k) =>
      let* '(perm, k) :=
        if Z.of_nat k =? Z.of_nat d then (let* perm := wr perm k (Z.of_nat s) in Ok (perm, (k + 1)%nat))
        else Ok (perm, k) in
      if negb (Z.of_nat i =? Z.of_nat s) then (let* perm := wr perm k (Z.of_nat i) in Ok (perm, (k + 1)%nat))
      else Ok (perm, k)) 0%nat n (repeat (Z.of_nat s) n, 0%nat)) as ([P k] & E & I).
  - rewrite repeat_length. split; [auto|]. split; [reflexivity|]. split; [intros; lia|].
    intros j Hj. rewrite nth_indep with (d' := Z.of_nat s) by (rewrite repeat_length; lia). apply nth_repeat.
  - intros i [P k] Hi (I1 & I2 & I3 & I4).
    assert (Hk : (k <= n)%nat /\ (k = d -> (cnt i = d)%nat) /\ (k <> d -> (k < d /\ k = cnt i)%nat \/ (d < k /\ k = cnt i + 1)%nat)).
    { rewrite I2. unfold kk, cnt. destruct i; [cases; lia|].
      destruct (Nat.leb_spec d (if (s <? i)%nat then (i - 1)%nat else i)); cases; lia. }
    destruct Hk as (K1 & K2 & K3).
    destruct (Z.eqb_spec (Z.of_nat k) (Z.of_nat d)) as [Ed|Ed].
    + assert (k = d) as -> by lia. specialize (K2 eq_refl).
      rewrite wr_ok by lia. cbn [bind].
      destruct (Z.eqb_spec (Z.of_nat i) (Z.of_nat s)) as [Es|Es]; cbn [negb].
      * eexists. split; [reflexivity|]. cbv beta iota. rewrite upd_length. split; [auto|]. split.
        { unfold kk. fold (cnt (S i)). assert (i = s) as -> by lia. unfold cnt in *.
          rewrite K2, Nat.leb_refl. cases; lia. }
        split.
        { intros j Hj. rewrite nth_upd_cases by lia. unfold order. cases; subst; try lia; rewrite ?I3 by lia; unfold order; cases; lia. }
        { intros j Hj. rewrite nth_upd_cases by lia. cases; try lia; auto. apply I4. lia. }
      * assert (Hkn : (d + 1 < n)%nat). { unfold cnt in K2. cases; lia. }
        rewrite wr_ok by (rewrite upd_length; lia). cbn [bind].
        eexists. split; [reflexivity|]. cbv beta iota. rewrite !upd_length. split; [auto|]. split.
        { unfold kk. fold (cnt (S i)). rewrite K2, Nat.leb_refl. unfold cnt in *. cases; lia. }
        split.
        { intros j Hj. rewrite !nth_upd_cases by (rewrite ?upd_length; lia). unfold order, rest_. unfold cnt in K2.
          cases; subst; try lia; rewrite ?I3 by lia; unfold order, rest_; cases; lia. }
        { intros j Hj. rewrite !nth_upd_cases by (rewrite ?upd_length; lia). cases; try lia; auto; apply I4; lia. }
    + specialize (K3 ltac:(lia)). cbn [bind].
      destruct (Z.eqb_spec (Z.of_nat i) (Z.of_nat s)) as [Es|Es]; cbn [negb].
      * eexists. split; [reflexivity|]. cbv beta iota. split; [auto|]. split.
        { unfold kk. assert (i = s) as -> by lia. unfold cnt in *.
          destruct (Nat.leb_spec d (if (s <? s)%nat then (s - 1)%nat else s)); cases; lia. }
        split; auto.
      * assert (Hkn : (k < n)%nat). { unfold cnt in K3. cases; lia. }
        rewrite wr_ok by lia. cbn [bind].
        eexists. split; [reflexivity|]. cbv beta iota. rewrite upd_length. split; [auto|]. split.
        { unfold kk. fold (cnt (S i)).
          destruct (Nat.leb_spec d (cnt i)); unfold cnt in *; cases; lia. }
        split.
        { intros j Hj. rewrite nth_upd_cases by lia. unfold cnt in K3.
          destruct (Nat.eqb_spec k j) as [<-|Hne]; [|apply I3; lia].
          unfold order, rest_. cases; lia. }
        { intros j Hj. rewrite nth_upd_cases by lia. cases; try lia. apply I4. lia. }
  - rewrite E. cbn [bind]. destruct I as (I1 & I2 & I3 & I4). f_equal. cbn [Nat.add] in I2.
    apply list_eq_nth; [rewrite map_length; unfold order_perm; rewrite map_length, seq_length; auto|].
    intros j Hj. rewrite I1 in Hj. change 0 with (Z.of_nat 0) at 2. rewrite map_nth, order_nth by auto.
    destruct (Nat.lt_ge_cases j k) as [Hlt|Hge]; [apply I3; auto|].
    rewrite I4 by lia. f_equal. destruct n as [|m]; [lia|]. unfold kk in I2.
    destruct (Nat.leb_spec d (cnt m)); unfold cnt, order in *; cases; lia.
Qed.

Lemma moveaxis_lemma : forall (T : layout) (e : xexp) (a1 a2 : Z),
  T = row_major \/ T = column_major -> wf_exp e -> x_direct e = true ->
  let n := length (x_shape e) in
  (forall s d, axis_of n a1 s -> axis_of n a2 d ->
    exists v, moveaxis T e a1 a2 = Ok v /\
      rearranges e v (move_at s d (x_shape e)) (move_at s d) /\ (layout_true e -> view_layout_true v)) /\
  (~ (- Z.of_nat n <= a1 < Z.of_nat n) \/ ~ (- Z.of_nat n <= a2 < Z.of_nat n) ->
    moveaxis T e a1 a2 = Throw out_of_range).
Proof.
  intros T e a1 a2 HT He Hd n. split.
  - intros k1 k2 H1 H2. unfold moveaxis. fold n. rewrite !check_axis_ok by (apply H1 || apply H2). cbn [bind].
    rewrite (moveaxis_perm_ok _ _ _ _ _ H1 H2). cbn [bind].
    destruct (normalize_ok _ _ _ H1) as (_ & L1). destruct (normalize_ok _ _ _ H2) as (_ & L2).
    destruct (transpose_none_lemma T e _ HT He Hd (order_is_perm n k1 k2 L1 L2)) as (v & E & A & B & _ & C).
    exists v. split; [exact E|]. split; [|exact C]. eapply rearranges_ext; [| |exact A].
    + apply permute_order; auto.
    + intros jx Hj. apply permute_order; auto. apply in_bounds_length; auto.
  - intros H. unfold moveaxis. fold n.
    destruct (Z_le_dec (- Z.of_nat n) a1); [destruct (Z_lt_dec a1 (Z.of_nat n))|].
    + rewrite (check_axis_ok a1) by lia. cbn [bind]. rewrite check_axis_bad by lia. reflexivity.
    + rewrite check_axis_bad by lia. reflexivity.
    + rewrite check_axis_bad by lia. reflexivity.
Qed.
