(** Proofs about sorting: applying a function to every lane of the leading axis. *)
From Coq Require Import List ZArith Bool Lia.
From Verif Require Import Prelude PreludeFacts Strides_Model Strides_Spec Strides_Proofs Container_Model Container_Spec Container_Proofs
  Stepper_Spec Stepper_Proofs SView_Model SView_Spec Manip_Model Reduce_Spec Reduce5_Proofs Reduce9_Proofs Reduce13_Proofs
  Accum_Spec Accum2_Proofs Accum3_Proofs Sort_Model Sort_Spec.
Import ListNotations.
Open Scope Z_scope.

(** ** Blocks *)
Definition sub {A} (q n : nat) (d : list A) : list A := firstn n (skipn (q * n) d).

Lemma sub_nth {A} q n (d : list A) k : (k < n)%nat -> nth_error (sub q n d) k = nth_error d (q * n + k).
Proof. intros H. unfold sub. rewrite nth_error_firstn by exact H. apply nth_error_skipn. Qed.

Lemma sub_length {A} q n m (d : list A) : length d = (m * n)%nat -> (q < m)%nat -> length (sub q n d) = n.
Proof. intros H Hq. unfold sub. rewrite firstn_length, skipn_length. nia. Qed.

Lemma sub_incl {A} q n (d : list A) : incl (sub q n d) d.
Proof.
  intros x H. unfold sub in H. rewrite <- (firstn_skipn (q * n) d). apply in_or_app. right.
  rewrite <- (firstn_skipn n (skipn (q * n) d)). apply in_or_app. left. exact H.
Qed.

Lemma nth_ext_sub {A} q n m (d : list A) (l : list A) : length d = (m * n)%nat -> (q < m)%nat -> length l = n ->
  (forall k, (k < n)%nat -> nth_error d (q * n + k) = nth_error l k) -> sub q n d = l.
Proof.
  intros H Hq Hl Hk. apply nth_error_ext. intros k. destruct (Nat.lt_ge_cases k n).
  - rewrite sub_nth by assumption. apply Hk. assumption.
  - transitivity (@None A); [|symmetry]; apply nth_error_None; [rewrite (sub_length q n m) by assumption|]; lia.
Qed.

Lemma on_range_ok {A} (f : list A -> res (list A)) (d r : list A) (p n : nat) :
  (p + n <= length d)%nat -> f (firstn n (skipn p d)) = Ok r ->
  on_range f (Z.of_nat p) (Z.of_nat n) d = Ok (firstn p d ++ r ++ skipn (p + n) d).
Proof.
  intros H E. unfold on_range. rewrite !(proj2 (Z.leb_le _ _)) by lia. cbn [andb]. cbv zeta. rewrite !Nat2Z.id, E. reflexivity.
Qed.

Lemma replaced_nth {A} (d r : list A) p n k : (p + n <= length d)%nat -> length r = n ->
  nth_error (firstn p d ++ r ++ skipn (p + n) d) k =
  if (k <? p)%nat then nth_error d k else if (k <? p + n)%nat then nth_error r (k - p) else nth_error d k.
Proof.
  intros H Hr. destruct (Nat.ltb_spec k p).
  - rewrite nth_error_app1 by (rewrite firstn_length; lia). apply nth_error_firstn. assumption.
  - rewrite nth_error_app2 by (rewrite firstn_length; lia). rewrite firstn_length, Nat.min_l by lia.
    destruct (Nat.ltb_spec k (p + n)).
    + apply nth_error_app1. lia.
    + rewrite nth_error_app2 by lia. rewrite nth_error_skipn. f_equal. lia.
Qed.

(** ** The loop over the lanes *)
Section Loop.
Context {A : Type} (body : nat -> list A -> res (list A)) (n m : nat) (d0 : list A) (Q : nat -> list A -> Prop).
Hypothesis Hn : (0 < n)%nat.
Hypothesis Hd : length d0 = (m * n)%nat.
(** In iteration i the block i, which is still as in d0, becomes one that satisfies Q i. *)
Hypothesis Hbody : forall i d, (i < m)%nat -> length d = length d0 -> sub i n d = sub i n d0 ->
  exists r, Q i r /\ length r = n /\ body i d = Ok (firstn (i * n) d ++ r ++ skipn (i * n + n) d).

Lemma lanes_loop : exists d, for_up body 0 m d0 = Ok d /\ length d = length d0 /\
  forall q, (q < m)%nat -> Q q (sub q n d).
Proof.
  destruct (for_up_inv (fun i d => length d = length d0 /\
    (forall q, (q < i)%nat -> (q < m)%nat -> Q q (sub q n d)) /\
    (forall q, (i <= q)%nat -> (q < m)%nat -> sub q n d = sub q n d0)) body 0 m d0) as (d & E & I1 & I2 & I3).
  - repeat split; intros; lia.
  - intros i d Hi (I1 & I2 & I3). destruct (Hbody i d ltac:(lia) I1 ltac:(apply I3; lia)) as (r & Er & Hr & Eb).
    assert (Hb : (i * n + n <= length d)%nat) by (rewrite I1, Hd; nia).
    assert (Hlen : length (firstn (i * n) d ++ r ++ skipn (i * n + n) d) = (m * n)%nat).
    { rewrite !app_length, firstn_length, skipn_length. lia. }
    eexists. split; [exact Eb|]. split; [lia|].
    assert (Hother : forall q, q <> i -> (q < m)%nat -> sub q n (firstn (i * n) d ++ r ++ skipn (i * n + n) d) = sub q n d).
    { intros q Hq Hm. apply (nth_ext_sub q n m); try assumption; [apply (sub_length q n m); lia|]. intros k Hk.
      rewrite replaced_nth by lia. rewrite sub_nth by exact Hk.
      assert (q < i \/ i < q)%nat as [H|H] by lia.
      - rewrite (proj2 (Nat.ltb_lt _ _)) by nia. reflexivity.
      - rewrite (proj2 (Nat.ltb_ge _ _)) by nia. rewrite (proj2 (Nat.ltb_ge _ _)) by nia. reflexivity. }
    split.
    + intros q Hq Hm. destruct (Nat.eq_dec q i) as [ -> |Hne].
      * replace (sub i n _) with r; [exact Er|]. symmetry. apply (nth_ext_sub i n m); try assumption. intros k Hk. rewrite replaced_nth by lia.
        rewrite (proj2 (Nat.ltb_ge _ _)) by lia. rewrite (proj2 (Nat.ltb_lt _ _)) by lia. f_equal. lia.
      * rewrite Hother by assumption. apply I2; lia.
    + intros q Hq Hm. rewrite Hother by lia. apply I3; lia.
  - exists d. split; [exact E|]. split; [exact I1|]. intros q Hq. apply I2; lia.
Qed.
End Loop.

(** ** The leading axis of an order *)
Definition lead (l : layout) (dim : nat) : nat := match l with row_major => dim - 1 | _ => 0 end.
(** The entries other than that of the leading axis. *)
Definition others (l : layout) (s : list Z) : list Z :=
  match l with row_major => firstn (length s - 1) s | _ => skipn 1 s end.

Lemma last_split (s : list Z) : s <> [] -> s = firstn (length s - 1) s ++ [nth (length s - 1) s 0].
Proof.
  intros H. destruct (exists_last H) as (p & x & ->). rewrite app_length. cbn [length]. replace (length p + 1 - 1)%nat with (length p) by lia.
  rewrite firstn_app, Nat.sub_diag, firstn_all. cbn [firstn]. rewrite app_nil_r, app_nth2, Nat.sub_diag by lia. reflexivity.
Qed.

Lemma rank_lead l sh ix : is_order l -> sh <> [] -> in_bounds sh ix ->
  in_bounds (others l sh) (others l ix) /\
  rank l sh ix = rank l (others l sh) (others l ix) * nth (lead l (length sh)) sh 0 + nth (lead l (length sh)) ix 0 /\
  prod sh = prod (others l sh) * nth (lead l (length sh)) sh 0 /\
  0 <= nth (lead l (length sh)) ix 0 < nth (lead l (length sh)) sh 0.
Proof.
  intros Hl Hs Hb. pose proof (in_bounds_length _ _ Hb) as Hlen.
  destruct Hl as [ -> | -> ]; cbn [lead others rank].
  - rewrite Hlen. assert (Hi : ix <> []) by (intros ->; destruct sh; [congruence|discriminate]).
    pose proof (last_split sh Hs) as E1. pose proof (last_split ix Hi) as E2. rewrite Hlen in E2.
    set (n := nth (length sh - 1) sh 0) in *. set (k := nth (length sh - 1) ix 0) in *.
    set (p := firstn (length sh - 1) sh) in *. set (q := firstn (length sh - 1) ix) in *.
    assert (Hpq : length q = length p) by (unfold p, q; rewrite !firstn_length; lia).
    clearbody n k p q. subst sh ix. apply in_bounds_app_inv in Hb; [|lia]. destruct Hb as [B1 B2]. inversion B2; subst.
    rewrite row_pos_app by lia. rewrite prod_app. cbn [row_pos]. rewrite prod_cons. change (prod []) with 1. repeat split; try assumption; lia.
  - destruct Hb as [|k n ix sh Hk Hb]; [congruence|]. cbn [skipn nth col_pos]. rewrite prod_cons. split; [exact Hb|]. lia.
Qed.

Lemma others_upd l s k : is_order l -> s <> [] -> others l (upd s (lead l (length s)) k) = others l s.
Proof.
  intros [ -> | -> ] H; cbn [others lead].
  - rewrite upd_length. apply nth_error_ext. intros i. destruct (Nat.lt_ge_cases i (length s - 1)).
    + rewrite !nth_error_firstn by assumption. apply nth_error_upd_other. lia.
    + transitivity (@None Z); [|symmetry]; apply nth_error_None; rewrite firstn_length, ?upd_length; lia.
  - destruct s; [congruence|]. reflexivity.
Qed.
