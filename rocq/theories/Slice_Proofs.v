(** Proofs about slices. *)
From Coq Require Import List ZArith Lia Bool.
From Verif Require Import Prelude PreludeFacts Slice_Model Slice_Spec.
Import ListNotations.
Open Scope Z_scope.

(** * Ranges *)

Definition stepped_len (a b s : Z) : Z :=
  (Z.quot (b - a) s) + (if xorb (b - a <? 0) (0 <? s) && negb (Z.rem (b - a) s =? 0) then 1 else 0).

Lemma mk_stepped_ok : forall a b s, s <> 0 ->
  mk_stepped a b s = Ok (SStep a (stepped_len a b s) s).
Proof.
  intros a b s Hs. unfold mk_stepped, cdiv, crem, stepped_len.
  destruct (Z.eqb_spec s 0); [contradiction|]. reflexivity.
Qed.

Lemma stepped_len_good : forall a b s, s <> 0 -> ~ before s b a \/ Z.abs (b - a) < Z.abs s ->
  0 <= stepped_len a b s /\
  forall k, 0 <= k -> (k < stepped_len a b s <-> before s (a + k * s) b).
Proof.
  intros a b s Hs Hd.
  pose proof (Z.quot_rem' (b - a) s) as E.
  set (q := Z.quot (b - a) s) in *. set (r := Z.rem (b - a) s) in *.
  unfold stepped_len, before in *. fold q r.
  destruct (Z.ltb_spec 0 s) as [Hp|Hp].
  - (* positive step *)
    destruct (Z.ltb_spec (b - a) 0) as [Hn|Hn].
    + assert (q = 0 /\ r = b - a) as [Eq Er].
      { unfold q, r. destruct Hd as [Hd|Hd]; [lia|].
        split; [apply Z.quot_small_iff; lia | apply Z.rem_small_iff; lia]. }
      cbn [xorb andb]. rewrite Eq. split; [lia|]. intros k Hk. split; [lia|]. nia.
    + pose proof (Z.rem_bound_pos (b - a) s ltac:(lia) ltac:(lia)) as Hr. fold r in Hr.
      assert (0 <= q) by (unfold q; apply Z.quot_pos; lia).
      destruct (Z.eqb_spec r 0) as [Er|Er]; cbn [xorb negb andb].
      * split; [lia|]. intros k Hk. split; nia.
      * split; [lia|]. intros k Hk. split; nia.
  - assert (s < 0) by lia.
    destruct (Z.ltb_spec (b - a) 0) as [Hn|Hn].
    + pose proof (Z.rem_bound_neg_neg (b - a) s ltac:(lia) ltac:(lia)) as Hr. fold r in Hr.
      assert (0 <= q) by nia.
      destruct (Z.eqb_spec r 0) as [Er|Er]; cbn [xorb negb andb].
      * split; [lia|]. intros k Hk. split; nia.
      * split; [lia|]. intros k Hk. split; nia.
    + assert (q = 0) as Eq.
      { unfold q. destruct Hd as [Hd|Hd].
        - assert (b = a) by lia. subst. rewrite Z.sub_diag. apply Z.quot_0_l. lia.
        - apply Z.quot_small_iff; lia. }
      cbn [xorb andb]. rewrite Eq. split; [lia|]. intros k Hk. split; [lia|]. nia.
Qed.

Lemma stepped_len_bad : forall a b s, s <> 0 -> before s b a -> Z.abs s <= Z.abs (b - a) ->
  stepped_len a b s < 0.
Proof.
  intros a b s Hs Hd Ha.
  pose proof (Z.quot_rem' (b - a) s) as E.
  unfold stepped_len, before in *.
  destruct (Z.ltb_spec 0 s) as [Hp|Hp].
  - destruct (Z.ltb_spec (b - a) 0) as [Hn|Hn]; [|lia]. cbn [xorb andb].
    pose proof (Z.rem_bound_pos_neg (b - a) s ltac:(lia) ltac:(lia)). nia.
  - destruct (Z.ltb_spec (b - a) 0) as [Hn|Hn]; [lia|]. cbn [xorb andb].
    pose proof (Z.rem_bound_neg_pos (b - a) s ltac:(lia) ltac:(lia)). nia.
Qed.

(** The bounds computed by the adaptor are the Python ones. *)
Lemma range_get_bounds : forall a b st n, 0 <= n -> py_step st <> 0 ->
  let s := py_step st in
  match st with
  | Some _ => range_get a b st n =
      Ok (SStep (py_start n s a) (stepped_len (py_start n s a) (py_stop n s b) s) s)
  | None =>
      match a, b with
      | None, None => range_get a b st n = Ok (SAll n) /\ py_start n s a = 0 /\ py_stop n s b = n
      | _, _ => range_get a b st n = Ok (mk_range (py_start n s a) (py_stop n s b))
      end
  end.
Proof.
  intros a b st n Hn Hs. cbn zeta. destruct st as [s|]; cbn [py_step] in *.
  - assert (P : 0 < s -> forall v, Z.max 0 (Z.min n (if 0 <=? v then v else v + n)) = py_bound n s v).
    { intros Hp v. unfold py_bound. destruct (Z.ltb_spec 0 s); [|lia].
      destruct (Z.leb_spec 0 v), (Z.ltb_spec v 0); lia. }
    assert (Q : s <= 0 -> forall v, Z.max (-1) (Z.min (n - 1) (if 0 <=? v then v else v + n)) = py_bound n s v).
    { intros Hp v. unfold py_bound. destruct (Z.ltb_spec 0 s); [lia|].
      destruct (Z.leb_spec 0 v), (Z.ltb_spec v 0); lia. }
    assert (P0 : 0 < s -> py_bound n s 0 = 0 /\ py_bound n s n = n).
    { intro Hp. unfold py_bound. destruct (Z.ltb_spec 0 s); [|lia].
      destruct (Z.ltb_spec 0 0), (Z.ltb_spec n 0); lia. }
    assert (Q0 : s <= 0 -> py_bound n s (n - 1) = n - 1 /\ py_bound n s (- (n + 1)) = -1).
    { intro Hp. unfold py_bound. destruct (Z.ltb_spec 0 s); [lia|].
      destruct (Z.ltb_spec (n - 1) 0), (Z.ltb_spec (-(n+1)) 0); lia. }
    destruct a as [a|], b as [b|]; cbn [range_get]; unfold get_stepped_range, py_start, py_stop.
    4: { rewrite mk_stepped_ok by lia.
         destruct (Z.ltb_spec 0 s), (Z.leb_spec 0 s); try lia; reflexivity. }
    all: destruct (Z.ltb_spec 0 s) as [Hp|Hp]; rewrite mk_stepped_ok by lia;
      [rewrite !(P Hp); destruct (P0 Hp) as [P1 P2]; rewrite ?P1, ?P2
      |rewrite !(Q Hp); destruct (Q0 Hp) as [P1 P2]; rewrite ?P1, ?P2]; reflexivity.
  - assert (N : forall v, normalize v n = py_bound n 1 v).
    { intro v. unfold normalize, py_bound. change (0 <? 1) with true. cbn match.
      destruct (Z.leb_spec 0 v), (Z.ltb_spec v 0); lia. }
    destruct a as [a|], b as [b|]; cbn [range_get]; unfold py_start, py_stop; rewrite ?N;
      change (0 <? 1) with true; cbn match; auto.
Qed.

Definition range_ok (n : Z) (a b st : option Z) : Prop :=
  st = None \/
  let s := py_step st in
  ~ before s (py_stop n s b) (py_start n s a) \/
  Z.abs (py_stop n s b - py_start n s a) < Z.abs s.

Lemma mk_range_selects : forall a b st n, py_step st = 1 ->
  py_selects n a b (py_step st)
    (slice_size (mk_range (py_start n (py_step st) a) (py_stop n (py_step st) b)))
    (fun k => py_start n (py_step st) a + k).
Proof.
  intros a b st n E. rewrite E. unfold py_selects, mk_range, before. cbn [slice_size].
  change (0 <? 1) with true. cbn match.
  destruct (Z.ltb_spec (py_start n 1 a) (py_stop n 1 b)).
  - split; [lia|]. split; intros; lia.
  - split; [lia|]. split; intros; lia.
Qed.

Lemma range_python_lemma : forall (n : Z) (a b st : option Z),
  0 <= n -> py_step st <> 0 -> range_ok n a b st ->
  exists r f, range_get a b st n = Ok r /\
    (forall k, slice_at r k = Ok (f k)) /\
    py_selects n a b (py_step st) (slice_size r) f /\
    (forall k, 0 <= k < slice_size r -> 0 <= f k < n).
Proof.
  intros n a b st Hn Hs Hok.
  assert (Hb : forall len f, py_selects n a b (py_step st) len f ->
             forall k, 0 <= k < len -> 0 <= f k < n).
  { intros len f (H1 & H2 & H3) k Hk. rewrite H3 by lia.
    assert (Hkk : before (py_step st) (py_start n (py_step st) a + k * py_step st) (py_stop n (py_step st) b))
      by (apply H2; lia).
    assert (Hk0 : before (py_step st) (py_start n (py_step st) a + 0 * py_step st) (py_stop n (py_step st) b))
      by (apply H2; lia).
    revert Hk0 Hkk. unfold before, py_start, py_stop, py_bound.
    destruct (Z.ltb_spec 0 (py_step st)).
    - intros H0' Hk'.
      assert (Hst : 0 <= py_start n (py_step st) a).
      { unfold py_start, py_bound. destruct a; destruct (Z.ltb_spec 0 (py_step st)); lia. }
      assert (Hsp : py_stop n (py_step st) b <= n).
      { unfold py_stop, py_bound. destruct b; destruct (Z.ltb_spec 0 (py_step st)); lia. }
      revert Hst Hsp Hk'. unfold py_start, py_stop, py_bound.
      destruct (Z.ltb_spec 0 (py_step st)); [|lia]. intros. nia.
    - intros H0' Hk'.
      assert (Hst : py_start n (py_step st) a <= n - 1).
      { unfold py_start, py_bound. destruct a; destruct (Z.ltb_spec 0 (py_step st)); lia. }
      assert (Hsp : -1 <= py_stop n (py_step st) b).
      { unfold py_stop, py_bound. destruct b; destruct (Z.ltb_spec 0 (py_step st)); lia. }
      revert Hst Hsp Hk'. unfold py_start, py_stop, py_bound.
      destruct (Z.ltb_spec 0 (py_step st)); [lia|]. intros. nia. }
  pose proof (range_get_bounds a b st n Hn Hs) as E. cbn zeta in E.
  destruct st as [s|].
  - cbn [py_step] in *. destruct Hok as [Hok|Hok]; [discriminate|]. cbn [py_step] in Hok. cbn zeta in Hok.
    eexists. exists (fun k => py_start n s a + k * s). split; [exact E|]. split; [reflexivity|].
    assert (S : py_selects n a b s (stepped_len (py_start n s a) (py_stop n s b) s)
                  (fun k => py_start n s a + k * s)).
    { destruct (stepped_len_good (py_start n s a) (py_stop n s b) s Hs Hok) as [L1 L2].
      split; [exact L1|]. split; [exact L2|]. reflexivity. }
    split; [exact S|]. exact (Hb _ _ S).
  - destruct a as [a|], b as [b|].
    4: { destruct E as (E & E1 & E2). exists (SAll n), (fun k => k). split; [exact E|]. split; [reflexivity|].
         assert (S : py_selects n None None (py_step None) n (fun k => k)).
         { unfold py_selects. rewrite E1, E2. unfold before. cbn [py_step].
           change (0 <? 1) with true. cbn match. split; [lia|]. split; intros; lia. }
         split; [exact S|]. exact (Hb _ _ S). }
    all: eexists; eexists; split; [exact E|]; unfold mk_range at 1; cbn [slice_at];
         split; [reflexivity|];
         match goal with |- py_selects ?n ?a ?b _ _ _ /\ _ =>
           pose proof (mk_range_selects a b None n eq_refl) as S end;
         split; [exact S|]; exact (Hb _ _ S).
Qed.

Lemma range_backward_lemma : forall (n : Z) (a b st : option Z),
  0 <= n -> py_step st <> 0 -> ~ range_ok n a b st ->
  exists r, range_get a b st n = Ok r /\ slice_size r < 0.
Proof.
  intros n a b st Hn Hs Hok. unfold range_ok in Hok. cbn zeta in Hok.
  pose proof (range_get_bounds a b st n Hn Hs) as E. cbn zeta in E.
  destruct st as [s|]; [|exfalso; apply Hok; auto].
  eexists. split; [exact E|]. cbn [slice_size py_step] in *.
  apply stepped_len_bad; [exact Hs| |].
  - unfold before in *. destruct (Z.ltb_spec 0 s).
    + destruct (Z_lt_dec (py_stop n s b) (py_start n s a)); [assumption|exfalso; apply Hok; lia].
    + destruct (Z_lt_dec (py_start n s a) (py_stop n s b)); [assumption|exfalso; apply Hok; lia].
  - destruct (Z_lt_dec (Z.abs (py_stop n s b - py_start n s a)) (Z.abs s)); [exfalso; apply Hok; auto|lia].
Qed.

(** Consistency of the other members for ranges with a positive step. *)
Lemma range_members_lemma : forall (n : Z) (a b st : option Z) r,
  0 <= n <= 2 ^ 63 -> 0 < py_step st <= 2 ^ 63 ->
  range_ok n a b st -> range_get a b st n = Ok r ->
  (forall k m x y, 0 <= k -> 0 <= m -> slice_at r k = Ok x -> slice_at r (k + m) = Ok y ->
      slice_step r k m = Ok (y - x)) /\
  (forall x, 0 <= x < n -> exists c, slice_contains r x = Ok c /\
      (c = true <-> exists k, 0 <= k < slice_size r /\ slice_at r k = Ok x)) /\
  (forall k x, 0 <= k < slice_size r -> slice_at r k = Ok x -> slice_revert r x = Ok k).
Proof.
  intros n a b st r Hn Hs Hok Hr.
  destruct (range_python_lemma n a b st ltac:(lia) ltac:(lia) Hok) as (r' & f & E1 & E2 & E3 & E4).
  rewrite E1 in Hr. injection Hr as <-.
  pose proof (range_get_bounds a b st n ltac:(lia) ltac:(lia)) as E. cbn zeta in E.
  destruct st as [s|].
  - rewrite E in E1. injection E1 as <-. cbn [py_step slice_size slice_at slice_step slice_contains slice_revert] in *.
    set (p := py_start n s a) in *. set (L := stepped_len p (py_stop n s b) s) in *.
    destruct E3 as (L0 & L1 & L2).
    assert (Hf : forall k, f k = p + k * s) by (intro k; specialize (E2 k); injection E2; auto).
    assert (Hp : 0 <= p).
    { unfold p, py_start, py_bound. destruct a; destruct (Z.ltb_spec 0 s); lia. }
    split; [|split].
    + intros k m x y Hk Hm Hx Hy. injection Hx as <-. injection Hy as <-. f_equal. nia.
    + intros x Hx.
      destruct (Z.leb_spec p x); cbn [andb].
      2: { eexists; split; [reflexivity|]. split; [discriminate|]. intros (k & Hk & Ex). injection Ex as Ex. nia. }
      destruct (Z.ltb_spec x (p + L * s)).
      2: { eexists; split; [reflexivity|]. split; [discriminate|]. intros (k & Hk & Ex). injection Ex as Ex. nia. }
      unfold crem. destruct (Z.eqb_spec s 0); [lia|]. cbn [bind].
      eexists; split; [reflexivity|]. rewrite Z.rem_mod_nonneg by lia. split.
      * intros Hm%Z.eqb_eq. exists ((x - p) / s).
        pose proof (Z.div_mod (x - p) s ltac:(lia)) as D. rewrite Hm in D.
        split; [|f_equal; nia]. split; [apply Z.div_pos; lia|]. nia.
      * intros (k & Hk & Ex). injection Ex as Ex. apply Z.eqb_eq.
        replace (x - p) with (k * s) by lia. apply Z.mod_mul. lia.
    + intros k x Hk Ex. injection Ex as <-. specialize (E4 k Hk). rewrite Hf in E4.
      unfold two64. rewrite (Z.mod_small (p + k * s - p)) by (split; [nia|]; lia).
      rewrite (Z.mod_small s) by lia. unfold cdiv. destruct (Z.eqb_spec s 0); [lia|]. cbn [bind].
      replace (p + k * s - p) with (k * s) by lia. rewrite Z.quot_mul by lia.
      change (2 ^ 64 / 2) with (2 ^ 63). destruct (Z.ltb_spec k (2 ^ 63)); [reflexivity|nia].
  - assert (Cases : r' = SAll n \/ exists p q, r' = mk_range p q).
    { destruct a, b; try (right; rewrite E in E1; injection E1 as <-; eauto; fail).
      left. destruct E as (E & _ & _). rewrite E in E1. injection E1 as <-. reflexivity. }
    destruct Cases as [ -> | (p & q & ->) ]; unfold mk_range in *; cbn [slice_size slice_at slice_step slice_contains slice_revert].
    + split; [|split].
      * intros k m x y Hk Hm Hx Hy. injection Hx as <-. injection Hy as <-. f_equal. lia.
      * intros x Hx. eexists; split; [reflexivity|]. split; [intros; exists x; split; [lia|reflexivity]|].
        intros _. apply Z.ltb_lt; lia.
      * intros k x Hk Ex. injection Ex as <-. reflexivity.
    + set (L := if p <? q then q - p else 0) in *. split; [|split].
      * intros k m x y Hk Hm Hx Hy. injection Hx as <-. injection Hy as <-. f_equal. lia.
      * intros x Hx. eexists; split; [reflexivity|]. rewrite andb_true_iff, Z.leb_le, Z.ltb_lt. split.
        -- intros. exists (x - p). split; [lia|f_equal; lia].
        -- intros (k & Hk & Ex). injection Ex as <-. lia.
      * intros k x Hk Ex. injection Ex as <-. f_equal. lia.
Qed.

(** * Keep *)

Lemma norm_indices_from_end : forall raw n, norm_indices raw n = map (from_end n) raw.
Proof. intros. reflexivity. Qed.

Lemma find_pos_spec : forall l v,
  match find_pos l v with
  | Some p => nth_error l p = Some v /\ forall q, (q < p)%nat -> nth_error l q <> Some v
  | None => ~ In v l
  end.
Proof.
  induction l as [|x t IH]; intro v; cbn [find_pos].
  - intros [].
  - destruct (Z.eqb_spec x v) as [->|Hne].
    + split; [reflexivity|]. intros q Hq. lia.
    + specialize (IH v). destruct (find_pos t v) as [p|]; cbn [option_map].
      * destruct IH as [I1 I2]. split; [exact I1|]. intros [|q] Hq; cbn; [congruence|]. apply I2. lia.
      * intros [->|H]; [congruence|auto].
Qed.

Lemma keep_lemma : forall (n : Z) (raw : list Z),
  Forall (fun v => - n <= v < n) raw ->
  exists r, resolve (UKeep raw) n = Ok r /\
    slice_size r = Z.of_nat (length raw) /\
    (forall k v, nth_error raw k = Some v ->
        slice_at r (Z.of_nat k) = Ok (from_end n v) /\ 0 <= from_end n v < n) /\
    (forall i j vi vj, nth_error raw i = Some vi -> nth_error raw (i + j) = Some vj ->
        slice_step r (Z.of_nat i) (Z.of_nat j) = Ok (from_end n vj - from_end n vi)) /\
    (forall x, exists c, slice_contains r x = Ok c /\ (c = true <-> In x (map (from_end n) raw))) /\
    (forall x, In x (map (from_end n) raw) ->
        exists p, slice_revert r x = Ok (Z.of_nat p) /\ nth_error (map (from_end n) raw) p = Some x /\
                  forall q, (q < p)%nat -> nth_error (map (from_end n) raw) q <> Some x) /\
    (forall x, ~ In x (map (from_end n) raw) -> slice_revert r x = Throw runtime_error).
Proof.
  intros n raw H. eexists. split; [reflexivity|]. rewrite norm_indices_from_end.
  set (l := map (from_end n) raw).
  assert (Hl : length l = length raw) by apply map_length.
  assert (Hnth : forall k v, nth_error raw k = Some v -> nth_error l k = Some (from_end n v))
    by (intros; unfold l; apply nth_error_map_some; assumption).
  cbn [slice_size slice_at slice_step slice_contains slice_revert].
  split; [lia|]. split; [|split; [|split; [|split]]].
  - intros k v Hk. split.
    + assert (Hlt : (k < length l)%nat) by (apply nth_error_Some; rewrite (Hnth _ _ Hk); discriminate).
      destruct (Nat.eqb_spec (length l) 1).
      * assert (k = 0)%nat by lia. subst k. unfold rd. rewrite (Hnth _ _ Hk). reflexivity.
      * unfold rdz. destruct (Z.ltb_spec (Z.of_nat k) 0); [lia|]. rewrite Nat2Z.id. unfold rd.
        rewrite (Hnth _ _ Hk). reflexivity.
    + rewrite Forall_forall in H. apply nth_error_In in Hk. specialize (H _ Hk).
      unfold from_end. destruct (Z.ltb_spec v 0); lia.
  - intros i j vi vj Hi Hj.
    assert (Hlt : (i + j < length l)%nat) by (apply nth_error_Some; rewrite (Hnth _ _ Hj); discriminate).
    destruct (Z.eqb_spec (Z.of_nat (length l)) 1).
    + assert (i = 0 /\ j = 0)%nat as [-> ->] by lia. change (0 + 0)%nat with 0%nat in Hj. rewrite Hi in Hj. injection Hj as ->.
      f_equal. lia.
    + destruct (Z.leb_spec (Z.of_nat (length l)) (Z.of_nat i + Z.of_nat j)); [lia|].
      unfold rdz. destruct (Z.ltb_spec (Z.of_nat i + Z.of_nat j) 0); [lia|].
      destruct (Z.ltb_spec (Z.of_nat i) 0); [lia|].
      rewrite <- Nat2Z.inj_add, !Nat2Z.id. unfold rd. rewrite (Hnth _ _ Hi), (Hnth _ _ Hj). reflexivity.
  - intro x. eexists. split; [reflexivity|]. rewrite existsb_exists. split.
    + intros (y & Hy & E%Z.eqb_eq). subst. exact Hy.
    + intros Hx. exists x. split; [exact Hx|apply Z.eqb_refl].
  - intros x Hx. pose proof (find_pos_spec l x) as F. destruct (find_pos l x) as [p|].
    + exists p. split; [reflexivity|]. exact F.
    + contradiction.
  - intros x Hx. pose proof (find_pos_spec l x) as F. destruct (find_pos l x) as [p|]; [|reflexivity].
    exfalso. apply Hx. destruct F as [F _]. eapply nth_error_In. exact F.
Qed.

(** * Drop *)

Definition countb (l : list Z) (x : Z) : Z := Z.of_nat (length (filter (fun d => d <? x) l)).

Lemma countb_app : forall a b x, countb (a ++ b) x = countb a x + countb b x.
Proof. intros. unfold countb. rewrite filter_app, app_length. lia. Qed.

Lemma countb_all : forall l x, Forall (fun d => d < x) l -> countb l x = Z.of_nat (length l).
Proof.
  intros l x H. unfold countb. induction H as [|d t Hd Ht IH]; [reflexivity|].
  cbn [filter]. destruct (Z.ltb_spec d x); [|lia]. cbn [length]. lia.
Qed.

Lemma countb_none : forall l x, Forall (fun d => x <= d) l -> countb l x = 0.
Proof.
  intros l x H. unfold countb. induction H as [|d t Hd Ht IH]; [reflexivity|].
  cbn [filter]. destruct (Z.ltb_spec d x); [lia|]. exact IH.
Qed.

(** The survivors below x number x minus the dropped ones below x. *)
Lemma increasing_tail : forall x l, increasing (x :: l) -> increasing l.
Proof. intros x [|y l]; cbn; tauto. Qed.

Lemma increasing_head : forall x l, increasing (x :: l) -> Forall (fun y => x < y) l.
Proof.
  intros x l. revert x. induction l as [|y l IH]; intros x H; [constructor|].
  destruct H as [H1 H2]. constructor; [exact H1|].
  eapply Forall_impl; [|apply IH; exact H2]. cbn; intros; lia.
Qed.

Lemma filter_seq_snoc : forall n (f : Z -> bool),
  filter f (map Z.of_nat (seq 0 (S n))) =
  filter f (map Z.of_nat (seq 0 n)) ++ (if f (Z.of_nat n) then [Z.of_nat n] else []).
Proof.
  intros n f. rewrite seq_S, map_app, filter_app. cbn [map filter Nat.add]. destruct (f (Z.of_nat n)); reflexivity.
Qed.

Lemma existsb_In : forall x l, existsb (Z.eqb x) l = true <-> In x l.
Proof.
  intros. rewrite existsb_exists. split.
  - intros (y & Hy & E%Z.eqb_eq). subst. exact Hy.
  - intros H. exists x. split; [exact H|apply Z.eqb_refl].
Qed.

Lemma countb_succ : forall l x, NoDup l ->
  countb l (x + 1) = countb l x + (if existsb (Z.eqb x) l then 1 else 0).
Proof.
  intros l x. induction l as [|d l IH]; intros H; [reflexivity|].
  inversion H as [|? ? Hni Hnd]; subst. specialize (IH Hnd). unfold countb in *.
  cbn [filter existsb].
  destruct (Z.ltb_spec d (x + 1)), (Z.ltb_spec d x), (Z.eqb_spec x d); try lia; cbn [orb length].
  - lia.
  - subst d. assert (existsb (Z.eqb x) l = false) as Ex.
    { destruct (existsb (Z.eqb x) l) eqn:Ex; [|reflexivity]. apply existsb_In in Ex. contradiction. }
    rewrite Ex in IH. lia.
  - lia.
Qed.

Lemma increasing_NoDup : forall l, increasing l -> NoDup l.
Proof.
  induction l as [|x l IH]; intros H; [constructor|]. constructor.
  - intros Hin. pose proof (increasing_head _ _ H) as F. rewrite Forall_forall in F.
    specialize (F _ Hin). lia.
  - apply IH. eapply increasing_tail; exact H.
Qed.

Lemma survivors_length : forall (n : nat) ds, NoDup ds -> Forall (fun d => 0 <= d) ds ->
  Z.of_nat (length (survivors (Z.of_nat n) ds)) = Z.of_nat n - countb ds (Z.of_nat n).
Proof.
  intros n ds Hnd Hp. unfold survivors. rewrite Nat2Z.id.
  induction n as [|n IH].
  - cbn [seq map filter length]. rewrite countb_none; [lia|]. exact Hp.
  - rewrite filter_seq_snoc, app_length, Nat2Z.inj_succ, <- Z.add_1_r, countb_succ by assumption.
    destruct (existsb (Z.eqb (Z.of_nat n)) ds); cbn [negb length]; lia.
Qed.

Lemma survivors_split : forall (x n : nat) ds, (x <= n)%nat ->
  survivors (Z.of_nat n) ds = survivors (Z.of_nat x) ds ++
    filter (fun y => negb (existsb (Z.eqb y) ds)) (map Z.of_nat (seq x (n - x))).
Proof.
  intros x n ds H. unfold survivors. rewrite !Nat2Z.id.
  replace n with (x + (n - x))%nat at 1 by lia. rewrite seq_app, map_app, filter_app. reflexivity.
Qed.

(** A position x not dropped, with x - i dropped positions below it, is the
    i-th survivor. *)
Lemma survivor_nth : forall n ds x i,
  NoDup ds -> Forall (fun d => 0 <= d) ds ->
  0 <= x < n -> ~ In x ds -> 0 <= i -> countb ds x = x - i ->
  nth_error (survivors n ds) (Z.to_nat i) = Some x.
Proof.
  intros n ds x i Hnd Hp Hx Hni Hi Hc.
  rewrite <- (Z2Nat.id n) by lia. rewrite (survivors_split (Z.to_nat x)) by lia.
  assert (L : length (survivors (Z.of_nat (Z.to_nat x)) ds) = Z.to_nat i).
  { pose proof (survivors_length (Z.to_nat x) ds Hnd Hp) as L. rewrite Z2Nat.id in * by lia. lia. }
  rewrite nth_error_app2 by lia. rewrite L, Nat.sub_diag.
  replace (Z.to_nat n - Z.to_nat x)%nat with (S (Z.to_nat n - Z.to_nat x - 1)) by lia.
  cbn [seq map filter]. rewrite Z2Nat.id by lia.
  destruct (existsb (Z.eqb x) ds) eqn:Ex; [apply existsb_In in Ex; contradiction|]. reflexivity.
Qed.

(** lookup in the increment map *)
Definition inc_of (m : list (Z * Z)) (i : Z) : Z :=
  match last_le m i None with None => 0 | Some (_, v) => v end.

Lemma last_le_app : forall m k v i acc, Forall (fun kv => fst kv < k) m ->
  last_le (m ++ [(k, v)]) i acc =
  if k <=? i then Some (k, v) else last_le m i acc.
Proof.
  induction m as [|[k' v'] m IH]; intros k v i acc H.
  - reflexivity.
  - inversion H; subst. cbn [fst] in *. cbn [app last_le]. destruct (Z.leb_spec k' i).
    + apply IH. assumption.
    + destruct (Z.leb_spec k i); [lia|reflexivity].
Qed.

Lemma map_set_snoc : forall m k v, Forall (fun kv => fst kv < k) m -> map_set m k v = m ++ [(k, v)].
Proof.
  induction m as [|[k' v'] m IH]; intros k v H; [reflexivity|].
  inversion H; subst. cbn [fst] in *. cbn [map_set app].
  destruct (Z.eqb_spec k k'); [lia|]. destruct (Z.ltb_spec k k'); [lia|]. f_equal. auto.
Qed.

Lemma run_split : forall rest d, increasing (d :: rest) ->
  let r := run_len d rest in
  (r <= length rest)%nat /\
  (forall j, (j < r)%nat -> nth_error rest j = Some (d + 1 + Z.of_nat j)) /\
  Forall (fun y => d + Z.of_nat r + 1 < y) (skipn r rest) /\ increasing (skipn r rest).
Proof.
  induction rest as [|x rest IH]; intros d H; cbn zeta; cbn [run_len].
  - split; [lia|]. split; [intros; lia|]. split; [constructor|constructor].
  - destruct H as [H1 H2]. destruct (Z.eqb_spec x (d + 1)) as [->|Hne].
    + destruct (IH (d + 1) H2) as (I1 & I2 & I3 & I4).
      cbn [length skipn]. split; [lia|]. split; [|split].
      * intros [|j] Hj; cbn; [f_equal; lia|]. rewrite I2 by lia. f_equal. lia.
      * eapply Forall_impl; [|exact I3]. cbn; intros; lia.
      * exact I4.
    + cbn [length skipn]. split; [lia|]. split; [intros; lia|]. split; [|exact H2].
      constructor; [lia|]. eapply Forall_impl; [|apply increasing_head; exact H2]. cbn; intros; lia.
Qed.

(** Invariant of the loop: after the indices [done] have been processed. *)
Definition drop_inv (done : list Z) (m : list (Z * Z)) : Prop :=
  forall i, 0 <= i ->
    0 <= inc_of m i <= Z.of_nat (length done) /\
    ~ In (i + inc_of m i) done /\ countb done (i + inc_of m i) = inc_of m i.

Lemma drop_loop_inv : forall fuel rest done m,
  (length rest <= fuel)%nat ->
  increasing rest ->
  Forall (fun d => 0 <= d) rest ->
  Forall (fun y => Forall (fun d => d + 1 < y) done) rest ->
  Forall (fun y => Forall (fun kv => fst kv < y - Z.of_nat (length done)) m) rest ->
  (forall i, 0 <= i -> Forall (fun kv => fst kv <= i) m -> inc_of m i = Z.of_nat (length done)) ->
  drop_inv done m ->
  drop_inv (done ++ rest) (drop_loop fuel rest (Z.of_nat (length done)) m).
Proof.
  induction fuel as [|fuel IH]; intros rest done m Hf Hinc Hpos Hgap Hkeys Hlast Hinv.
  - destruct rest; [|cbn in Hf; lia]. cbn [drop_loop]. rewrite app_nil_r. exact Hinv.
  - destruct rest as [|d rest]; [cbn [drop_loop]; rewrite app_nil_r; exact Hinv|].
    cbn [drop_loop]. destruct (run_split rest d Hinc) as (R1 & R2 & R3 & R4).
    set (r := run_len d rest) in *.
    set (p := Z.of_nat (length done)) in *.
    inversion Hgap as [|? ? Hg Hgap']; subst. inversion Hkeys as [|? ? Hk Hkeys']; subst.
    inversion Hpos as [|? ? Hd0 Hpos']; subst.
    rewrite map_set_snoc by exact Hk.
    set (run := d :: firstn r rest).
    assert (Lrun : length run = S r) by (unfold run; cbn [length]; rewrite firstn_length; lia).
    assert (Hrun : Forall (fun y => d <= y <= d + Z.of_nat r) run).
    { constructor; [lia|]. apply Forall_forall. intros y Hy. apply In_nth_error in Hy as [j Hj].
      assert ((j < r)%nat) by (apply nth_error_Some_lt in Hj; rewrite firstn_length in Hj; lia).
      rewrite nth_error_firstn in Hj by assumption.
      rewrite R2 in Hj by assumption. injection Hj as <-. lia. }
    assert (Hdr : Forall (fun y => y + 1 < d) done).
    { eapply Forall_impl; [|exact Hg]. cbn; intros; lia. }
    assert (Hinc' : forall i, 0 <= i -> inc_of (m ++ [(d - p, p + (Z.of_nat r + 1))]) i =
                       if d - p <=? i then p + (Z.of_nat r + 1) else inc_of m i).
    { intros i Hi. unfold inc_of. rewrite last_le_app by exact Hk. destruct (d - p <=? i); reflexivity. }
    assert (Hdone' : Z.of_nat (length (done ++ run)) = p + (Z.of_nat r + 1)).
    { rewrite app_length, Lrun. unfold p. lia. }
    rewrite <- Hdone'.
    replace (done ++ d :: rest) with ((done ++ run) ++ skipn r rest).
    2: { rewrite <- app_assoc. f_equal. unfold run. cbn [app]. f_equal. apply firstn_skipn. }
    apply IH.
    + cbn [length] in Hf. rewrite skipn_length. lia.
    + exact R4.
    + apply Forall_skipn'. exact Hpos'.
    + apply Forall_forall. intros y Hy.
      pose proof (proj1 (Forall_forall _ _) R3 y Hy) as Hy1. cbn beta in Hy1.
      apply Forall_app. split.
      * eapply Forall_impl; [|exact Hdr]. cbn; intros; lia.
      * eapply Forall_impl; [|exact Hrun]. cbn; intros; lia.
    + apply Forall_forall. intros y Hy.
      pose proof (proj1 (Forall_forall _ _) R3 y Hy) as Hy1. cbn beta in Hy1.
      rewrite Hdone'. apply Forall_app. split.
      * eapply Forall_impl; [|exact Hk]. cbn beta. fold p. intros; lia.
      * constructor; [cbn [fst]; lia|constructor].
    + intros i Hi Hall. rewrite Hdone', Hinc' by assumption.
      apply Forall_app in Hall as [_ Hall]. inversion Hall; subst. cbn [fst] in *.
      destruct (Z.leb_spec (d - p) i); [reflexivity|lia].
    + intros i Hi. rewrite Hdone', Hinc' by assumption.
      destruct (Z.leb_spec (d - p) i) as [Hge|Hlt].
      * split; [lia|]. split.
        -- rewrite in_app_iff. intros [Hin|Hin].
           ++ pose proof (proj1 (Forall_forall _ _) Hdr _ Hin). cbn beta in *. lia.
           ++ pose proof (proj1 (Forall_forall _ _) Hrun _ Hin). cbn beta in *. lia.
        -- rewrite countb_app, !countb_all.
           ++ rewrite Lrun. unfold p. lia.
           ++ eapply Forall_impl; [|exact Hrun]. cbn; intros; lia.
           ++ eapply Forall_impl; [|exact Hdr]. cbn; intros; lia.
      * destruct (Hinv i Hi) as (I1 & I2 & I3). fold p in I1. split; [lia|]. split.
        -- rewrite in_app_iff. intros [Hin|Hin]; [contradiction|].
           pose proof (proj1 (Forall_forall _ _) Hrun _ Hin). cbn beta in *. lia.
        -- rewrite countb_app, I3, countb_none; [lia|].
           eapply Forall_impl; [|exact Hrun]. cbn; intros; lia.
Qed.

Lemma drop_at_inc : forall m i, drop_at m i = i + inc_of m i.
Proof. intros. unfold drop_at, inc_of. destruct (last_le m i None) as [[? ?]|]; lia. Qed.

Lemma in_survivors : forall n ds x, In x (survivors n ds) <-> 0 <= x < n /\ ~ In x ds.
Proof.
  intros. unfold survivors. rewrite filter_In, in_map_iff. split.
  - intros ((k & <- & Hk) & Hn). apply in_seq in Hk. split; [lia|].
    intro Hin. apply existsb_In in Hin. rewrite Hin in Hn. discriminate.
  - intros (Hx & Hni). split.
    + exists (Z.to_nat x). split; [lia|]. apply in_seq. lia.
    + destruct (existsb (Z.eqb x) ds) eqn:E; [apply existsb_In in E; contradiction|reflexivity].
Qed.

Lemma drop_lemma : forall (n : Z) (raw : list Z),
  let ds := map (from_end n) raw in
  0 <= n -> increasing ds -> Forall (fun d => 0 <= d < n) ds ->
  exists r, resolve (UDrop raw) n = Ok r /\
    slice_size r = Z.of_nat (length (survivors n ds)) /\
    (forall k x, nth_error (survivors n ds) k = Some x -> slice_at r (Z.of_nat k) = Ok x) /\
    (forall i j x y, nth_error (survivors n ds) i = Some x -> nth_error (survivors n ds) (i + j) = Some y ->
        slice_step r (Z.of_nat i) (Z.of_nat j) = Ok (y - x)) /\
    (forall x, 0 <= x < n -> exists c, slice_contains r x = Ok c /\ (c = true <-> In x (survivors n ds))).
Proof.
  intros n raw ds Hn Hinc Hb. eexists. split; [reflexivity|].
  unfold drop_normalize. rewrite norm_indices_from_end. fold ds.
  set (m := drop_loop (length ds) ds 0 []).
  assert (Hp : Forall (fun d => 0 <= d) ds) by (eapply Forall_impl; [|exact Hb]; cbn; intros; lia).
  pose proof (increasing_NoDup _ Hinc) as Hnd.
  assert (Hlen : Z.of_nat (length (survivors n ds)) = n - Z.of_nat (length raw)).
  { rewrite <- (Z2Nat.id n) at 1 by lia. rewrite survivors_length by assumption.
    rewrite Z2Nat.id by lia. rewrite countb_all.
    - unfold ds. rewrite map_length. reflexivity.
    - eapply Forall_impl; [|exact Hb]. cbn; intros; lia. }
  assert (Hinv : drop_inv ds m).
  { pose proof (drop_loop_inv (length ds) ds [] [] (le_n _) Hinc Hp) as D.
    cbn [length app Z.of_nat] in D. apply D.
    - apply Forall_forall. constructor.
    - apply Forall_forall. constructor.
    - intros; reflexivity.
    - intros i Hi. cbn. split; [lia|]. split; [tauto|reflexivity]. }
  assert (Hat : forall k x, nth_error (survivors n ds) k = Some x -> drop_at m (Z.of_nat k) = x).
  { intros k x Hk. rewrite drop_at_inc.
    set (y := Z.of_nat k + inc_of m (Z.of_nat k)).
    destruct (Hinv (Z.of_nat k) ltac:(lia)) as (I1 & I2 & I3). fold y in I2, I3.
    assert (Hkl : (k < length (survivors n ds))%nat) by (apply nth_error_Some; rewrite Hk; discriminate).
    assert (Hy : y < n).
    { unfold ds in I1. rewrite map_length in I1. lia. }
    pose proof (survivor_nth n ds y (Z.of_nat k) Hnd Hp ltac:(lia) I2 ltac:(lia) ltac:(lia)) as S.
    rewrite Nat2Z.id in S. rewrite Hk in S. injection S as <-. reflexivity. }
  cbn [slice_size slice_at slice_step slice_contains].
  split; [lia|]. split; [|split].
  - intros k x Hk. f_equal. apply Hat; assumption.
  - intros i j x y Hi Hj.
    assert (Hkl : (i + j < length (survivors n ds))%nat) by (apply nth_error_Some; rewrite Hj; discriminate).
    destruct (Z.leb_spec (n - Z.of_nat (length raw)) (Z.of_nat i + Z.of_nat j)); [lia|].
    rewrite <- Nat2Z.inj_add, (Hat _ _ Hi), (Hat _ _ Hj). reflexivity.
  - intros x Hx. eexists. split; [reflexivity|]. rewrite in_survivors.
    rewrite negb_true_iff. split.
    + intros H. split; [lia|]. intro Hin. apply existsb_In in Hin. congruence.
    + intros [_ H]. destruct (existsb (Z.eqb x) ds) eqn:E; [apply existsb_In in E; contradiction|reflexivity].
Qed.

(** * Refutations *)

Lemma range_wrong_direction_lemma :
  exists n a b s r, 0 < n /\ s <> 0 /\ range_get (Some a) (Some b) (Some s) n = Ok r /\ slice_size r = -3.
Proof. exists 10, 5, 2, 1. eexists. repeat split; try lia. Qed.

Lemma range_negative_members_lemma :
  exists r, range_get None None (Some (-2)) 5 = Ok r /\
    slice_at r 2 = Ok 0 /\ slice_size r = 3 /\
    slice_contains r 0 = Ok false /\ slice_revert r 0 = Ok 0.
Proof. eexists. split; [reflexivity|]. vm_compute. auto. Qed.

Lemma range_step0_lemma : forall a b n, range_get a b (Some 0) n = UB.
Proof. intros [a|] [b|] n; reflexivity. Qed.

Lemma newaxis_neq_lemma : slice_eq SNewaxis SNewaxis = true /\ slice_neq SNewaxis SNewaxis = true.
Proof. split; reflexivity. Qed.

Lemma drop_unsorted_lemma :
  exists n raw r, Forall (fun d => 0 <= d < n) raw /\ NoDup raw /\ resolve (UDrop raw) n = Ok r /\
    nth_error (survivors n raw) 0 = Some 0 /\ slice_at r 0 = Ok 2.
Proof.
  exists 5, [3;1]. eexists. split; [repeat constructor; lia|]. split.
  - constructor; [cbn; intros [H|[]]; discriminate|]. constructor; [intros []|constructor].
  - split; [reflexivity|]. vm_compute. auto.
Qed.

Lemma drop_duplicate_lemma :
  exists n raw r, Forall (fun d => 0 <= d < n) raw /\ resolve (UDrop raw) n = Ok r /\
    length (survivors n raw) = 4%nat /\ slice_size r = 3.
Proof. exists 5, [1;1]. eexists. split; [repeat constructor; lia|]. vm_compute. auto. Qed.

Lemma drop_revert_lemma :
  exists n raw r, increasing raw /\ Forall (fun d => 0 <= d < n) raw /\ resolve (UDrop raw) n = Ok r /\
    slice_at r 3 = Ok 6 /\ slice_revert r 6 = Ok 2.
Proof.
  exists 10, [1;3;5;7;9]. eexists. split; [cbn; repeat split; lia|]. split; [repeat constructor; lia|].
  split; [reflexivity|]. vm_compute. auto.
Qed.

Lemma drop_empty_revert_lemma : forall n, exists r, resolve (UDrop []) n = Ok r /\
  slice_at r 0 = Ok 0 /\ slice_revert r 0 = UB.
Proof. intro n. eexists. split; [reflexivity|]. split; reflexivity. Qed.

Lemma drop_reuse_lemma :
  exists raw m, drop_normalize [] raw 4 = SDrop [1] m 3 /\
    slice_at (drop_normalize m raw 6) 1 = Ok 2 /\ nth_error (survivors 6 [3]) 1 = Some 1.
Proof. exists [-3]. eexists. split; [reflexivity|]. vm_compute. auto. Qed.

Lemma zlist_eqb_iff : forall a b, zlist_eqb a b = true <-> a = b.
Proof.
  induction a as [|x a IH]; intros [|y b]; cbn; try (split; [discriminate|discriminate]); [tauto|].
  rewrite andb_true_iff, Z.eqb_eq, IH. split; [intros [-> ->]; reflexivity|]. intros H. injection H as -> ->. auto.
Qed.
Lemma slice_equality_lemma : forall a b : slice,
  (forall i inc n, a <> SDrop i inc n) -> (slice_eq a b = true <-> a = b) /\ (a <> SNewaxis -> slice_neq a b = negb (slice_eq a b)).
Proof.
  intros a b Ha. split.
  - destruct a, b; cbn; try (split; discriminate); rewrite ?andb_true_iff, ?Z.eqb_eq, ?zlist_eqb_iff; try (split; [intuition congruence|intros E; injection E; auto]).
    tauto.
  - intros H. destruct a, b; try reflexivity; contradiction.
Qed.
