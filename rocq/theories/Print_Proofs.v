From Coq Require Import String ZArith Lia Bool List.
From Verif Require Import Prelude PreludeFacts Strides_Model Strides_Spec Strides_Proofs Access_Model Container_Model Container_Spec Npy_Model Csv_Model Print_Model Print_Spec.
Import ListNotations.
Open Scope Z_scope.

Lemma zfrom_nil a n : n <= 0 -> zfrom a n = [].
Proof. intros H. unfold zfrom. replace (Z.to_nat n) with 0%nat by lia. reflexivity. Qed.
Lemma zfrom_cons a n : 0 < n -> zfrom a n = a :: zfrom (a + 1) (n - 1).
Proof.
  intros H. unfold zfrom. replace (Z.to_nat n) with (S (Z.to_nat (n - 1))) by lia. cbn [seq map]. f_equal; [lia|].
  rewrite <- seq_shift, map_map. apply map_ext. intros k. lia.
Qed.
Lemma zfrom_snoc a n : 0 < n -> zfrom a n = zfrom a (n - 1) ++ [a + n - 1].
Proof.
  intros H. unfold zfrom. replace (Z.to_nat n) with (Z.to_nat (n - 1) + 1)%nat by lia. rewrite seq_app, map_app. cbn [seq map]. do 2 f_equal. lia.
Qed.
Lemma zfrom_in a n i : In i (zfrom a n) <-> a <= i < a + n.
Proof.
  unfold zfrom. rewrite in_map_iff. split.
  - intros (k & <- & H). apply in_seq in H. lia.
  - intros H. exists (Z.to_nat (i - a)). split; [lia|]. apply in_seq. lia.
Qed.

Section Axis.
  Context {St : Type} (n lim : Z) (skip : St -> St) (each last : Z -> St -> res St).
  Hypothesis Hl : 0 <= lim < 2 ^ 31.
  Definition stepo (o : option Z) (st : St) : res St := match o with Some i => each i st | None => Ok (skip st) end.

  Lemma twice : to_size_t (lim * 2) = 2 * lim.
  Proof using Hl. unfold to_size_t. rewrite Z.mod_small; lia. Qed.

  Lemma prefix_lemma f : forall (k : nat) i st, i + Z.of_nat k <= n - 1 -> (lim = 0 \/ n <= 2 * lim \/ (forall j, i <= j < i + Z.of_nat k -> j <> lim)) ->
    run_axis (k + f) n lim skip each last i st = let* st := for_each stepo (map Some (zfrom i (Z.of_nat k))) st in run_axis f n lim skip each last (i + Z.of_nat k) st.
  Proof using Hl.
    induction k as [|k IH]; intros i st Hi Hc.
    - rewrite zfrom_nil by lia. cbn [map for_each bind plus]. f_equal; lia.
    - rewrite zfrom_cons by lia. cbn [map for_each stepo plus run_axis].
      replace (i =? n - 1) with false by (symmetry; apply Z.eqb_neq; lia).
      assert (E : negb (lim =? 0) && (to_size_t (lim * 2) <? n) && (i =? lim) = false).
      { rewrite twice. destruct Hc as [->|[H|H]]; [reflexivity|replace (2 * lim <? n) with false by (symmetry; apply Z.ltb_ge; lia); rewrite andb_false_r; reflexivity|].
        replace (i =? lim) with false by (symmetry; apply Z.eqb_neq; apply H; lia). apply andb_false_r. }
      rewrite E. destruct (each i st) as [st'| |]; cbn [bind]; try reflexivity.
      rewrite IH; [|lia|destruct Hc as [H|[H|H]]; [left; exact H|right; left; exact H|right; right; intros j Hj; apply H; lia]].
      replace (Z.of_nat (S k) - 1) with (Z.of_nat k) by lia. replace (i + 1 + Z.of_nat k) with (i + Z.of_nat (S k)) by lia. reflexivity.
  Qed.

  Definition path : list (option Z) :=
    if (lim =? 0) || (n <=? 2 * lim) then map Some (zfrom 0 (n - 1)) else map Some (zfrom 0 lim) ++ None :: map Some (zfrom (n - lim) (lim - 1)).
  Lemma axis_lemma st : 0 < n -> lim = 0 \/ 2 <= lim \/ n <= 2 * lim ->
    run_axis (Z.to_nat n) n lim skip each last 0 st = let* st := for_each stepo path st in last (n - 1) st.
  Proof using Hl.
    intros Hn Hc. unfold path. destruct ((lim =? 0) || (n <=? 2 * lim)) eqn:E.
    - replace (Z.to_nat n) with (Z.to_nat (n - 1) + 1)%nat by lia.
      rewrite prefix_lemma; [|lia|apply orb_true_iff in E; rewrite Z.eqb_eq, Z.leb_le in E; destruct E as [E|E]; auto].
      rewrite !Z2Nat.id by lia. destruct (for_each _ _ _) as [st'| |]; cbn [bind]; try reflexivity.
      cbn [run_axis]. replace (0 + (n - 1) =? n - 1) with true by (symmetry; apply Z.eqb_eq; lia). f_equal.
    - apply orb_false_iff in E. rewrite Z.eqb_neq, Z.leb_gt in E. destruct E as [E1 E2].
      replace (Z.to_nat n) with (Z.to_nat lim + (S (Z.to_nat (lim - 2) + (Z.to_nat (n - 2 * lim) + 1))))%nat by lia.
      rewrite prefix_lemma; [|lia|right; right; intros j Hj; lia]. rewrite !Z2Nat.id by lia.
      rewrite for_each_app. destruct (for_each stepo (map Some (zfrom 0 lim)) st) as [st'| |]; cbn [bind]; try reflexivity.
      cbn [run_axis for_each stepo bind].
      replace (0 + lim =? n - 1) with false by (symmetry; apply Z.eqb_neq; lia).
      assert (E : negb (lim =? 0) && (to_size_t (lim * 2) <? n) && (0 + lim =? lim) = true).
      { rewrite twice, !andb_true_iff, negb_true_iff, Z.eqb_neq, Z.ltb_lt, Z.eqb_eq. lia. }
      rewrite E. rewrite (zfrom_cons _ (lim - 1)) by lia. cbn [map for_each stepo].
      destruct (each (n - lim) (skip st')) as [st''| |]; cbn [bind]; try reflexivity.
      rewrite prefix_lemma; [|lia|right; right; intros j Hj; lia]. rewrite !Z2Nat.id by lia.
      replace (lim - 1 - 1) with (lim - 2) by lia.
      destruct (for_each _ _ _) as [s3| |]; cbn [bind]; try reflexivity.
      replace (n - lim + 1 + (lim - 2)) with (n - 1) by lia.
      replace (Z.to_nat (n - 2 * lim) + 1)%nat with (S (Z.to_nat (n - 2 * lim))) by lia. cbn [run_axis]. rewrite Z.eqb_refl. reflexivity.
  Qed.
  Lemma shown_path : 0 < n -> lim = 0 \/ 2 <= lim \/ n <= 2 * lim -> shown lim n = path ++ [Some (n - 1)].
  Proof using Hl.
    intros Hn Hc. unfold shown, path. destruct ((lim =? 0) || (n <=? 2 * lim)) eqn:E.
    - rewrite (zfrom_snoc 0 n) by lia. rewrite map_app. cbn [map]. do 3 f_equal. 
    - apply orb_false_iff in E. rewrite Z.eqb_neq, Z.leb_gt in E.
      rewrite (zfrom_snoc (n - lim) lim) by lia. rewrite map_app. cbn [map]. rewrite <- app_assoc. cbn [app]. do 5 f_equal. lia.
  Qed.
End Axis.

(** ** Visiting the elements *)

Lemma for_each_ext {S E} (f g : E -> S -> res S) l s : (forall x s, In x l -> f x s = g x s) -> for_each f l s = for_each g l s.
Proof.
  revert s. induction l as [|x t IH]; intros s H; cbn [for_each]; [reflexivity|]. rewrite (H x s) by (left; reflexivity).
  destruct (g x s); cbn [bind]; try reflexivity. apply IH. intros y s' Hy. apply H. right. exact Hy.
Qed.
Lemma for_each_map {S E F} (f : F -> S -> res S) (h : E -> F) l s : for_each f (map h l) s = for_each (fun x => f (h x)) l s.
Proof. revert s. induction l as [|x t IH]; intros s; cbn [map for_each]; [reflexivity|]. destruct (f (h x) s); cbn [bind]; auto. Qed.
Lemma for_each_flat {S E F} (f : F -> S -> res S) (h : E -> list F) l s :
  for_each f (flat_map h l) s = for_each (fun x s => for_each f (h x) s) l s.
Proof.
  revert s. induction l as [|x t IH]; intros s; cbn [flat_map for_each]; [reflexivity|]. rewrite for_each_app.
  destruct (for_each f (h x) s); cbn [bind]; auto.
Qed.
Lemma for_each_positions {S} (f : Z -> S -> res S) l s :
  for_each (stepo (fun s => s) f) l s = for_each f (positions l) s.
Proof.
  unfold positions. rewrite for_each_flat. apply for_each_ext. intros [i|] s' _; cbn [stepo for_each]; [destruct (f i s'); reflexivity|reflexivity].
Qed.

Lemma visit_lemma {A St} (get : list Z -> res A) (update : St -> A -> res St) lim : 0 <= lim < 2 ^ 31 ->
  forall sh sl st, Forall (fun n => 0 < n) sh -> edges_ok lim sh ->
  recurser_run get update lim sh sl st = for_each (fun ix st => let* v := get (sl ++ ix) in update st v) (shown_ix lim sh) st.
Proof.
  intros Hl. induction sh as [|n r IH]; intros sl st Hp He; cbn [recurser_run shown_ix].
  - cbn [for_each]. rewrite app_nil_r. destruct (get sl) as [v| |]; cbn [bind]; try reflexivity. destruct (update st v); reflexivity.
  - inversion Hp as [|? ? Hn Hp']; subst. inversion He as [|? ? Hc He']; subst.
    rewrite axis_lemma by assumption. rewrite shown_path by assumption.
    rewrite (for_each_positions (fun i st0 => recurser_run get update lim r (sl ++ [i]) st0)).
    rewrite for_each_flat. unfold positions at 2. rewrite flat_map_app. rewrite for_each_app. fold (positions (path n lim)).
    transitivity (let* st0 := for_each (fun x s => for_each (fun ix st0 => let* v := get (sl ++ ix) in update st0 v) (map (cons x) (shown_ix lim r)) s) (positions (path n lim)) st in
                  for_each (fun ix st0 => let* v := get (sl ++ ix) in update st0 v) (map (cons (n - 1)) (shown_ix lim r)) st0).
    + assert (G : forall i s, recurser_run get update lim r (sl ++ [i]) s =
                  for_each (fun ix st0 => let* v := get (sl ++ ix) in update st0 v) (map (cons i) (shown_ix lim r)) s).
      { intros i s. rewrite IH by assumption. rewrite for_each_map. apply for_each_ext. intros ix s' _. rewrite <- app_assoc. reflexivity. }
      rewrite (for_each_ext _ (fun x s => for_each (fun ix st0 => let* v := get (sl ++ ix) in update st0 v) (map (cons x) (shown_ix lim r)) s)) by (intros; apply G).
      destruct (for_each _ (positions (path n lim)) st); cbn [bind]; try reflexivity. apply G.
    + cbn [flat_map app for_each]. destruct (for_each _ (positions (path n lim)) st) as [s0| |]; cbn [bind]; try reflexivity.
      destruct (for_each _ (map (cons (n - 1)) (shown_ix lim r)) s0); reflexivity.
Qed.

Lemma positions_bound lim n i : 0 <= lim -> In i (positions (shown lim n)) -> 0 <= i < n.
Proof.
  intros Hl H. unfold positions in H. apply in_flat_map in H. destruct H as ([j|] & H & Hi); [|destruct Hi].
  destruct Hi as [<-|[]]. unfold shown in H. destruct ((lim =? 0) || (n <=? 2 * lim)) eqn:E.
  - apply in_map_iff in H. destruct H as (k & [= ->] & H). apply zfrom_in in H. lia.
  - apply orb_false_iff in E. rewrite Z.eqb_neq, Z.leb_gt in E. apply in_app_iff in H. destruct H as [H|[H|H]]; [|discriminate H|];
      apply in_map_iff in H; destruct H as (k & [= ->] & H); apply zfrom_in in H; lia.
Qed.
Lemma shown_in_bounds lim sh ix : 0 <= lim -> In ix (shown_ix lim sh) -> in_bounds sh ix.
Proof.
  intros Hl. revert ix. induction sh as [|n r IH]; intros ix H; cbn [shown_ix] in H.
  - destruct H as [<-|[]]. constructor.
  - apply in_flat_map in H. destruct H as (i & Hi & H). apply in_map_iff in H. destruct H as (jx & <- & H). constructor; [eapply positions_bound; eassumption|apply IH; exact H].
Qed.

Lemma cached_lemma {A St} (pr : printer A St) (get : list Z -> res A) v : forall l st cache,
  (forall ix, In ix l -> get ix = Ok (v ix)) ->
  for_each (fun ix '(st, cache) => let* x := get ix in let* st := pr_update pr st x in Ok (st, cache ++ [x])) l (st, cache) =
  let* st := updates pr st (map v l) in Ok (st, cache ++ map v l).
Proof.
  induction l as [|ix t IH]; intros st cache H; cbn [for_each map updates].
  - cbn [bind]. rewrite app_nil_r. reflexivity.
  - rewrite (H ix) by (left; reflexivity). cbn [bind]. destruct (pr_update pr st (v ix)) as [st'| |]; cbn [bind]; try reflexivity.
    rewrite IH by (intros; apply H; right; assumption). destruct (updates pr st' (map v t)); cbn [bind]; try reflexivity. rewrite <- app_assoc. reflexivity.
Qed.

(** ** The text *)

Lemma ink_app a b : ink (a ++ b) = ink a ++ ink b.
Proof. unfold ink. apply filter_app. Qed.
Lemma ink_blanks n : ink (repeat 32 n) = [].
Proof. induction n as [|n IH]; [reflexivity|]. cbn. exact IH. Qed.
Lemma ink_indent n : ink (indent n) = [].
Proof. unfold indent. cbn. apply ink_blanks. Qed.
Lemma ink_idem s : ink (ink s) = ink s.
Proof. unfold ink. induction s as [|c t IH]; [reflexivity|]. cbn [filter]. destruct (negb _) eqn:E; [|exact IH]. cbn [filter]. rewrite E. f_equal. exact IH. Qed.
Lemma commas_snoc l x : commas_between (l ++ [x]) = flat_map (fun y => y ++ str ",") l ++ x.
Proof.
  induction l as [|y t IH]; [reflexivity|]. cbn [app flat_map commas_between]. destruct (t ++ [x]) as [|z u] eqn:E; [destruct t; discriminate E|].
  rewrite IH, <- !app_assoc. reflexivity.
Qed.
Lemma ink_flat {A} (f : A -> bytes) l : ink (flat_map f l) = flat_map (fun x => ink (f x)) l.
Proof. induction l as [|x t IH]; [reflexivity|]. cbn [flat_map]. rewrite ink_app, IH. reflexivity. Qed.
Lemma ink_commas l : ink (commas_between l) = commas_between (map ink l).
Proof.
  induction l as [|x t IH]; [reflexivity|]. cbn [commas_between map]. destruct t as [|y t']; [reflexivity|].
  rewrite !ink_app, IH. reflexivity.
Qed.
Lemma literal_ext e : forall sh f g, (forall ix, f ix = g ix) -> literal e sh f = literal e sh g.
Proof.
  induction sh as [|n r IH]; intros f g H; cbn [literal]; [apply H|]. do 3 f_equal. apply map_ext. intros [i|]; [|reflexivity]. apply IH. intros ix. apply H.
Qed.
Lemma ink_literal e : forall sh f, ink (literal e sh f) = literal e sh (fun ix => ink (f ix)).
Proof.
  induction sh as [|n r IH]; intros f; cbn [literal]; [reflexivity|]. rewrite !ink_app, ink_commas, map_map. f_equal. f_equal.
  f_equal. apply map_ext. intros [i|]; [apply IH|reflexivity].
Qed.

Definition item_text (lim : Z) (r : list Z) (f : list Z -> bytes) (o : option Z) : bytes :=
  match o with Some i => literal lim r (fun ix => f (i :: ix)) | None => str "..." end.

Ltac rw_out E := match type of E with _ = ?R => match goal with |- context [xoutput ?a ?b ?c ?d ?e ?p] => replace (xoutput a b c d e p) with R by (symmetry; exact E) end end.

Lemma output_lemma {A} (cell : A -> bytes) lim ll : 0 <= lim < 2 ^ 31 -> forall sh, Forall (fun n => 0 < n) sh -> edges_ok lim sh ->
  forall w blanks out rest, exists o, xoutput cell lim ll sh blanks (out, map w (shown_ix lim sh) ++ rest) = Ok (out ++ o, rest) /\
    ink o = ink (literal lim sh (fun ix => cell (w ix))).
Proof.
  intros Hl. induction sh as [|n r IH]; intros Hp He w blanks out rest.
  - exists (cell (w [])). split; reflexivity.
  - inversion Hp as [|? ? Hn Hp']; subst. inversion He as [|? ? Hc He']; subst. specialize (IH Hp' He').
    cbn [xoutput]. rewrite axis_lemma by assumption.
    match goal with |- context [for_each (stepo ?s ?e) _ _] => set (skip := s); set (each := e) end.
    set (sub := fun i => map (fun ix => w (i :: ix)) (shown_ix lim r)).
    assert (G : forall l o k rest, exists o' k', for_each (stepo skip each) l (o, flat_map sub (positions l) ++ rest, k) = Ok (o ++ o', rest, k') /\
              ink o' = ink (flat_map (fun x => x ++ str ",") (map (item_text lim r (fun ix => cell (w ix))) l))).
    { induction l as [|x l IHl]; intros o k rest'.
      - exists [], k. cbn. rewrite app_nil_r. auto.
      - destruct x as [i|].
        + cbn [positions flat_map for_each stepo app]. fold (positions l). rewrite <- app_assoc. unfold each at 1.
          match goal with |- context [if ?b then (o ++ indent blanks, 0) else (o, k)] => set (full := b) end.
          destruct (if full then (o ++ indent blanks, 0) else (o, k)) as [o1 k1] eqn:E1.
          assert (X1 : exists g, o1 = o ++ g /\ ink g = []).
          { destruct full; injection E1 as <- <-; [exists (indent blanks); split; [reflexivity|apply ink_indent]|exists []; rewrite app_nil_r; auto]. }
          destruct X1 as (g & -> & Hg).
          change (sub i) with (map (fun ix => w (i :: ix)) (shown_ix lim r)). destruct (IH (fun ix => w (i :: ix)) (S blanks) (o ++ g) (flat_map sub (positions l) ++ rest')) as (o2 & E2 & I2).
          rw_out E2. cbn [bind].
          match goal with |- context [for_each (stepo skip each) l (?x, _, ?y)] => set (o3 := x); set (k3 := y) end.
          assert (X3 : exists h, o3 = (((o ++ g) ++ o2) ++ str ",") ++ h /\ ink h = []).
          { unfold o3. match goal with |- exists h, (if ?b then _ else _) = _ /\ _ => destruct b end; [exists (str " "); split; reflexivity|]. match goal with |- exists h, (if ?b then _ else _) = _ /\ _ => destruct b end; [exists (indent blanks); split; [reflexivity|apply ink_indent]|exists []; split; [rewrite app_nil_r; reflexivity|reflexivity]]. }
          destruct X3 as (h & -> & Hh).
          destruct (IHl (((((o ++ g) ++ o2) ++ str ",") ++ h)) k3 rest') as (o4 & k4 & E4 & I4).
          exists (g ++ o2 ++ str "," ++ h ++ o4), k4. split; [rewrite E4; do 3 f_equal; rewrite <- !app_assoc; reflexivity|].
          cbn [map flat_map item_text]. rewrite !ink_app, Hg, I2, Hh, I4, <- !app_assoc. reflexivity.
        + cbn [positions flat_map for_each stepo app]. fold (positions l). cbn [bind].
          destruct (skip (o, flat_map sub (positions l) ++ rest', k)) as [[o1 c1] k1] eqn:E1.
          assert (X1 : exists g, o1 = o ++ g /\ ink g = str "...," /\ c1 = flat_map sub (positions l) ++ rest').
          { unfold skip in E1. match type of E1 with (if ?b then _ else _) = _ => destruct b end; [injection E1 as <- <- <-; eexists; split; [reflexivity|split; reflexivity]|].
            match type of E1 with (if ?b then _ else _) = _ => destruct b end; injection E1 as <- <- <-; [exists (str "...," ++ indent blanks); split; [reflexivity|split; [rewrite ink_app, ink_indent; reflexivity|reflexivity]]|eexists; split; [reflexivity|split; reflexivity]]. }
          destruct X1 as (g & -> & Hg & ->). destruct (IHl (o ++ g) k1 rest') as (o4 & k4 & E4 & I4).
          exists (g ++ o4), k4. split; [rewrite E4, <- app_assoc; reflexivity|].
          cbn [map flat_map item_text]. rewrite !ink_app, Hg, I4. reflexivity. }
    assert (EC : map w (shown_ix lim (n :: r)) ++ rest = flat_map sub (positions (path n lim)) ++ sub (n - 1) ++ rest).
    { cbn [shown_ix]. rewrite shown_path by assumption. unfold positions at 1. rewrite flat_map_app. fold (positions (path n lim)). cbn [flat_map app].
      rewrite flat_map_app. cbn [flat_map]. rewrite app_nil_r, map_app, <- app_assoc. f_equal.
      - unfold sub. induction (positions (path n lim)) as [|i t IHt]; [reflexivity|]. cbn [flat_map]. rewrite map_app, IHt, map_map. reflexivity.
      - unfold sub. rewrite map_map. reflexivity. }
    rewrite EC. destruct (G (path n lim) (out ++ str "{") 0 (sub (n - 1) ++ rest)) as (o1 & k1 & E1 & I1). rewrite E1. cbn [bind].
    match goal with |- context [xoutput cell lim ll r (S blanks) (?x, _)] => set (o2 := x) end.
    assert (X2 : exists g, o2 = (out ++ str "{") ++ o1 ++ g /\ ink g = []).
    { unfold o2. match goal with |- exists h, (if ?b then _ else _) = _ /\ _ => destruct b end; [exists (indent blanks); split; [rewrite <- !app_assoc; reflexivity|apply ink_indent]|exists []; rewrite !app_nil_r; auto]. }
    destruct X2 as (g & E2 & Hg). unfold sub at 1.
    destruct (IH (fun ix => w (n - 1 :: ix)) (S blanks) o2 rest) as (o3 & E3 & I3). rw_out E3. cbn [bind].
    exists (str "{" ++ o1 ++ g ++ o3 ++ str "}"). split; [rewrite E2, <- !app_assoc; reflexivity|].
    cbn [literal]. rewrite shown_path by assumption. rewrite map_app. cbn [map]. rewrite commas_snoc.
    rewrite !ink_app, I1, Hg, I3. rewrite <- !app_assoc. reflexivity.
Qed.
