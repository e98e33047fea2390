(** Proofs about the storage of arrays with missing values. *)
From Coq Require Import List ZArith Bool Lia Arith.
From Verif Require Import Prelude PreludeFacts Storage_Model Storage_Spec Storage_Proofs Storage5_Proofs OStore_Model OStore_Spec.
Import ListNotations.
Open Scope nat_scope.

Section S.
Context {V : Type}.
Notation stor := (@OStore_Model.storage V).

Lemma combine_nth_error {A B} : forall (l : list A) (m : list B) i, nth_error (combine l m) i =
  match nth_error l i, nth_error m i with Some x, Some y => Some (x, y) | _, _ => None end.
Proof.
  induction l as [|x l IH]; intros m i; [destruct i; reflexivity|]. destruct m as [|y m]; destruct i as [|i]; cbn; try reflexivity.
  - destruct (nth_error l i); reflexivity.
  - apply IH.
Qed.
Lemma upd_replace {A} : forall (l : list A) i x, i < length l -> upd l i x = firstn i l ++ [x] ++ skipn (S i) l.
Proof.
  induction l as [|y l IH]; intros i x L; cbn [length] in L; [lia|]. destruct i as [|i]; [reflexivity|].
  cbn [upd firstn app]. rewrite (IH i x) by lia. reflexivity.
Qed.
Lemma combine_upd {A B} : forall (l : list A) (m : list B) i x y, combine (upd l i x) (upd m i y) = upd (combine l m) i (x, y).
Proof.
  induction l as [|a l IH]; intros m i x y; [reflexivity|]. destruct m as [|b m]; destruct i as [|i]; cbn [upd combine]; try reflexivity.
  now rewrite IH.
Qed.
Lemma upd_same {A} : forall (l : list A) i x, nth_error l i = Some x -> upd l i x = l.
Proof. induction l as [|a l IH]; intros [|i] x H; try discriminate H; cbn in *; [congruence|]. now rewrite IH. Qed.
Lemma upd_len {A} : forall (l : list A) i x, length (upd l i x) = length l.
Proof. induction l as [|a l IH]; intros [|i] x; cbn; try reflexivity. now rewrite IH. Qed.
Lemma el_length (s : stor) : matched s -> length (elements s) = length (OStore_Model.values s).
Proof. intros M. unfold elements. rewrite combine_length. unfold matched in M. lia. Qed.

Lemma get_ok (s : stor) i : matched s -> os_get s i = match nth_error (elements s) i with Some x => Ok x | None => UB end.
Proof.
  intros M. unfold elements. rewrite combine_nth_error. unfold os_get, rd.
  destruct (nth_error (OStore_Model.values s) i), (nth_error (flags s) i); reflexivity.
Qed.
Lemma set_ok (s : stor) i v b : matched s ->
  match (if i <? length (elements s) then Some (replace (elements s) i (v, b)) else None) with
  | Some a => exists s', os_set s i v b = Ok s' /\ matched s' /\ elements s' = a
  | None => os_set s i v b = UB
  end.
Proof.
  intros M. rewrite el_length by exact M. unfold os_set, wr. destruct (Nat.ltb_spec i (length (OStore_Model.values s))) as [L|L]; cbn [bind]; [|reflexivity].
  destruct (Nat.ltb_spec i (length (flags s))) as [L'|L']; [|unfold matched in M; lia]. cbn [bind]. eexists. split; [reflexivity|]. split.
  - unfold matched. cbn. now rewrite !upd_len.
  - unfold elements, replace. cbn. rewrite combine_upd. apply upd_replace. rewrite combine_length. lia.
Qed.
Lemma miss_ok (s : stor) i : matched s ->
  match nth_error (elements s) i with
  | Some (v, _) => exists s', os_set_missing s i = Ok s' /\ matched s' /\ elements s' = replace (elements s) i (v, false)
  | None => os_set_missing s i = UB
  end.
Proof.
  intros M. unfold elements. rewrite combine_nth_error. unfold os_set_missing, rd. destruct (nth_error (OStore_Model.values s) i) as [v|] eqn:E; [|reflexivity].
  assert (L : i < length (OStore_Model.values s)) by (apply nth_error_Some; congruence). assert (L' : i < length (flags s)) by (unfold matched in M; lia).
  destruct (nth_error (flags s) i) as [b|] eqn:E'; [|apply nth_error_None in E'; lia]. cbn [bind]. unfold wr. rewrite (proj2 (Nat.ltb_lt _ _) L'). cbn [bind].
  eexists. split; [reflexivity|]. split; [unfold matched; cbn; now rewrite upd_len|]. cbn [OStore_Model.values flags].
  rewrite <- (upd_same (OStore_Model.values s) i v E) at 1. rewrite combine_upd. apply upd_replace. rewrite combine_length. lia.
Qed.
Lemma resize_ok fv fb (s : stor) n : (forall n, length (fv n) = n) -> (forall n, length (fb n) = n) -> matched s ->
  matched (os_resize fv fb s n) /\ elements (os_resize fv fb s n) = if n =? length (elements s) then elements s else combine (fv n) (fb n).
Proof.
  intros Hv Hb M. rewrite el_length by exact M. unfold os_resize, uv_resize, matched, elements. cbn. rewrite <- M. destruct (Nat.eqb_spec n (length (OStore_Model.values s))).
  - split; [exact M|reflexivity].
  - split; [now rewrite Hv, Hb|reflexivity].
Qed.
Lemma step_ok fv fb (s t : stor) o : (forall n, length (fv n) = n) -> (forall n, length (fb n) = n) -> matched s -> matched t ->
  match does (fun n => combine (fv n) (fb n)) (elements s) (elements t) o with
  | Some (a, b) => exists s' t', step fv fb (s, t) o = Ok (s', t') /\ matched s' /\ matched t' /\ elements s' = a /\ elements t' = b
  | None => step fv fb (s, t) o = UB
  end.
Proof.
  intros Hv Hb Ms Mt. destruct o as [i v b|i|n| |]; cbn [does step].
  - pose proof (set_ok s i v b Ms) as H. destruct (i <? length (elements s)).
    + destruct H as (s' & E & M & El). rewrite E. cbn [bind]. exists s', t. auto.
    + rewrite H. reflexivity.
  - pose proof (miss_ok s i Ms) as H. destruct (nth_error (elements s) i) as [[v b]|].
    + destruct H as (s' & E & M & El). rewrite E. cbn [bind]. exists s', t. auto.
    + rewrite H. reflexivity.
  - destruct (resize_ok fv fb s n Hv Hb Ms) as (M & E). exists (os_resize fv fb s n), t. auto.
  - exists (mk_storage (OStore_Model.values t) (flags t)), (mk_storage (OStore_Model.values s) (flags s)). repeat split; assumption.
  - exists (os_assign s t), t. repeat split; assumption.
Qed.
Lemma steps_ok fv fb : (forall n, length (fv n) = n) -> (forall n, length (fb n) = n) -> forall p (s t : stor), matched s -> matched t ->
  match does_all (fun n => combine (fv n) (fb n)) (elements s) (elements t) p with
  | Some (a, b) => exists s' t', steps fv fb (s, t) p = Ok (s', t') /\ matched s' /\ matched t' /\ elements s' = a /\ elements t' = b
  | None => steps fv fb (s, t) p = UB
  end.
Proof.
  intros Hv Hb. induction p as [|o p IH]; intros s t Ms Mt; cbn [does_all steps]; [exists s, t; auto|].
  pose proof (step_ok fv fb s t o Hv Hb Ms Mt) as H. destruct (does _ (elements s) (elements t) o) as [[a b]|].
  - destruct H as (s' & t' & E & Ms' & Mt' & <- & <-). rewrite E. cbn [bind]. now apply IH.
  - rewrite H. reflexivity.
Qed.

(* iterators *)
Lemma deref_ok (s : stor) n : matched s -> it_deref s (it_plus (it_begin s) (Z.of_nat n)) = match nth_error (elements s) n with Some x => Ok x | None => UB end.
Proof.
  intros M. rewrite <- get_ok by exact M. unfold it_deref, it_plus, it_begin, os_get. cbn [iv ib]. rewrite !Z.add_0_l, !Nat2Z.id.
  destruct (Z.ltb_spec (Z.of_nat n) 0); [lia|reflexivity].
Qed.
Lemma deref_neg (s : stor) n : (n < 0)%Z -> it_deref s (it_plus (it_begin s) n) = UB.
Proof. intros L. unfold it_deref, it_plus, it_begin. cbn [iv ib]. rewrite Z.add_0_l. destruct (Z.ltb_spec n 0); [reflexivity|lia]. Qed.
Lemma end_ok (s : stor) : matched s -> it_end s = it_plus (it_begin s) (Z.of_nat (length (elements s))).
Proof. intros M. rewrite el_length by exact M. unfold it_end, it_plus, it_begin. cbn [iv ib]. unfold matched in M. now rewrite <- M. Qed.
Lemma walk_from (s : stor) : matched s -> forall fuel k, k + fuel = length (elements s) ->
  walk fuel s (it_plus (it_begin s) (Z.of_nat k)) (it_end s) = Ok (skipn k (elements s)).
Proof.
  intros M. induction fuel as [|fuel IH]; intros k L; cbn [walk]; rewrite (end_ok s M); unfold it_eq; cbn [it_plus it_begin iv ib].
  - replace k with (length (elements s)) by lia. rewrite Z.eqb_refl, skipn_all. reflexivity.
  - destruct (Z.eqb_spec (0 + Z.of_nat k) (0 + Z.of_nat (length (elements s)))); [lia|].
    change (mk_iter (0 + Z.of_nat k) (0 + Z.of_nat k)) with (it_plus (it_begin s) (Z.of_nat k)). rewrite deref_ok by exact M.
    destruct (nth_error (elements s) k) as [x|] eqn:E; [|apply nth_error_None in E; lia]. cbn [bind].
    replace (it_next (it_plus (it_begin s) (Z.of_nat k))) with (it_plus (it_begin s) (Z.of_nat (S k))) by (unfold it_next, it_plus, it_begin; cbn [iv ib]; f_equal; lia).
    change (mk_iter (0 + Z.of_nat (length (elements s))) (0 + Z.of_nat (length (elements s)))) with (it_plus (it_begin s) (Z.of_nat (length (elements s)))).
    rewrite <- (end_ok s M). rewrite IH by lia. cbn [bind]. f_equal. clear - E. revert k E. induction (elements s) as [|a l IHl]; intros [|k] E; try discriminate E; cbn in *; [congruence|]. now apply IHl.
Qed.
Lemma walk_ok (s : stor) : matched s -> walk (length (elements s)) s (it_begin s) (it_end s) = Ok (elements s).
Proof.
  intros M. pose proof (walk_from s M (length (elements s)) 0 eq_refl) as H. exact H.
Qed.
Lemma walk_back_from (s : stor) : matched s -> forall k, k <= length (elements s) ->
  walk_back k s (it_plus (it_begin s) (Z.of_nat k)) (it_begin s) = Ok (rev (firstn k (elements s))).
Proof.
  intros M. induction k as [|k IH]; intros L; cbn [walk_back]; unfold it_eq; cbn [it_plus it_begin iv ib]; [reflexivity|].
  destruct (Z.eqb_spec (0 + Z.of_nat (S k)) 0); [lia|].
  replace (it_prev (it_plus (it_begin s) (Z.of_nat (S k)))) with (it_plus (it_begin s) (Z.of_nat k)) by (unfold it_prev, it_plus, it_begin; cbn [iv ib]; f_equal; lia).
  rewrite deref_ok by exact M. destruct (nth_error (elements s) k) as [x|] eqn:E; [|apply nth_error_None in E; lia]. cbn [bind].
  rewrite IH by lia. cbn [bind]. f_equal.
  assert (F : firstn (S k) (elements s) = firstn k (elements s) ++ [x]).
  { clear - E. revert k E. induction (elements s) as [|a l IHl]; intros [|k] E; try discriminate E; cbn in *; [congruence|]. f_equal. now apply IHl. }
  rewrite F, rev_app_distr. reflexivity.
Qed.
Lemma walk_back_ok (s : stor) : matched s -> walk_back (length (elements s)) s (it_end s) (it_begin s) = Ok (rev (elements s)).
Proof. intros M. rewrite (end_ok s M), walk_back_from by (auto; lia). now rewrite firstn_all. Qed.
Lemma move_ok (s : stor) (a b : Z) :
  it_diff (it_plus (it_begin s) a) (it_plus (it_begin s) b) = (a - b)%Z /\ it_plus (it_plus (it_begin s) a) b = it_plus (it_begin s) (a + b) /\
  it_minus (it_plus (it_begin s) a) b = it_plus (it_begin s) (a - b) /\ it_next (it_plus (it_begin s) a) = it_plus (it_begin s) (a + 1) /\ it_prev (it_plus (it_begin s) a) = it_plus (it_begin s) (a - 1) /\
  (it_eq (it_plus (it_begin s) a) (it_plus (it_begin s) b) = true <-> a = b) /\ (it_less (it_plus (it_begin s) a) (it_plus (it_begin s) b) = true <-> (a < b)%Z).
Proof.
  unfold it_diff, it_plus, it_minus, it_next, it_prev, it_eq, it_less, it_begin. cbn [iv ib].
  repeat split; try (f_equal; lia); try lia; rewrite ?Z.eqb_eq, ?Z.ltb_lt; lia.
Qed.

(* comparisons *)
Lemma combine_inj {A B} : forall (l l' : list A) (m m' : list B), length l = length m -> length l' = length m' -> combine l m = combine l' m' -> l = l' /\ m = m'.
Proof.
  induction l as [|a l IH]; intros [|a' l'] [|b m] [|b' m'] H H' E; cbn in *; try discriminate; auto.
  injection E as -> -> E. destruct (IH l' m m') as (-> & ->); auto.
Qed.
Lemma st_eq_bool (a b : list bool) : st_eq Bool.eqb a b = true <-> a = b.
Proof. apply st_eq_ok. intros x y. apply Bool.eqb_true_iff. Qed.
Lemma eq_ok (eqb : V -> V -> bool) (s t : stor) : (forall x y, eqb x y = true <-> x = y) -> matched s -> matched t -> (os_eq eqb s t = true <-> elements s = elements t).
Proof.
  intros H Ms Mt. unfold os_eq. rewrite andb_true_iff, (st_eq_ok eqb H), st_eq_bool. unfold elements. split.
  - intros (-> & ->). reflexivity.
  - intros E. now apply combine_inj in E.
Qed.
Lemma order_ok (lt : V -> V -> Prop) (ltb : V -> V -> bool) (s t : stor) : total_order lt ltb ->
  let same := map snd (elements s) = map snd (elements t) in
  let vs := map fst (elements s) in let vt := map fst (elements t) in
  matched s -> matched t ->
  (os_lt ltb s t = true <-> same /\ lexi lt vs vt) /\ (os_gt ltb s t = true <-> same /\ lexi lt vt vs) /\
  (os_le ltb s t = true <-> same /\ (lexi lt vs vt \/ vs = vt)) /\ (os_ge ltb s t = true <-> same /\ (lexi lt vt vs \/ vs = vt)).
Proof.
  intros O same vs vt Ms Mt.
  assert (P : forall l : list V, forall m : list bool, length l = length m -> map fst (combine l m) = l /\ map snd (combine l m) = m).
  { induction l as [|a l IH]; intros [|b m] H; cbn in *; try discriminate; auto. destruct (IH m) as (E1 & E2); [congruence|]. now rewrite E1, E2. }
  destruct (P _ _ Ms) as (Es & Fs), (P _ _ Mt) as (Et & Ft). unfold vs, vt, same, elements. rewrite Es, Fs, Et, Ft.
  destruct (uv_order O (OStore_Model.values s) (OStore_Model.values t)) as (A & B & C & D).
  unfold os_lt, os_gt, os_le, os_ge. rewrite !andb_true_iff, st_eq_bool, A, B, C, D. tauto.
Qed.
Lemma back_ok (s : stor) : matched s -> os_back s = match rev (elements s) with x :: _ => Ok x | [] => UB end.
Proof.
  intros M. unfold os_back, os_size. pose proof (el_length s M) as E. destruct (Nat.eqb_spec (length (OStore_Model.values s)) 0) as [Z|Z].
  - destruct (elements s); [reflexivity|cbn in E; lia].
  - rewrite get_ok by exact M. destruct (exists_last (l := elements s)) as (l & x & El); [intros C; rewrite C in E; cbn in E; lia|].
    rewrite El in *. rewrite rev_app_distr. cbn [rev app]. rewrite app_length in E. cbn in E. rewrite <- E.
    rewrite nth_error_app2 by lia. replace (length l + 1 - 1 - length l) with 0 by lia. reflexivity.
Qed.
End S.
