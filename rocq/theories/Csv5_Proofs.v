(** Proofs about CSV: numerals. *)
From Coq Require Import String List ZArith Bool Lia.
From Verif Require Import Prelude PreludeFacts Access_Model Npy_Model Csv_Model Csv_Spec.
Import ListNotations.
Open Scope Z_scope.

Lemma skip_white ws s : Forall white ws -> skip_space (ws ++ s) = skip_space s.
Proof.
  induction 1 as [|c ws Hc H IH]; [reflexivity|]. cbn [app skip_space].
  replace ((c =? 32) || ((9 <=? c) && (c <=? 13))) with true; [exact IH|]. symmetry. destruct Hc as [ -> |Hc]; [reflexivity|].
  apply orb_true_iff. right. apply andb_true_iff. split; apply Z.leb_le; lia.
Qed.
Lemma scan_value rest : ~ (48 <= hd 0 rest <= 57) -> forall ds acc, Forall (fun d => 0 <= d <= 9) ds ->
  scan_digits acc (map digit_char ds ++ rest) = fold_left (fun acc d => 10 * acc + d) ds acc.
Proof.
  intros Hr. induction ds as [|d ds IH]; intros acc H.
  - cbn. destruct rest as [|c rest]; [reflexivity|]. cbn [scan_digits hd] in *. replace (is_digit c) with false; [reflexivity|]. symmetry. apply not_true_iff_false. intros E.
    apply andb_true_iff in E as [A B]. apply Z.leb_le in A, B. lia.
  - inversion H; subst. cbn [map app scan_digits fold_left]. unfold is_digit, digit_char. replace ((48 <=? 48 + d) && (48 + d <=? 57)) with true.
    + rewrite IH by assumption. f_equal. lia.
    + symmetry. apply andb_true_iff. split; apply Z.leb_le; lia.
Qed.
Lemma value_nonneg ds : Forall (fun d => 0 <= d <= 9) ds -> 0 <= value_of ds.
Proof.
  unfold value_of. assert (G : forall acc, 0 <= acc -> Forall (fun d => 0 <= d <= 9) ds -> 0 <= fold_left (fun acc d => 10 * acc + d) ds acc).
  { induction ds as [|d ds IH]; intros acc Ha H; [exact Ha|]. inversion H; subst. apply IH; [lia|assumption]. }
  intros H. apply G; [lia|exact H].
Qed.

Lemma numeral_scan n cell : numeral n cell -> exists neg m, scan_number (skip_space cell) = (neg, Some m) /\ skip_space cell <> [] /\ 0 <= m /\ n = (if neg : bool then - m else m).
Proof.
  intros (ws & sign & ds & rest & -> & Hw & Hne & Hd & Hr & Hs). rewrite skip_white by exact Hw.
  pose proof (scan_value rest Hr ds 0 Hd) as V. fold (value_of ds) in V. pose proof (value_nonneg ds Hd) as P.
  destruct ds as [|d ds]; [congruence|]. inversion Hd; subst. set (body := map digit_char (d :: ds) ++ rest) in *.
  assert (B : exists t, body = (48 + d) :: t) by (eexists; reflexivity). destruct B as (t & B).
  assert (Hdig : is_digit (48 + d) = true) by (unfold is_digit; apply andb_true_iff; split; apply Z.leb_le; lia).
  assert (Hsp : (48 + d =? 32) || ((9 <=? 48 + d) && (48 + d <=? 13)) = false).
  { apply orb_false_iff. split; [apply Z.eqb_neq; lia|]. apply andb_false_iff. right. apply Z.leb_gt. lia. }
  assert (D : d = 0 \/ d = 1 \/ d = 2 \/ d = 3 \/ d = 4 \/ d = 5 \/ d = 6 \/ d = 7 \/ d = 8 \/ d = 9) by lia.
  destruct Hs as [[[ -> | -> ] -> ]|[ -> -> ]]; cbn [app].
  - exists false, (value_of (d :: ds)). rewrite B. cbn [skip_space]. rewrite Hsp. split; [|split; [discriminate|split; [exact P|reflexivity]]].
    rewrite <- V, B. unfold scan_number, scan_sign. destruct D as [E|[E|[E|[E|[E|[E|[E|[E|[E|E]]]]]]]]]; subst d; reflexivity.
  - exists false, (value_of (d :: ds)). assert (S0 : skip_space (43 :: body) = 43 :: body) by reflexivity. rewrite S0. split; [|split; [discriminate|split; [exact P|reflexivity]]].
    rewrite <- V, B. unfold scan_number, scan_sign. cbv beta iota. rewrite Hdig. reflexivity.
  - exists true, (value_of (d :: ds)). assert (S0 : skip_space (45 :: body) = 45 :: body) by reflexivity. rewrite S0. split; [|split; [discriminate|split; [exact P|reflexivity]]].
    rewrite <- V, B. unfold scan_number, scan_sign. cbv beta iota. rewrite Hdig. reflexivity.
Qed.

Lemma numeral_lemma lo hi n cell : numeral n cell ->
  cast_signed lo hi cell = (if (lo <=? n) && (n <=? hi) then Ok n else Throw out_of_range) /\
  (lo <= n <= hi -> cast_stream lo hi cell = Ok n) /\
  (0 <= n -> cast_ulong cell = if n <? 2 ^ 64 then Ok n else Throw out_of_range).
Proof.
  intros H. destruct (numeral_scan n cell H) as (neg & m & E & Hne & Hm & ->). unfold cast_signed, cast_stream, cast_ulong. rewrite E. split; [reflexivity|]. split.
  - intros Hr. destruct (skip_space cell) as [|c s] eqn:Es; [congruence|]. rewrite E. f_equal. destruct neg; lia.
  - intros Hp. change (2 ^ 64) with 18446744073709551616. destruct neg.
    + assert (m = 0) by lia. subst m. reflexivity.
    + destruct (Z.leb_spec 18446744073709551616 m), (Z.ltb_spec m 18446744073709551616); try lia; reflexivity.
Qed.

Lemma numeral_case1 : numeral 205 (str "  +205 m").
Proof.
  exists [32; 32], [43], [2; 0; 5], (str " m"). split; [reflexivity|]. split; [repeat constructor|]. split; [discriminate|]. split; [repeat constructor; lia|]. split; [cbn; lia|].
  left. split; [right; reflexivity|reflexivity].
Qed.
Lemma numeral_case2 : numeral (-7) (str "-07").
Proof.
  exists [], [45], [0; 7], []. split; [reflexivity|]. split; [constructor|]. split; [discriminate|]. split; [repeat constructor; lia|]. split; [cbn; lia|].
  right. split; reflexivity.
Qed.
