From Coq Require Import String ZArith Lia Bool List.
From Verif Require Import Prelude PreludeFacts Strides_Model Strides_Spec Strides_Proofs Access_Model Container_Model Container_Spec Container_Proofs Reshape_Model
  Npy_Model Npy_Spec Npy_Proofs Npy3_Proofs Csv_Model Csv3_Proofs Print_Model Print_Spec Print_Proofs Print2_Proofs.
Import ListNotations.
Open Scope Z_scope.

(** ** Different arrays have different texts *)

Definition delimiter (c : Z) : Prop := c = 44 \/ c = 125.
Definition bounded (s : bytes) : Prop := match s with [] => True | c :: _ => delimiter c end.
Lemma plain_split a b r1 r2 : plain a -> plain b -> bounded r1 -> bounded r2 -> a ++ r1 = b ++ r2 -> a = b /\ r1 = r2.
Proof.
  intros [_ Ha] [_ Hb] R1 R2. revert b Hb. induction a as [|x a IH]; intros [|y b] Hb E; cbn [app] in E.
  - auto.
  - exfalso. subst r1. cbn in R1. destruct (Hb y) as [N _]; [left; reflexivity|]. apply N. destruct R1 as [ -> | -> ]; cbn; auto.
  - exfalso. subst r2. cbn in R2. destruct (Ha x) as [N _]; [left; reflexivity|]. apply N. destruct R2 as [ -> | -> ]; cbn; auto.
  - injection E as -> E. destruct (IH (fun c H => Ha c (or_intror H)) b) as [-> ->]; [intros c H; apply Hb; right; exact H|exact E|auto].
Qed.

Lemma literal_cons n r item : literal 0 (n :: r) item = 123 :: commas_between (map (fun i => literal 0 r (fun ix => item (i :: ix))) (zfrom 0 n)) ++ [125].
Proof. cbn [literal]. unfold shown. cbn [Z.eqb orb]. rewrite map_map. reflexivity. Qed.

Lemma literal_inj : forall s1 s2 f g r1 r2, Forall (fun n => 0 < n) s1 -> Forall (fun n => 0 < n) s2 ->
  (forall ix, in_bounds s1 ix -> plain (f ix)) -> (forall ix, in_bounds s2 ix -> plain (g ix)) -> bounded r1 -> bounded r2 ->
  literal 0 s1 f ++ r1 = literal 0 s2 g ++ r2 -> s1 = s2 /\ (forall ix, in_bounds s1 ix -> f ix = g ix) /\ r1 = r2.
Proof.
  induction s1 as [|n1 s1 IH]; intros [|n2 s2] f g r1 r2 P1 P2 Hf Hg R1 R2 E.
  - cbn [literal] in E. destruct (plain_split (f []) (g []) r1 r2) as [E1 E2]; auto; [apply Hf; constructor|apply Hg; constructor|].
    split; [reflexivity|]. split; [|exact E2]. intros ix H. inversion H; subst. exact E1.
  - exfalso. rewrite literal_cons in E. cbn [literal] in E. destruct (Hf [] (Forall2_nil _)) as [N H]. destruct (f []) as [|c t]; [contradiction|].
    injection E as -> E. destruct (H 123) as [X _]; [left; reflexivity|]. apply X. cbn. auto.
  - exfalso. rewrite literal_cons in E. cbn [literal] in E. destruct (Hg [] (Forall2_nil _)) as [N H]. destruct (g []) as [|c t]; [contradiction|].
    injection E as <- E. destruct (H 123) as [X _]; [left; reflexivity|]. apply X. cbn. auto.
  - rewrite !literal_cons in E. inversion P1 as [|? ? Hn1 P1']; subst. inversion P2 as [|? ? Hn2 P2']; subst.
    cbn [app] in E. injection E as E. rewrite <- !app_assoc in E.
    assert (G : forall k i m1 m2, 0 < m1 -> 0 < m2 -> (Z.to_nat m1 <= k)%nat -> 0 <= i -> i + m1 <= n1 -> i + m2 <= n2 ->
      commas_between (map (fun i => literal 0 s1 (fun ix => f (i :: ix))) (zfrom i m1)) ++ [125] ++ r1 =
      commas_between (map (fun i => literal 0 s2 (fun ix => g (i :: ix))) (zfrom i m2)) ++ [125] ++ r2 ->
      m1 = m2 /\ s1 = s2 /\ r1 = r2 /\ forall j ix, i <= j < i + m1 -> in_bounds s1 ix -> f (j :: ix) = g (j :: ix)).
    { induction k as [|k IHk]; intros i m1 m2 Hm1 Hm2 Hk Hi B1 B2 EE; [lia|].
      rewrite (zfrom_cons i m1), (zfrom_cons i m2) in EE by lia. cbn [map commas_between] in EE.
      assert (C : forall n (h : Z -> bytes) r, exists t, (match map h (zfrom (i + 1) n) with [] => h i | _ :: _ => h i ++ str "," ++ commas_between (map h (zfrom (i + 1) n)) end) ++ [125] ++ r = h i ++ t /\
          bounded t /\ t = (if n <=? 0 then [] else 44 :: commas_between (map h (zfrom (i + 1) n))) ++ [125] ++ r).
      { intros n h r. destruct (Z.leb_spec n 0) as [L|L].
        - rewrite zfrom_nil by exact L. exists ([125] ++ r). split; [reflexivity|]. split; [right; reflexivity|reflexivity].
        - rewrite zfrom_cons by exact L. cbn [map]. eexists. split; [rewrite <- app_assoc; reflexivity|]. split; [left; reflexivity|]. reflexivity. }
      destruct (C (m1 - 1) (fun i => literal 0 s1 (fun ix => f (i :: ix))) r1) as (t1 & Q1 & T1 & V1).
      destruct (C (m2 - 1) (fun i => literal 0 s2 (fun ix => g (i :: ix))) r2) as (t2 & Q2 & T2 & V2).
      pose proof (eq_trans (eq_sym Q1) (eq_trans EE Q2)) as EQ. cbv beta in EQ.
      apply IH in EQ; [|exact P1'|exact P2'|intros ix Hb; apply Hf; constructor; [lia|exact Hb]|intros ix Hb; apply Hg; constructor; [lia|exact Hb]|exact T1|exact T2].
      destruct EQ as (Es & Ef & Et). rewrite V1, V2 in Et.
      destruct (Z.leb_spec (m1 - 1) 0) as [L1|L1], (Z.leb_spec (m2 - 1) 0) as [L2|L2]; cbn [app] in Et; try discriminate Et.
      - injection Et as Er. split; [lia|]. split; [exact Es|]. split; [exact Er|]. intros j ix Hj Hb. replace j with i by lia. apply Ef. exact Hb.
      - injection Et as Et. destruct (IHk (i + 1) (m1 - 1) (m2 - 1)) as (A1 & A2 & A3 & A4); [lia|lia|lia|lia|lia|lia|exact Et|].
        split; [lia|]. split; [exact Es|]. split; [exact A3|]. intros j ix Hj Hb. destruct (Z.eq_dec j i) as [->|Nj]; [apply Ef; exact Hb|apply A4; [lia|exact Hb]]. }
    destruct (G (Z.to_nat n1) 0 n1 n2) as (A1 & A2 & A3 & A4); try lia; [exact E|].
    split; [congruence|]. split; [|exact A3]. intros ix Hb. inversion Hb as [|? j ? jx Hj Hjx]; subst. apply A4; [lia|exact Hjx].
Qed.

(** ** Integers *)

Lemma show_int_plain n : plain (show_int n).
Proof.
  destruct (show_int_cases n) as (d & Hd & ->). destruct (decimal_digits _ _ Hd) as [H1 H2]. rewrite Forall_forall in H1.
  assert (D : forall c, In c d -> ~ In c (str "{}, ") /\ c <> 10).
  { intros c Hc. specialize (H1 c Hc). destruct (digit_cases c H1) as [E|[E|[E|[E|[E|[E|[E|[E|[E|E]]]]]]]]]; subst c; (split; [cbn; lia|lia]). }
  destruct (n <? 0); split; try assumption; try discriminate.
  intros c [<-|Hc]; [split; [cbn; lia|lia]|apply D; exact Hc].
Qed.
Lemma show_int_inj m n : show_int m = show_int n -> m = n.
Proof.
  intros E. pose proof (proj2 (scan_number_ok m)) as A. rewrite E, (proj2 (scan_number_ok n)) in A. injection A as A1 A2.
  destruct (Z.ltb_spec m 0), (Z.ltb_spec n 0); try discriminate A1; lia.
Qed.
Lemma plain_ink s : plain s -> ink s = s.
Proof.
  intros [_ H]. unfold ink. induction s as [|c t IH]; [reflexivity|]. cbn [filter]. destruct (H c) as [N1 N2]; [left; reflexivity|].
  replace ((c =? 32) || (c =? 10)) with false.
  - cbn [negb]. f_equal. apply IH. intros x Hx. apply H. right. exact Hx.
  - symmetry. apply orb_false_iff. rewrite !Z.eqb_neq. split; [intros ->; apply N1; cbn; auto|exact N2].
Qed.
Lemma ink_pad w s : ink (pad w s) = ink s.
Proof. unfold pad. rewrite ink_app, ink_blanks. reflexivity. Qed.
Lemma pad_length w s : 0 <= w -> Z.of_nat (length (pad w s)) = Z.max w (Z.of_nat (length s)).
Proof. intros H. unfold pad. rewrite app_length, repeat_length. lia. Qed.

Lemma log10_aux_ok : forall f m, 0 <= m < 2 ^ Z.of_nat f -> m < 10 ^ (1 + log10_aux f m) /\ 0 <= log10_aux f m.
Proof.
  induction f as [|f IH]; intros m H; cbn [log10_aux].
  - change (2 ^ Z.of_nat 0) with 1 in H. lia.
  - destruct (Z.ltb_spec m 10) as [L|L]; [lia|].
    assert (B : 0 <= m / 10 < 2 ^ Z.of_nat f).
    { split; [apply Z.div_pos; lia|]. apply Z.div_lt_upper_bound; [lia|]. rewrite Nat2Z.inj_succ, Z.pow_succ_r in H by lia. lia. }
    destruct (IH _ B) as [I1 I2]. split; [|lia]. rewrite Z.add_assoc, Z.add_comm, Z.add_1_r.
    replace (Z.succ (log10_aux f (m / 10)) + 1) with (Z.succ (1 + log10_aux f (m / 10))) by lia.
    rewrite ?Z.pow_succ_r by lia. pose proof (Z.div_mod m 10 ltac:(lia)). pose proof (Z.mod_pos_bound m 10 ltac:(lia)).
    match goal with |- _ < ?x => replace x with (10 * 10 ^ (1 + log10_aux f (m / 10))) end; [lia|].
    rewrite <- Z.pow_succ_r by lia. f_equal. lia.
Qed.
Lemma log10_ok m : 0 < m -> m < 10 ^ (1 + log10 m) /\ 0 <= log10 m.
Proof.
  intros H. apply log10_aux_ok. rewrite Nat2Z.inj_succ, Z2Nat.id by apply Z.log2_nonneg. split; [lia|]. apply Z.log2_spec. exact H.
Qed.

Lemma int_updates sg b : 1 < b -> forall l m s, 0 <= m -> Forall (printable sg b) l ->
  exists m' s', updates (int_printer sg b) (m, s) l = Ok (m', s') /\ m <= m' /\ (s = true -> s' = true) /\ Forall (fun v => Z.abs v <= m' /\ (v < 0 -> s' = true)) l.
Proof.
  intros Hb. induction l as [|v t IH]; intros m s Hm Hl; cbn [updates].
  - exists m, s. split; [reflexivity|]. split; [lia|]. split; [auto|constructor].
  - inversion Hl as [|? ? Hv Ht]; subst. cbn [int_printer pr_update]. unfold int_update.
    assert (Ea : int_abs sg b v = Ok (Z.abs v)).
    { unfold int_abs. destruct sg; cbn [negb].
      - cbn in Hv. replace (v =? - 2 ^ (b - 1)) with false by (symmetry; apply Z.eqb_neq; lia). rewrite andb_false_r. reflexivity.
      - cbn in Hv. f_equal. lia. }
    rewrite Ea. cbn [bind].
    assert (Em : (if m <? Z.abs v then (if sg then to_signed b (Z.abs v) else Z.abs v) else m) = Z.max m (Z.abs v)).
    { destruct (Z.ltb_spec m (Z.abs v)) as [L|L]; [|lia]. destruct sg; [|lia]. cbn in Hv. unfold to_signed.
      assert (P : 2 ^ b = 2 * 2 ^ (b - 1)) by (rewrite <- Z.pow_succ_r by lia; f_equal; lia). rewrite Z.mod_small by lia. lia. }
    rewrite Em. set (s1 := if sg && (v <? 0) then true else s).
    destruct (IH (Z.max m (Z.abs v)) s1) as (m' & s' & E & H1 & H2 & H3); [lia|exact Ht|].
    exists m', s'. split; [exact E|]. split; [lia|]. split; [intros ->; apply H2; unfold s1; destruct (_ && _); reflexivity|].
    constructor; [|exact H3]. split; [lia|]. intros N. apply H2. unfold s1. destruct sg; cbn in Hv; [|lia]. cbn [andb].
    replace (v <? 0) with true by (symmetry; apply Z.ltb_lt; exact N). reflexivity.
Qed.
Lemma int_width_pos st : 0 < int_width st.
Proof.
  destruct st as [m s]. unfold int_width. destruct (Z.ltb_spec 0 m) as [H|H]; [pose proof (proj2 (log10_ok m H))|]; destruct s; lia.
Qed.
Lemma int_aligned sg b l : 1 < b -> Forall (printable sg b) l ->
  exists st, updates (int_printer sg b) (pr_start (int_printer sg b)) l = Ok st /\ 0 < pr_width (int_printer sg b) st /\
    forall v, In v l -> Z.of_nat (length (pr_cell (int_printer sg b) st v)) = pr_width (int_printer sg b) st.
Proof.
  intros Hb Hl. destruct (int_updates sg b Hb l 0 false ltac:(lia) Hl) as (m & s & E & Hm & _ & H). exists (m, s). split; [exact E|].
  split; [apply int_width_pos|]. intros v Hv. rewrite Forall_forall in H. destruct (H v Hv) as [B N]. cbn [pr_cell pr_width int_printer].
  pose proof (int_width_pos (m, s)) as W. rewrite pad_length by lia.
  enough (Z.of_nat (length (show_int v)) <= int_width (m, s)) by lia.
  assert (D : forall x, 0 <= x <= m -> Z.of_nat (length (print x)) <= 1 + (if 0 <? m then log10 m else 0)).
  { intros x Hx. destruct (Z.ltb_spec 0 m) as [M|M].
    - destruct (log10_ok m M) as [L1 L2]. apply print_length; lia.
    - replace x with 0 by lia. cbn. lia. }
  unfold int_width, show_int. destruct (Z.ltb_spec v 0) as [V|V].
  - rewrite (N V). cbn [length]. specialize (D (- v) ltac:(lia)). lia.
  - specialize (D v ltac:(lia)). destruct s; lia.
Qed.

Lemma text_updates : forall l w, exists w', updates text_printer w l = Ok w' /\ w <= w' /\ Forall (fun s => Z.of_nat (length s) <= w') l /\
  (w' = w \/ exists s, In s l /\ w' = Z.of_nat (length s)).
Proof.
  induction l as [|s t IH]; intros w; cbn [updates].
  - exists w. split; [reflexivity|]. split; [lia|]. split; [constructor|auto].
  - cbn [text_printer pr_update bind]. destruct (IH (if w <? Z.of_nat (length s) then Z.of_nat (length s) else w)) as (w' & E & H1 & H2 & H3).
    exists w'. split; [exact E|]. destruct (Z.ltb_spec w (Z.of_nat (length s))) as [L|L].
    + split; [lia|]. split; [constructor; [lia|exact H2]|]. right. destruct H3 as [->|(u & Hu & ->)]; [exists s; split; [left; reflexivity|reflexivity]|exists u; split; [right; exact Hu|reflexivity]].
    + split; [lia|]. split; [constructor; [lia|exact H2]|]. destruct H3 as [->|(u & Hu & ->)]; [left; reflexivity|right; exists u; split; [right; exact Hu|reflexivity]].
Qed.
Lemma text_aligned l : (forall s, In s l -> (length s <= 20)%nat) ->
  exists st, updates text_printer (pr_start text_printer) l = Ok st /\ 0 <= pr_width text_printer st /\
    forall s, In s l -> Z.of_nat (length (pr_cell text_printer st s)) = pr_width text_printer st.
Proof.
  intros H. destruct (text_updates l 0) as (w & E & H1 & H2 & H3). exists w. split; [exact E|].
  assert (W : text_width w = w).
  { unfold text_width. replace (20 <? w) with false; [reflexivity|]. symmetry. apply Z.ltb_ge. destruct H3 as [->|(s & Hs & ->)]; [lia|]. specialize (H s Hs). lia. }
  cbn [pr_width pr_cell text_printer]. rewrite W. split; [exact H1|]. intros s Hs. rewrite Forall_forall in H2. specialize (H2 s Hs). rewrite pad_length by lia. lia.
Qed.

Lemma edge_one {A St} (pr : printer A St) global words (d : list A) n : let po := chosen global words in
  options_ok po -> n = Z.of_nat (length d) -> 2 < n -> o_threshold po < n -> o_edge_items po = 1 -> (forall st x, exists st', pr_update pr st x = Ok st') ->
  pretty_print pr global words (mk_cont [n] [1] [n - 1] row_major d) = UB.
Proof.
  intros po (O1 & O2 & O3) Hn H2 Ht He Hu. unfold pretty_print. cbn [ct_shape ct_data ct_strides].
  assert (EG : get_print_options global words = (po, mk_options 0 0 0 0)).
  { unfold get_print_options, po, chosen. cbn.
    destruct (o_edge_items words =? 0) eqn:E1, (o_line_width words =? 0) eqn:E2, (o_threshold words =? 0) eqn:E3, (o_precision words =? 0) eqn:E4;
      rewrite ?Z.eqb_eq in *; rewrite ?E1, ?E2, ?E3, ?E4; reflexivity. }
  rewrite EG. rewrite compute_size_prod, prod_cons, prod_nil, Z.mul_1_r.
  assert (Sz : forall x, 0 <= x < 2 ^ 31 -> to_size_t x = x) by (intros x Hx; unfold to_size_t; apply Z.mod_small; lia).
  rewrite (Sz (o_threshold po)) by exact O3. replace (o_threshold po <? n) with true by (symmetry; apply Z.ltb_lt; exact Ht).
  replace (n =? 0) with false by (symmetry; apply Z.eqb_neq; lia). rewrite He. change (to_size_t 1) with 1.
  cbn [recurser_run]. replace (Z.to_nat n) with (S (S (S (Z.to_nat (n - 3))))) by lia.
  assert (EO : forall i, element_offset [1] [i] = i) by (intros i; cbn; lia).
  assert (R : forall i, 0 <= i < n -> exists x, rdz d (element_offset [1] [i]) = Ok x).
  { intros i Hi. rewrite EO.
    destruct (nth_error d (Z.to_nat i)) as [x|] eqn:E; [exists x; apply rdz_ok; [lia|exact E]|]. apply nth_error_None in E. lia. }
  cbn [run_axis app]. replace (0 =? n - 1) with false by (symmetry; apply Z.eqb_neq; lia). cbn [Z.eqb andb negb]. rewrite andb_false_r.
  destruct (R 0) as [x0 E0]; [lia|]. cbn [bind]. rewrite E0. cbn [bind]. destruct (Hu (pr_start pr) x0) as [s0 U0]. rewrite U0. cbn [bind].
  change (0 + 1) with 1. replace (1 =? n - 1) with false by (symmetry; apply Z.eqb_neq; lia). change (to_size_t (1 * 2)) with 2.
  replace (2 <? n) with true by (symmetry; apply Z.ltb_lt; lia). cbn [andb Z.eqb Pos.eqb].
  destruct (R (n - 1)) as [x1 E1]; [lia|]. rewrite E1. cbn [bind]. destruct (Hu s0 x1) as [s1 U1]. rewrite U1. cbn [bind].
  replace (n - 1 + 1) with n by lia. replace (n =? n - 1) with false by (symmetry; apply Z.eqb_neq; lia). replace (n =? 1) with false by (symmetry; apply Z.eqb_neq; lia).
  rewrite EO.
  unfold rdz. replace (n <? 0) with false by (symmetry; apply Z.ltb_ge; lia). unfold rd.
  replace (nth_error d (Z.to_nat n)) with (@None A) by (symmetry; apply nth_error_None; lia). reflexivity.
Qed.

(** Cases *)
Definition row (d : list Z) : cont Z := mk_cont [Z.of_nat (length d)] [1] [Z.of_nat (length d) - 1] row_major d.
Definition square (d : list Z) : cont Z := mk_cont [2; 2] [2; 1] [2; 1] row_major d.
Definition none : options := mk_options 0 0 0 0.
Lemma square_elt a b c d ix : in_bounds [2; 2] ix -> elt (square [a; b; c; d]) ix = Ok (nth (Z.to_nat (2 * nth 0 ix 0 + nth 1 ix 0)) [a; b; c; d] 0).
Proof.
  intros H. inversion H as [|? i ? l Hi Hl]; subst. inversion Hl as [|? j ? l' Hj Hl']; subst. inversion Hl'; subst.
  assert (i = 0 \/ i = 1) as [ -> | -> ] by lia; assert (j = 0 \/ j = 1) as [ -> | -> ] by lia; reflexivity.
Qed.

Lemma empty_lemma {A St} (pr : printer A St) global words (c : cont A) : prod (ct_shape c) = 0 ->
  pretty_print pr global words c = Ok (str "{}", mk_options 0 0 0 0).
Proof.
  intros H. unfold pretty_print. rewrite compute_size_prod, H. cbn [Z.eqb]. unfold get_print_options.
  destruct words as [a b d e]; cbn [o_edge_items o_line_width o_threshold o_precision].
  destruct (Z.eqb_spec a 0), (Z.eqb_spec b 0), (Z.eqb_spec d 0), (Z.eqb_spec e 0); subst; reflexivity.
Qed.
