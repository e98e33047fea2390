(** Proofs about CSV, continued: matrices and the round trip. *)
From Coq Require Import List ZArith Lia Bool.
From Verif Require Import Prelude PreludeFacts Strides_Model Strides_Spec Strides_Proofs Broadcast_Spec Stepper_Model
  Stepper_Spec Container_Model Container_Spec Container_Proofs Access_Model Npy_Model Npy_Spec Npy_Proofs
  Csv_Model Csv_Spec Csv_Proofs Csv2_Proofs.
Import ListNotations.
Open Scope Z_scope.

(** * Matrices *)
Lemma nth_concat {A} (c : nat) (vs : list (list A)) : Forall (fun r => length r = c) vs -> forall i j, (i < length vs)%nat -> (j < c)%nat ->
  nth_error (concat vs) (i * c + j) = nth_error (nth i vs []) j.
Proof.
  induction 1 as [|r vs Hr H IH]; intros i j Hi Hj; cbn in Hi; [lia|]. cbn [concat]. destruct i as [|i].
  - cbn. apply nth_error_app1. lia.
  - rewrite nth_error_app2 by nia. cbn [nth]. rewrite <- IH by lia. f_equal. nia.
Qed.
Lemma concat_length_eq {A} (c : nat) (vs : list (list A)) : Forall (fun r => length r = c) vs -> length (concat vs) = (length vs * c)%nat.
Proof. induction 1 as [|r vs Hr H IH]; [reflexivity|]. cbn. rewrite app_length, IH. lia. Qed.
Lemma matrix_rows {A} (f : Z -> Z -> A) r c : Forall (fun row => length row = Z.to_nat c) (matrix f r c).
Proof. apply Forall_forall. intros row H. unfold matrix in H. apply in_map_iff in H. destruct H as (i & <- & _). unfold row_of. rewrite map_length, seq_length. reflexivity. Qed.
Lemma matrix_length {A} (f : Z -> Z -> A) r c : length (matrix f r c) = Z.to_nat r.
Proof. unfold matrix. rewrite map_length, seq_length. reflexivity. Qed.
Lemma last_const {A} (z d : A) l : Forall (fun x => x = z) l -> l <> [] -> last l d = z.
Proof. intros H Hn. destruct (@exists_last _ l Hn) as (l' & a & ->). rewrite last_last. apply Forall_app in H. destruct H as [_ H]. inversion H; assumption. Qed.

Lemma back_len st sh : length (spec_backstrides st sh) = length sh.
Proof. unfold spec_backstrides. rewrite map_length, seq_length. reflexivity. Qed.

Lemma result_matrix {T} (f : Z -> Z -> T) r c : 0 < r -> 0 < c ->
  exists t, csv_result (matrix f r c) = Ok t /\ is_matrix t r c f.
Proof.
  intros Hr Hc. unfold csv_result. rewrite matrix_length, Z2Nat.id by lia. rewrite (concat_length_eq _ _ (matrix_rows f r c)), matrix_length.
  assert (EL : last (map (fun row : list T => Z.of_nat (length row)) (matrix f r c)) 0 = c).
  { apply last_const.
    - pose proof (matrix_rows f r c) as HM. induction HM as [|row l E HM IH]; cbn; constructor; [lia|exact IH].
    - intros E. apply map_eq_nil in E. pose proof (matrix_length f r c) as EM. rewrite E in EM. cbn in EM. lia. }
  rewrite EL. cbn [prod]. replace (Z.of_nat (Z.to_nat r * Z.to_nat c) =? prod [r; c]) with true.
  2: { symmetry. apply Z.eqb_eq. rewrite !prod_cons, prod_nil. nia. }
  eexists. split; [reflexivity|].
  assert (SH : is_shape [r; c]) by (repeat constructor; lia).
  assert (OFF : forall ix, in_bounds [r; c] ix -> element_offset (row_strides [r; c]) ix = row_pos [r; c] ix).
  { intros ix H. rewrite element_offset_same by (rewrite row_strides_length; apply in_bounds_length; exact H). apply dot_row. exact H. }
  split; [|split; [reflexivity|split; [reflexivity|]]].
  - split; [exact SH|]. split; [apply row_strides_length|]. split; [apply back_len|]. split.
    + cbn [ct_data ct_shape]. rewrite (concat_length_eq _ _ (matrix_rows f r c)), matrix_length. rewrite !prod_cons, prod_nil. nia.
    + exists row_major. split; [left; reflexivity|]. split; [reflexivity|]. exact OFF.
  - intros i j Hi Hj. unfold elt. cbn [ct_data ct_strides]. rewrite OFF by (repeat constructor; lia). apply rdz_ok.
    + cbn [row_pos]. rewrite prod_cons, prod_nil. nia.
    + cbn [row_pos]. rewrite prod_cons, prod_nil. replace (Z.to_nat _) with (Z.to_nat i * Z.to_nat c + Z.to_nat j)%nat by nia.
      rewrite (nth_concat _ _ (matrix_rows f r c)) by (rewrite ?matrix_length; lia). unfold matrix.
      rewrite (nth_indep _ [] (row_of f c 0)) by (rewrite map_length, seq_length; lia). rewrite map_nth, seq_nth by lia. unfold row_of.
      rewrite nth_error_map. rewrite (nth_error_nth' _ 0%nat) by (rewrite seq_length; lia). rewrite seq_nth by lia. cbn [option_map Nat.add].
      rewrite !Z2Nat.id by lia. reflexivity.
Qed.

Section Read.
Context {T : Type}.
Variable cast : bytes -> res T.
Notation casts := (Forall2 (fun cell v => cast cell = Ok v)).

Lemma row_nonempty d mark limit body rows : holds d mark limit body rows -> Forall (fun cells => cells <> []) rows.
Proof. induction 1 as [| | limit l ls cells rows Hu (_ & _ & Hr) Hlim H IH|]; try constructor; auto. intros ->. apply Hr. reflexivity. Qed.

Lemma load_matrix d skip max mark text rows r c f : csv_file d skip max mark text rows -> 0 < r ->
  Forall2 casts rows (matrix f r c) -> exists t, load_csv cast d skip max mark text = Ok t /\ is_matrix t r c f.
Proof.
  intros HF Hr HV. rewrite (load_ok cast d skip max mark text rows _ HF HV). apply result_matrix; [exact Hr|].
  destruct HF as (head & body & _ & _ & _ & HB). apply row_nonempty in HB. pose proof (matrix_length f r c) as EL.
  pose proof (matrix_rows f r c) as HR. destruct HV as [|cells vs rows vss Hc HV]; [cbn in EL; lia|].
  inversion HB as [|? ? Hn _]; subst. inversion HR as [|? ? Hl _]; subst. apply Forall2_length in Hc. destruct cells; [contradiction|]. cbn in Hc. lia.
Qed.
Lemma load_empty d skip max mark text : csv_file d skip max mark text [] ->
  exists t, load_csv cast d skip max mark text = Ok t /\ ct_shape t = [0; 0] /\ ct_data t = [].
Proof. intros HF. rewrite (load_ok cast d skip max mark text [] [] HF) by constructor. eexists. split; [reflexivity|]. split; reflexivity. Qed.
Lemma load_rejects d skip max mark text rows vs : csv_file d skip max mark text rows -> Forall2 casts rows vs ->
  length (concat rows) <> (length rows * length (last rows []))%nat -> load_csv cast d skip max mark text = Throw runtime_error.
Proof.
  intros HF HV HN. rewrite (load_ok cast d skip max mark text rows vs HF HV). unfold csv_result.
  assert (E1 : length (concat vs) = length (concat rows)).
  { clear - HV. induction HV as [|c v rows vs H HV IH]; [reflexivity|]. cbn. rewrite !app_length, IH. apply Forall2_length in H. lia. }
  assert (E2 : length vs = length rows) by (symmetry; eapply Forall2_length; exact HV).
  assert (E3 : last (map (fun r => Z.of_nat (length r)) vs) 0 = Z.of_nat (length (last rows []))).
  { clear - HV. induction HV as [|c v rows vs H HV IH]; [reflexivity|]. apply Forall2_length in H. destruct HV; [cbn; lia|]. exact IH. }
  rewrite E1, E2, E3. rewrite !prod_cons, prod_nil. destruct (Z.eqb_spec (Z.of_nat (length (concat rows))) (Z.of_nat (length rows) * (Z.of_nat (length (last rows [])) * 1))) as [E|E]; [|reflexivity].
  exfalso. apply HN. nia.
Qed.

Lemma body_bad d skip max mark limit body allrows : holds d mark limit body allrows -> Forall (fun l => ~ In 10 l) body ->
  forall rows vs okc okv bad more rest x, allrows = rows ++ (okc ++ bad :: more) :: rest -> Forall2 casts rows vs -> casts okc okv -> cast bad = Throw x ->
  forall text fuel data nr nc, text_of body text -> (length text < fuel)%nat -> 0 <= nr -> limit = remaining max nr ->
  load_lines cast fuel d skip max mark text (mk_load data nr nc skip) = Throw x.
Proof.
  intros H. induction H as [limit|limit l ls rows0 Hc H IH|limit l ls cells rows0 Hu Hr Hlim H IH|l ls Hu];
    intros HN rows vs okc okv bad more rest x ER HV Hok Hx text fuel data nr nc HT Hf Hnr HL; (destruct fuel as [|fuel]; [lia|]); cbn [load_lines].
  - destruct rows; discriminate.
  - inversion HN as [|? ? Hl HN']; subst. destruct (text_cons _ _ _ HT Hl) as (text1 & G & HT1 & L1). rewrite G. cbn [ld_nhead].
    rewrite Z.ltb_irrefl. rewrite (starts_comment _ _ Hc). cbn [bind]. eapply IH; eauto. lia.
  - inversion HN as [|? ? Hl HN']; subst. destruct (text_cons _ _ _ HT Hl) as (text1 & G & HT1 & L1). rewrite G. cbn [ld_nhead].
    rewrite Z.ltb_irrefl. rewrite (starts_unlike _ _ Hu). cbn [bind ld_nbrow ld_data].
    assert (B : (0 <? max) && (max <=? nr) = false).
    { unfold remaining in Hlim. destruct (Z.ltb_spec 0 max); [|reflexivity]. cbn. apply Z.leb_gt. destruct (Z_le_gt_dec max nr); [|lia].
      exfalso. apply Hlim. f_equal. lia. }
    rewrite B. destruct Hr as (E & HD & HLast). rewrite E at 1 2. destruct rows as [|cs rows].
    + cbn [app] in ER. injection ER as -> ->. rewrite (row_loop_bad cast d okc okv bad more x Hok Hx HD HLast) by lia. reflexivity.
    + cbn [app] in ER. injection ER as -> ->. inversion HV as [|? v ? vs' Hv HV']; subst.
      rewrite (row_loop cast d cs v Hv HD HLast) by lia. cbn [bind]. eapply IH; eauto; [lia|lia|].
      unfold remaining. destruct (0 <? max); [|reflexivity]. cbn [option_map]. f_equal. lia.
  - destruct rows; discriminate.
Qed.
Lemma load_bad d skip max mark text rows vs okc okv bad more rest x :
  csv_file d skip max mark text (rows ++ (okc ++ bad :: more) :: rest) -> Forall2 casts rows vs -> casts okc okv -> cast bad = Throw x ->
  load_csv cast d skip max mark text = Throw x.
Proof.
  intros (head & body & HT & HN & HS & HB) HV Hok Hx. apply Forall_app in HN. destruct HN as [HN1 HN2].
  destruct (head_loop cast d skip max mark head body text HT HN1 (S (length text)) [] 0 0 0) as (f & t & A & B & C); [lia|lia|].
  unfold load_csv. rewrite C, Z.add_0_l. destruct HS as [HS|[ -> HS]].
  - rewrite HS. rewrite (body_bad d skip max mark (limit_of max) body _ HB HN2 rows vs okc okv bad more rest x eq_refl HV Hok Hx t f [] 0 0 A B); [reflexivity|lia|apply limit_remaining].
  - inversion HB as [limit E1 E2 E3| | |]. destruct rows; discriminate.
Qed.
End Read.

(** * The round trip *)
Lemma join_first d cs : cs <> [] -> exists r, join d cs = hd [] cs ++ r.
Proof. destruct cs as [|c [|c2 cs]]; intros H; [contradiction| |]; cbn; [exists []; symmetry; apply app_nil_r|eauto]. Qed.
Lemma unlike_app mark s r : unlike mark s -> unlike mark (s ++ r).
Proof.
  intros (k & a & b & H1 & H2 & H3). exists k, a, b. split; [exact H1|]. split; [|exact H3]. rewrite nth_error_app1; [exact H2|].
  apply nth_error_Some. rewrite H2. discriminate.
Qed.
Lemma join_no d x cs : d <> x -> Forall (fun c => ~ In x c) cs -> ~ In x (join d cs).
Proof.
  intros Hd. induction 1 as [|c cs Hc H IH]; [intros []|]. cbn [join]. destruct cs as [|c2 cs]; [exact Hc|]. intros HI. apply in_app_or in HI.
  destruct HI as [HI|[HI|HI]]; [exact (Hc HI)|exact (Hd HI)|exact (IH HI)].
Qed.
Lemma holds_rows d mark rows : Forall (fun cells => unlike mark (join d cells) /\ Forall (fun c => ~ In d c) cells /\ last cells [] <> []) rows ->
  forall limit, (forall n, limit = Some n -> (length rows <= n)%nat) -> holds d mark limit (map (join d) rows) rows.
Proof.
  induction 1 as [|cells rows (H1 & H2 & H3) H IH]; intros limit Hlim; cbn [map]; [constructor|]. apply holds_row.
  - exact H1.
  - split; [reflexivity|]. split; [exact H2|exact H3].
  - intros E. specialize (Hlim _ E). cbn in Hlim. lia.
  - apply IH. intros n E. destruct limit as [m|]; [|discriminate]. cbn in E. injection E as <-. specialize (Hlim m eq_refl). cbn in Hlim. lia.
Qed.

Section Round.
Context {V : Type}.
Variables (show : V -> bytes) (cast : bytes -> res V) (mark : bytes) (max : Z).
Variables (r c : Z) (e : sexp V) (v : Z -> Z -> V).
Hypothesis Hr : 0 < r.
Hypothesis Hc : 0 < c.
Hypothesis Hok : operands_ok [r; c] e.
Hypothesis Hv : forall i j, 0 <= i < r -> 0 <= j < c -> x_value [i; j] e = Ok (v i j).
Hypothesis Hshow : forall i j, 0 <= i < r -> 0 <= j < c -> cell_text (show (v i j)) /\ cast (show (v i j)) = Ok (v i j).
Hypothesis Hmark : forall i, 0 <= i < r -> unlike mark (show (v i 0)).
Hypothesis Hmax : max <= 0 \/ r <= max.

Let cells : list (list bytes) := map (map show) (matrix v r c).

Lemma cells_in cs : In cs cells -> exists i, 0 <= i < r /\ cs = map (fun j => show (v i (Z.of_nat j))) (seq 0 (Z.to_nat c)).
Proof.
  unfold cells, matrix. rewrite map_map. intros H. apply in_map_iff in H. destruct H as (i & <- & Hi). apply in_seq in Hi. exists (Z.of_nat i).
  split; [lia|]. unfold row_of. rewrite map_map. reflexivity.
Qed.

Lemma round_lemma : exists text t, dump_csv show [r; c] e = Ok text /\ load_csv cast 44 0 max mark text = Ok t /\ is_matrix t r c v.
Proof.
  rewrite (dump_ok show r c e v) by (auto; lia). replace (c =? 0) with false by (symmetry; apply Z.eqb_neq; lia).
  eexists. enough (exists t, load_csv cast 44 0 max mark (terminated (map (fun row => join 44 (map show row)) (matrix v r c))) = Ok t /\ is_matrix t r c v) as (t & H1 & H2).
  { exists t. split; [reflexivity|]. split; [exact H1|exact H2]. }
  apply (load_matrix cast 44 0 max mark _ cells r c v); [|exact Hr|].
  - exists [], (map (join 44) cells). cbn [app length].
    assert (CT : forall cs, In cs cells -> Forall cell_text cs /\ cs <> [] /\ unlike mark (hd [] cs)).
    { intros cs H. destruct (cells_in cs H) as (i & Hi & ->). split; [|split].
      - apply Forall_forall. intros s Hs. apply in_map_iff in Hs. destruct Hs as (j & <- & Hj). apply in_seq in Hj. apply Hshow; lia.
      - destruct (Z.to_nat c) eqn:E; [lia|discriminate].
      - destruct (Z.to_nat c) eqn:E; [lia|]. cbn. apply Hmark. exact Hi. }
    split; [left; f_equal; unfold cells; rewrite !map_map; reflexivity|]. split; [|split; [left; reflexivity|]].
    + apply Forall_forall. intros l Hl. apply in_map_iff in Hl. destruct Hl as (cs & <- & Hcs). destruct (CT cs Hcs) as (H1 & _). apply join_no; [discriminate|].
      eapply Forall_impl; [|exact H1]. intros s (_ & _ & Hs). exact Hs.
    + apply holds_rows.
      * apply Forall_forall. intros cs Hcs. destruct (CT cs Hcs) as (H1 & H2 & H3). split; [|split].
        -- destruct (join_first 44 cs H2) as (rr & ->). apply unlike_app. exact H3.
        -- eapply Forall_impl; [|exact H1]. intros s (_ & Hs & _). exact Hs.
        -- destruct (@exists_last _ cs H2) as (l' & a & ->). rewrite last_last. apply Forall_app in H1. destruct H1 as [_ H1]. inversion H1 as [|? ? (Hs & _) _]; assumption.
      * intros n E. unfold limit_of in E. destruct (Z.ltb_spec 0 max) as [Hm|Hm]; [|discriminate]. injection E as <-. unfold cells. rewrite map_length, matrix_length. lia.
  - unfold cells, matrix. rewrite map_map. clear cells.
    assert (H : forall l, (forall i, In i l -> (i < Z.to_nat r)%nat) -> Forall2 (Forall2 (fun cell w => cast cell = Ok w)) (map (fun x => map show (row_of v c x)) l) (map (row_of v c) l)).
    { intros l. induction l as [|i l IH]; intros HI; cbn [map]; constructor; [|apply IH; intros; apply HI; right; assumption].
      unfold row_of. rewrite map_map. assert (Hi : (i < Z.to_nat r)%nat) by (apply HI; left; reflexivity).
      assert (HJ : forall j, In j (seq 0 (Z.to_nat c)) -> (j < Z.to_nat c)%nat) by (intros j Hj; apply in_seq in Hj; lia).
      revert HJ. generalize (seq 0 (Z.to_nat c)). intros js. induction js as [|j js IHj]; intros HJ; cbn [map]; constructor.
      - apply Hshow; [lia|]. specialize (HJ j (or_introl eq_refl)). lia.
      - apply IHj. intros; apply HJ; right; assumption. }
    apply H. intros i Hi. apply in_seq in Hi. lia.
Qed.
End Round.

(** * Numbers *)
Lemma show_int_cases n : exists d, decimal (Z.abs n) d /\ show_int n = (if n <? 0 then 45 :: d else d).
Proof.
  unfold show_int. destruct (Z.ltb_spec n 0) as [H|H].
  - exists (print (- n)). split; [|reflexivity]. replace (Z.abs n) with (- n) by lia. apply print_ok. lia.
  - exists (print n). split; [|reflexivity]. replace (Z.abs n) with n by lia. apply print_ok. exact H.
Qed.
Lemma digit_head d n : decimal n d -> exists c s, d = c :: s /\ is_digit c = true.
Proof. intros H. destruct (decimal_digits n d H) as [H1 H2]. destruct d as [|c s]; [contradiction|]. inversion H1; subst. eauto. Qed.
Lemma scan_number_ok n : skip_space (show_int n) = show_int n /\ scan_number (show_int n) = (n <? 0, Some (Z.abs n)).
Proof.
  destruct (show_int_cases n) as (d & Hd & ->). pose proof (scan_ok _ _ Hd) as Hs. destruct (digit_head _ _ Hd) as (c & s & -> & Hc).
  destruct (n <? 0).
  - split; [reflexivity|]. unfold scan_number. cbn [scan_sign]. rewrite Hc, Hs. reflexivity.
  - split.
    + cbn [skip_space]. destruct (digit_cases c Hc) as [E|[E|[E|[E|[E|[E|[E|[E|[E|E]]]]]]]]]; subst c; reflexivity.
    + unfold scan_number. assert (E : scan_sign (c :: s) = (false, c :: s)).
      { destruct (digit_cases c Hc) as [E|[E|[E|[E|[E|[E|[E|[E|[E|E]]]]]]]]]; subst c; reflexivity. }
      rewrite E, Hc, Hs. reflexivity.
Qed.
Lemma show_int_cell n : cell_text (show_int n) /\ unlike [35] (show_int n).
Proof.
  destruct (show_int_cases n) as (d & Hd & ->). destruct (decimal_digits _ _ Hd) as [H1 H2]. rewrite Forall_forall in H1.
  assert (A : ~ In 44 d) by (intros H; specialize (H1 _ H); discriminate). assert (B : ~ In 10 d) by (intros H; specialize (H1 _ H); discriminate).
  destruct (n <? 0).
  - split; [split; [discriminate|]|].
    + split; intros [H|H]; try discriminate; auto.
    + exists 0%nat, 35, 45. repeat split. discriminate.
  - split; [split; [exact H2|split; assumption]|]. destruct d as [|c s]; [contradiction|]. exists 0%nat, 35, c. repeat split. intros <-.
    specialize (H1 35 (or_introl eq_refl)). discriminate.
Qed.
Lemma sign_abs n : (if n <? 0 then - Z.abs n else Z.abs n) = n.
Proof. destruct (Z.ltb_spec n 0); lia. Qed.
Lemma cast_signed_ok lo hi n : lo <= n <= hi -> cast_signed lo hi (show_int n) = Ok n.
Proof.
  intros H. unfold cast_signed. destruct (scan_number_ok n) as [-> ->]. rewrite sign_abs.
  replace (lo <=? n) with true by (symmetry; apply Z.leb_le; lia). replace (n <=? hi) with true by (symmetry; apply Z.leb_le; lia). reflexivity.
Qed.
Lemma cast_stream_ok lo hi n : lo <= n <= hi -> cast_stream lo hi (show_int n) = Ok n.
Proof.
  intros H. unfold cast_stream. destruct (scan_number_ok n) as [-> E]. destruct (show_int_cell n) as [[Hn _] _].
  destruct (show_int n) as [|c s]; [contradiction|]. rewrite E, sign_abs. f_equal. lia.
Qed.
Lemma cast_ulong_ok n : 0 <= n < 2 ^ 64 -> cast_ulong (show_int n) = Ok n.
Proof.
  intros H. unfold cast_ulong. destruct (scan_number_ok n) as [-> ->]. replace (n <? 0) with false by (symmetry; apply Z.ltb_ge; lia).
  replace (Z.abs n) with n by lia. replace (2 ^ 64 <=? n) with false by (symmetry; apply Z.leb_gt; lia). reflexivity.
Qed.
Lemma cast_uint_ok n : 0 <= n < 2 ^ 32 -> cast_uint (show_int n) = Ok n.
Proof.
  intros H. unfold cast_uint. rewrite cast_ulong_ok by (change (2 ^ 32) with 4294967296 in *; change (2 ^ 64) with 18446744073709551616; lia). cbn [bind].
  rewrite Z.mod_small by lia. reflexivity.
Qed.

(** * Strings *)
Lemma first_blanks a s : first_not_blank (repeat 32 a ++ s) = option_map (Nat.add a) (first_not_blank s).
Proof. induction a as [|a IH]; [cbn [repeat app]; destruct (first_not_blank s); reflexivity|]. cbn. rewrite IH. destruct (first_not_blank s); reflexivity. Qed.
Lemma last_app s1 s2 : last_not_blank (s1 ++ s2) =
  match last_not_blank s2 with Some i => Some (length s1 + i)%nat | None => last_not_blank s1 end.
Proof. induction s1 as [|c s1 IH]; cbn; [destruct (last_not_blank s2); reflexivity|]. rewrite IH. destruct (last_not_blank s2); reflexivity. Qed.
Lemma last_blanks b : last_not_blank (repeat 32 b) = None.
Proof. induction b as [|b IH]; [reflexivity|]. cbn. rewrite IH. reflexivity. Qed.
Lemma trim_lemma a b s : unpadded s -> cast_string (repeat 32 a ++ s ++ repeat 32 b) = Ok (s ++ repeat 32 (Nat.min a b)).
Proof.
  intros (Hn & Hh & Hl). unfold cast_string. rewrite first_blanks.
  assert (F : first_not_blank (s ++ repeat 32 b) = Some 0%nat).
  { destruct s as [|c s]; [contradiction|]. cbn in Hh |- *. destruct (Z.eqb_spec c 32); [contradiction|reflexivity]. }
  rewrite F. cbn [option_map]. rewrite Nat.add_0_r.
  assert (LN : last_not_blank (repeat 32 a ++ s ++ repeat 32 b) = Some (a + (length s - 1))%nat).
  { rewrite last_app, last_app, last_blanks. destruct (@exists_last _ s Hn) as (s' & x & ->). rewrite last_last in Hl. rewrite last_app. cbn [last_not_blank].
    destruct (Z.eqb_spec x 32); [contradiction|]. rewrite repeat_length, app_length. cbn. f_equal. lia. }
  rewrite LN. unfold substr. f_equal. rewrite skipn_app, skipn_all2 by (rewrite repeat_length; lia). rewrite repeat_length, Nat.sub_diag. cbn [app skipn].
  assert (0 < length s)%nat by (destruct s; [contradiction|cbn; lia]).
  rewrite firstn_app, firstn_all2 by lia. f_equal. replace (a + (length s - 1) + 1 - length s)%nat with a by lia.
  clear. revert b. induction a as [|a IH]; intros [|b]; cbn; try reflexivity. rewrite IH. reflexivity.
Qed.
Lemma trim_blank n : cast_string (repeat 32 n) = Ok (repeat 32 n).
Proof. unfold cast_string. rewrite <- (app_nil_r (repeat 32 n)) at 1. rewrite first_blanks. reflexivity. Qed.
Lemma trim_none s : unpadded s -> cast_string s = Ok s.
Proof. intros H. pose proof (trim_lemma 0 0 s H) as E. cbn in E. rewrite !app_nil_r in E. exact E. Qed.
