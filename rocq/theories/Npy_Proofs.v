From Coq Require Import String Ascii List ZArith Bool Lia Arith.
From Verif Require Import Prelude PreludeFacts Strides_Model Strides_Spec Container_Model Container_Spec Slice_Model Access_Model Container_Proofs Npy_Model Npy_Spec.
Import ListNotations.
Open Scope Z_scope.

(** ** Decimal numbers *)

Lemma print_aux_ok : forall f n, 0 <= n < 2 ^ Z.of_nat f -> (0 < f)%nat -> decimal n (print_aux f n).
Proof.
  induction f as [|f IH]; intros n Hn Hf; [lia|]. cbn [print_aux]. destruct (n <? 10) eqn:E.
  - apply Z.ltb_lt in E. constructor. lia.
  - apply Z.ltb_ge in E. rewrite (Z.div_mod n 10) at 1 by lia. apply decimal_more.
    + apply Z.div_str_pos. lia.
    + rewrite Nat2Z.inj_succ, Z.pow_succ_r in Hn by lia. apply IH.
      * split; [apply Z.div_pos; lia|]. apply Z.div_lt_upper_bound; lia.
      * destruct f; [|lia]. cbn in Hn. lia.
    + apply Z.mod_pos_bound. lia.
Qed.
Lemma print_ok n : 0 <= n -> decimal n (print n).
Proof.
  intros Hn. apply print_aux_ok; [|lia]. split; [exact Hn|]. rewrite Nat2Z.inj_succ, Z2Nat.id by apply Z.log2_nonneg.
  destruct (Z.eq_dec n 0) as [ -> |N]; [cbn; lia|]. apply Z.log2_spec. lia.
Qed.
Lemma digit_char d : 0 <= d < 10 -> is_digit (48 + d) = true.
Proof. intros H. unfold is_digit. apply andb_true_iff. split; apply Z.leb_le; lia. Qed.
Lemma decimal_digits n s : decimal n s -> Forall (fun c => is_digit c = true) s /\ s <> [].
Proof.
  induction 1 as [d H|n s d Hn H [IH1 IH2] Hd].
  - split; [constructor; [apply digit_char; exact H|constructor]|discriminate].
  - split; [apply Forall_app; split; [exact IH1|constructor; [apply digit_char; exact Hd|constructor]]|]. destruct s; discriminate.
Qed.
Lemma decimal_nonneg n s : decimal n s -> 0 <= n.
Proof. induction 1; lia. Qed.
Lemma scan_app acc s c r : Forall (fun c => is_digit c = true) s -> is_digit c = true ->
  scan_digits acc (s ++ c :: r) = scan_digits (scan_digits acc s * 10 + (c - 48)) r.
Proof.
  intros H Hc. revert acc. induction H as [|x s Hx H IH]; intros acc; cbn [app scan_digits]; [rewrite Hc; reflexivity|]. rewrite Hx. apply IH.
Qed.
Lemma scan_ok n s : decimal n s -> scan_digits 0 s = n.
Proof.
  induction 1 as [d H|n s d Hn H IH Hd].
  - cbn [scan_digits]. rewrite digit_char by exact H. lia.
  - rewrite scan_app; [cbn [scan_digits]; rewrite IH; lia|apply (decimal_digits n s H)|apply digit_char; exact Hd].
Qed.
Lemma digit_cases c : is_digit c = true -> c = 48 \/ c = 49 \/ c = 50 \/ c = 51 \/ c = 52 \/ c = 53 \/ c = 54 \/ c = 55 \/ c = 56 \/ c = 57.
Proof. unfold is_digit. intros H. apply andb_true_iff in H. destruct H as [H1 H2]. apply Z.leb_le in H1. apply Z.leb_le in H2. lia. Qed.
Lemma scan_size_ok n s : decimal n s -> n < 2 ^ 64 -> scan_size s = n.
Proof.
  intros H Hn. pose proof (decimal_digits n s H) as [Hd Hne]. pose proof (scan_ok n s H) as Hs. destruct s as [|c s]; [contradiction|].
  inversion Hd as [|? ? Hc _]; subst. unfold scan_size.
  assert (E : (let s0 := skip_space (c :: s) in match s0 with 45 :: s' => (true, s') | 43 :: s' => (false, s') | _ => (false, s0) end) = (false, c :: s)).
  { apply digit_cases in Hc. repeat (destruct Hc as [ -> |Hc]; [reflexivity|]). subst c. reflexivity. }
  cbv zeta in E |- *. rewrite E. destruct (2 ^ 64 <=? _) eqn:E2; [apply Z.leb_le in E2; lia|reflexivity].
Qed.

(** ** Text *)

Lemma back_snoc s c : back (s ++ [c]) = Ok c.
Proof. unfold back. rewrite rev_app_distr. reflexivity. Qed.
Lemma pop_snoc s c : pop_char (s ++ [c]) c = Ok s.
Proof. unfold pop_char. rewrite back_snoc. cbn [bind]. rewrite Z.eqb_refl, removelast_last. reflexivity. Qed.
Lemma unwrap_ok a s b : unwrap_s (a :: s ++ [b]) a b = Ok s.
Proof.
  unfold unwrap_s. change (a :: s ++ [b]) with ((a :: s) ++ [b]). rewrite back_snoc. cbn [bind app front]. rewrite !Z.eqb_refl. cbn [andb skipn length].
  rewrite app_length. cbn [length]. replace (S (length s + 1) - 2)%nat with (length s) by lia. rewrite firstn_app, Nat.sub_diag, firstn_all, app_nil_r. reflexivity.
Qed.
Lemma find_digits q p ds s : is_digit q = false -> Forall (fun c => is_digit c = true) ds ->
  find (q :: p) (ds ++ s) = option_map (fun n => (length ds + n)%nat) (find (q :: p) s).
Proof.
  intros Hq H. induction H as [|c ds Hc H IH]; cbn [app].
  - destruct (find (q :: p) s); reflexivity.
  - cbn [find prefixb]. destruct (q =? c) eqn:E; [apply Z.eqb_eq in E; congruence|]. cbn [andb]. rewrite IH. destruct (find (q :: p) s); reflexivity.
Qed.
Lemma filter_nospace s : Forall (fun c => is_digit c = true) s -> filter (fun c => negb (c =? 32)) s = s.
Proof.
  induction 1 as [|c s Hc H IH]; [reflexivity|]. cbn [filter]. destruct (c =? 32) eqn:E; [apply Z.eqb_eq in E; subst c; discriminate|]. cbn [negb]. rewrite IH. reflexivity.
Qed.
Lemma filter_spaces pad : filter (fun c => negb (c =? 32)) (repeat 32 pad) = [].
Proof. induction pad as [|n IH]; [reflexivity|exact IH]. Qed.

Lemma quote_digits : forall ds n, Forall (fun c => is_digit c = true) ds -> digits_then_quote n (ds ++ [39]) = (0 <? n + length ds)%nat.
Proof.
  induction ds as [|c ds IH]; intros n H; cbn [app].
  - cbn. rewrite Nat.add_0_r. reflexivity.
  - inversion H as [|? ? Hc H']; subst. assert (E : digits_then_quote n (c :: ds ++ [39]) = is_digit c && digits_then_quote (S n) (ds ++ [39])).
    { apply digit_cases in Hc. repeat (destruct Hc as [ -> |Hc]; [reflexivity|]). subst c. reflexivity. }
    rewrite E, Hc, IH by exact H'. cbn [andb length]. f_equal. lia.
Qed.

(** ** The shape *)

Fixpoint commas (ds : list bytes) : bytes :=
  match ds with [] => [] | x :: r => 44 :: x ++ commas r end.
Definition inner (ds : list bytes) : bytes :=
  match ds with [] => [] | [d] => d ++ [44] | d :: rest => d ++ commas rest end.
Definition digits (s : bytes) := Forall (fun c => is_digit c = true) s /\ s <> [].

Lemma commas_filter ds : Forall digits ds -> filter (fun c => negb (c =? 32)) (concat (map (fun x => str ", " ++ x) ds)) = commas ds.
Proof.
  induction 1 as [|d ds [Hd _] H IH]; [reflexivity|]. cbn [map concat]. rewrite !filter_app, IH, (filter_nospace d Hd). reflexivity.
Qed.
Lemma tuple_filter ds : Forall digits ds -> filter (fun c => negb (c =? 32)) (tuple_text ds) = 40 :: inner ds ++ [41].
Proof.
  intros H. destruct H as [|d ds [Hd _] H]; [reflexivity|]. destruct ds as [|e ds].
  - unfold tuple_text, inner. rewrite !filter_app, (filter_nospace d Hd), <- app_assoc. reflexivity.
  - change (tuple_text (d :: e :: ds)) with (str "(" ++ d ++ concat (map (fun x => str ", " ++ x) (e :: ds)) ++ str ")").
    rewrite !filter_app, (filter_nospace d Hd), commas_filter by exact H. unfold inner. rewrite <- app_assoc. reflexivity.
Qed.
Lemma split_digits d s : Forall (fun c => is_digit c = true) d ->
  split_commas (d ++ s) = (d ++ fst (split_commas s), snd (split_commas s)).
Proof.
  induction 1 as [|c d Hc H IH]; cbn [app split_commas]; [destruct (split_commas s); reflexivity|]. rewrite IH.
  destruct (c =? 44) eqn:E; [apply Z.eqb_eq in E; subst c; discriminate|reflexivity].
Qed.
Lemma split_inner_commas : forall ds, Forall digits ds -> split_commas (commas ds) = ([], ds).
Proof.
  induction 1 as [|d ds [Hd _] H IH]; [reflexivity|]. cbn [commas split_commas]. rewrite split_digits, IH by exact Hd. cbn [fst snd]. rewrite app_nil_r. reflexivity.
Qed.
Lemma extents_ok : forall sh ds d n, Forall2 decimal sh ds -> Forall (fun n => n < 2 ^ 64) sh -> decimal n d -> n < 2 ^ 64 ->
  parse_extents d ds = Ok (n :: sh).
Proof.
  intros sh ds d n H. revert d n. induction H as [|m e sh ds He H IH]; intros d n Hs Hd Hn; cbn [parse_extents].
  - destruct (decimal_digits n d Hd) as [_ Hne]. destruct d as [|c d]; [contradiction|]. rewrite (scan_size_ok n) by assumption. reflexivity.
  - inversion Hs as [|? ? Hm Hs']; subst. destruct (decimal_digits n d Hd) as [_ Hne]. destruct d as [|c d]; [contradiction|].
    rewrite (IH e m Hs' He Hm). cbn [bind]. rewrite (scan_size_ok n) by assumption. reflexivity.
Qed.
Lemma shape_ok sh ds : Forall2 decimal sh ds -> Forall (fun n => n < 2 ^ 64) sh ->
  (let '(t, ts) := split_commas (inner ds) in parse_extents t ts) = Ok sh.
Proof.
  intros H Hs. assert (HD : Forall digits ds) by (clear - H; induction H as [|n d sh ds Hd H IH]; constructor; [exact (decimal_digits n d Hd)|exact IH]).
  destruct H as [|n d sh ds Hd H]; [reflexivity|]. inversion Hs as [|? ? Hn Hs']; subst. inversion HD as [|? ? [Hdd _] HD']; subst. destruct ds as [|e ds].
  - cbn [inner]. rewrite split_digits by exact Hdd. cbn [split_commas fst snd]. rewrite app_nil_r. inversion H; subst.
    cbn [parse_extents]. destruct (decimal_digits n d Hd) as [_ Hne]. destruct d as [|c d]; [contradiction|].
    cbn [Z.eqb Pos.eqb snd parse_extents bind]. rewrite (scan_size_ok n) by assumption. reflexivity.
  - cbn [inner]. rewrite split_digits, split_inner_commas by assumption. cbn [fst snd]. rewrite app_nil_r. apply extents_ok; assumption.
Qed.

(** ** The header *)

Lemma digits_all sh ds : Forall2 decimal sh ds -> Forall digits ds.
Proof. induction 1 as [|n d sh ds Hd H IH]; constructor; [exact (decimal_digits n d Hd)|exact IH]. Qed.

Lemma find_zero p s : prefixb p s = true -> find p s = Some 0%nat.
Proof. intros H. destruct s; cbn [find]; rewrite H; reflexivity. Qed.

Definition comma : bytes := [44].
Definition part_d (e k : Z) (s : bytes) : bytes := str "'descr':'" ++ e :: k :: s ++ str "'".
Definition part_f (b : bool) : bytes := str "'fortran_order':" ++ (if b then str "True" else str "False").
Definition part_s (ds : list bytes) : bytes := str "'shape':(" ++ inner ds ++ str ")".

Lemma header_filter e k s (b : bool) ds pad : In e (str "<>|") -> In k (str "iufbc") -> Forall (fun c => is_digit c = true) s -> Forall digits ds ->
  filter (fun c => negb (c =? 32)) (str "{'descr': '" ++ (e :: k :: s) ++ str "', 'fortran_order': " ++ (if b then str "True" else str "False") ++
        str ", 'shape': " ++ tuple_text ds ++ str ", }" ++ repeat 32 pad) =
  123 :: (part_d e k s ++ [44] ++ part_f b ++ [44] ++ part_s ds ++ [44]) ++ [125].
Proof.
  intros He Hk Hs Hd. rewrite !filter_app, tuple_filter, filter_spaces, app_nil_r by exact Hd.
  assert (E : filter (fun c => negb (c =? 32)) (e :: k :: s) = e :: k :: s).
  { cbn in He, Hk. cbn [filter]. rewrite filter_nospace by exact Hs. destruct He as [ <- |[ <- |[ <- |[]]]]; destruct Hk as [ <- |[ <- |[ <- |[ <- |[ <- |[]]]]]]; reflexivity. }
  rewrite E. unfold part_d, part_f, part_s. change (filter _ (str "{'descr': '")) with (123 :: str "'descr':'").
  change (filter _ (str "', 'fortran_order': ")) with (str "'" ++ [44] ++ str "'fortran_order':").
  change (filter _ (str ", 'shape': ")) with ([44] ++ str "'shape':"). change (filter _ (str ", }")) with ([44] ++ [125]).
  replace (filter (fun c => negb (c =? 32)) (if b then str "True" else str "False")) with (if b then str "True" else str "False") by (destruct b; reflexivity).
  change (str "'shape':(") with (str "'shape':" ++ [40]). rewrite <- !app_assoc. cbn [app]. rewrite <- !app_assoc. reflexivity.
Qed.

Lemma find_descr e k s r : find (str "'descr'") (part_d e k s ++ r) = Some 0%nat.
Proof. apply find_zero. reflexivity. Qed.
Lemma find_after p e k s r : In e (str "<>|") -> In k (str "iufbc") -> Forall (fun c => is_digit c = true) s ->
  (p = str "'fortran_order'" \/ p = str "'shape'") ->
  find p (part_d e k s ++ comma ++ r) = option_map (fun n => (length (part_d e k s ++ comma) + n)%nat) (find p r).
Proof.
  intros He Hk Hs Hp. unfold part_d. rewrite <- !app_assoc. cbn in He, Hk.
  assert (E : forall t, find p (str "'descr':'" ++ e :: k :: t) = option_map (fun n => (11 + n)%nat) (find p t)).
  { intros t. destruct Hp as [ -> | -> ]; destruct He as [ <- |[ <- |[ <- |[]]]]; destruct Hk as [ <- |[ <- |[ <- |[ <- |[ <- |[]]]]]]; cbn -[find prefixb];
      cbn [find prefixb Z.eqb Pos.eqb andb]; match goal with |- context [find ?p t] => destruct (find p t); reflexivity end. }
  cbn [app]. rewrite E. rewrite <- app_assoc. assert (Ep : exists p', p = 39 :: p') by (destruct Hp as [ -> | -> ]; eexists; reflexivity). destruct Ep as [p' Ep].
  rewrite Ep, find_digits by (try exact Hs; reflexivity). rewrite <- Ep.
  assert (E2 : find p (str "'" ++ comma ++ r) = option_map (fun n => (2 + n)%nat) (find p r)).
  { destruct Hp as [ -> | -> ]; cbn -[find prefixb]; cbn [find prefixb Z.eqb Pos.eqb andb]; match goal with |- context [find ?p r] => destruct (find p r); reflexivity end. }
  rewrite E2. destruct (find p r) as [n|]; [|reflexivity]. cbn [option_map]. f_equal. rewrite !app_length. cbn.
  assert (X : length ((s ++ [39]) ++ comma) = (length s + 2)%nat) by (rewrite !app_length; cbn; lia). rewrite X. lia.
Qed.
Lemma find_shape b r : find (str "'shape'") (part_f b ++ comma ++ r) = option_map (fun n => (length (part_f b ++ comma) + n)%nat) (find (str "'shape'") r).
Proof.
  unfold part_f. destruct b; cbn -[find prefixb]; cbn [find prefixb Z.eqb Pos.eqb andb]; match goal with |- context [find ?p r] => destruct (find p r); reflexivity end.
Qed.

Lemma parse_header_ok t descr fortran sh pad h : type_text t descr -> npy_header descr fortran sh pad h -> Forall (fun n => n < 2 ^ 64) sh ->
  parse_header h = Ok (descr, fortran, sh).
Proof.
  intros Ht (ds & Hds & Eh) Hsh. inversion Ht as [t' e s He Hk Hs E1 E2]; subst t' descr. set (k := ty_kind t) in *. clearbody k.
  pose proof (decimal_digits _ _ Hs) as [Hdig Hne]. pose proof (digits_all _ _ Hds) as HD.
  unfold parse_header. rewrite Eh. rewrite !app_assoc. rewrite back_snoc. cbn [bind Z.eqb Pos.eqb negb]. rewrite removelast_last.
  rewrite <- !app_assoc. rewrite header_filter by assumption. rewrite unwrap_ok. cbn [bind]. fold comma.
  set (H := part_d e k s ++ comma ++ part_f fortran ++ comma ++ part_s ds ++ comma).
  assert (Fd : find (str "'descr'") H = Some 0%nat) by apply find_descr.
  assert (Ff : find (str "'fortran_order'") H = Some (length (part_d e k s ++ comma) + 0)%nat).
  { unfold H. rewrite find_after by (try assumption; left; reflexivity). rewrite find_zero; [reflexivity|]. destruct fortran; reflexivity. }
  assert (Fs : find (str "'shape'") H = Some (length (part_d e k s ++ comma) + (length (part_f fortran ++ comma) + 0))%nat).
  { unfold H. rewrite find_after by (try assumption; right; reflexivity). rewrite find_shape. rewrite find_zero; [reflexivity|]. reflexivity. }
  rewrite Fd, Ff, Fs. rewrite !Nat.add_0_r.
  assert (L1 : (0 < length (part_d e k s ++ comma))%nat) by (rewrite app_length; cbn; lia).
  assert (L2 : (0 < length (part_f fortran ++ comma))%nat) by (rewrite app_length; cbn; lia).
  destruct (_ <=? 0)%nat eqn:X1; [apply Nat.leb_le in X1; lia|]. clear X1.
  destruct (_ <=? _)%nat eqn:X1; [apply Nat.leb_le in X1; lia|]. clear X1. cbn [orb].
  rewrite Nat.sub_0_r. cbn [skipn].
  replace (length (part_d e k s ++ comma) + length (part_f fortran ++ comma) - length (part_d e k s ++ comma))%nat with (length (part_f fortran ++ comma)) by lia.
  assert (EH : H = (part_d e k s ++ comma) ++ (part_f fortran ++ comma) ++ (part_s ds ++ comma)) by (unfold H; rewrite <- !app_assoc; reflexivity).
  assert (S1 : firstn (length (part_d e k s ++ comma)) H = part_d e k s ++ comma).
  { rewrite EH, firstn_app, Nat.sub_diag, firstn_all. cbn [firstn]. apply app_nil_r. }
  assert (S2 : skipn (length (part_d e k s ++ comma)) H = (part_f fortran ++ comma) ++ (part_s ds ++ comma)).
  { rewrite EH, skipn_app, Nat.sub_diag, skipn_all. reflexivity. }
  assert (S3 : skipn (length (part_d e k s ++ comma) + length (part_f fortran ++ comma)) H = part_s ds ++ comma).
  { rewrite EH, app_assoc, skipn_app, <- app_length, Nat.sub_diag, skipn_all. reflexivity. }
  assert (S4 : firstn (length (part_f fortran ++ comma)) ((part_f fortran ++ comma) ++ (part_s ds ++ comma)) = part_f fortran ++ comma).
  { rewrite firstn_app, Nat.sub_diag, firstn_all. cbn [firstn]. apply app_nil_r. }
  rewrite S1, S2, S3, S4. unfold comma at 1 2 3. rewrite !pop_snoc. cbn [bind].
  assert (G1 : get_value_from_map (part_d e k s) = 39 :: (e :: k :: s) ++ [39]) by reflexivity.
  assert (G2 : get_value_from_map (part_f fortran) = if fortran then str "True" else str "False") by (destruct fortran; reflexivity).
  assert (G3 : get_value_from_map (part_s ds) = 40 :: inner ds ++ [41]) by reflexivity.
  rewrite G1, G2, G3.
  assert (T : parse_typestring (39 :: (e :: k :: s) ++ [39]) = Ok tt).
  { cbn [app]. unfold parse_typestring. rewrite quote_digits by exact Hdig. cbn in He, Hk. destruct s as [|c s']; [contradiction|].
    destruct He as [ <- |[ <- |[ <- |[]]]]; destruct Hk as [ <- |[ <- |[ <- |[ <- |[ <- |[]]]]]]; reflexivity. }
  rewrite T. cbn [bind]. rewrite unwrap_ok. cbn [bind].
  match goal with |- bind ?x _ = _ => replace x with (@Ok bool fortran) by (destruct fortran; reflexivity) end. cbn [bind]. rewrite unwrap_ok. cbn [bind]. pose proof (shape_ok sh ds Hds Hsh) as Es.
  destruct (split_commas (inner ds)) as [x xs]. rewrite Es. reflexivity.
Qed.
