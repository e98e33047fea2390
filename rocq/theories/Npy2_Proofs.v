(** Writing the header, reading its length, bytes and elements. *)
From Coq Require Import String Ascii List ZArith Bool Lia Arith.
From Verif Require Import Prelude PreludeFacts Strides_Model Strides_Spec Strides_Proofs Container_Model Container_Spec Slice_Model Access_Model Container_Proofs
  Reduce_Spec Reduce5_Proofs Reduce13_Proofs Select_Model Select_Spec SView_Proofs Npy_Model Npy_Spec Npy_Proofs.
Import ListNotations.
Open Scope Z_scope.

(** ** The header that is written *)

Lemma shape_concat ds : concat (map (fun d : bytes => d ++ str ", ") ds) =
  match ds with [] => [] | d :: rest => d ++ concat (map (fun x => str ", " ++ x) rest) ++ str ", " end.
Proof.
  destruct ds as [|d ds]; [reflexivity|]. revert d. induction ds as [|e ds IH]; intros d.
  - cbn [map concat app]. rewrite app_nil_r. reflexivity.
  - change (concat (map (fun d : bytes => d ++ str ", ") (d :: e :: ds))) with ((d ++ str ", ") ++ concat (map (fun d : bytes => d ++ str ", ") (e :: ds))).
    rewrite IH. cbn [map concat]. rewrite <- !app_assoc. reflexivity.
Qed.
Lemma firstn_drop {A} (a b : list A) k : k = length b -> firstn (length (a ++ b) - k) (a ++ b) = a.
Proof. intros ->. rewrite app_length. replace (length a + length b - length b)%nat with (length a) by lia. rewrite firstn_app, Nat.sub_diag, firstn_all. cbn [firstn]. apply app_nil_r. Qed.
Lemma shape_text_tuple sh : shape_text sh = tuple_text (map print sh).
Proof.
  unfold shape_text. rewrite <- (map_map print (fun d => d ++ str ", ")). rewrite shape_concat. destruct sh as [|n [|m sh]].
  - reflexivity.
  - cbn [map length concat]. cbn [Nat.ltb Nat.leb Nat.eqb app].
    replace (str "(" ++ print n ++ [] ++ str ", ") with ((str "(" ++ print n ++ [44]) ++ [32]) by (rewrite <- !app_assoc; reflexivity).
    change (str "(" ++ print n ++ str ", ") with (str "(" ++ print n ++ [44] ++ [32]). rewrite (app_assoc (print n)), (app_assoc (str "(")).
    rewrite firstn_drop by reflexivity. cbn [tuple_text]. rewrite <- !app_assoc. reflexivity.
  - set (r := map print (m :: sh)). cbn [map length]. change ((1 <? S (S (length sh)))%nat) with true. cbv iota zeta. fold r.
    rewrite !app_assoc. rewrite firstn_drop by reflexivity. rewrite <- !app_assoc. reflexivity.
Qed.
Lemma print_all sh : is_shape sh -> Forall2 decimal sh (map print sh).
Proof. induction 1 as [|n sh Hn H IH]; constructor; [apply print_ok; exact Hn|exact IH]. Qed.

Lemma header_of_ok descr fortran sh : is_shape sh ->
  let '(version, h) := header_of (header_dict descr fortran sh) in
  len (header_dict descr fortran sh) + 100 < 2 ^ 32 ->
  (version = 1 \/ version = 2) /\ (exists pad, npy_header descr fortran sh pad h) /\ len h < 256 ^ Z.of_nat (length_bytes version) /\
  (8 + Z.of_nat (length_bytes version) + len h) mod 64 = 0.
Proof.
  intros Hsh. unfold header_of. set (d := header_dict descr fortran sh).
  assert (N : forall pad, npy_header descr fortran sh pad (d ++ repeat 32 pad ++ [10])).
  { intros pad. exists (map print sh). split; [apply print_all; exact Hsh|]. unfold d, header_dict. rewrite shape_text_tuple. rewrite <- !app_assoc. reflexivity. }
  assert (LL : forall m, len (d ++ repeat 32 (Z.to_nat (64 - m mod 64)) ++ [10]) = len d + 1 + (64 - m mod 64)).
  { intros m. unfold len. rewrite !app_length, repeat_length. cbn [length]. pose proof (Z.mod_pos_bound m 64). lia. }
  assert (M : forall m, (m + (64 - m mod 64)) mod 64 = 0).
  { intros m. replace (m + (64 - m mod 64)) with ((m / 64 + 1) * 64); [apply Z.mod_mul; lia|]. pose proof (Z.div_mod m 64). lia. }
  assert (P : 0 <= len d) by (unfold len; lia).
  destruct (255 * 255 <=? 6 + 2 + 2 + (len d + 1)) eqn:E; intros HL.
  - split; [right; reflexivity|]. split; [eexists; apply N|]. rewrite LL. change (length_bytes 2) with 4%nat. change (256 ^ Z.of_nat 4) with (2 ^ 32).
    pose proof (Z.mod_pos_bound (6 + 2 + 4 + (len d + 1)) 64). split; [lia|]. rewrite <- (M (6 + 2 + 4 + (len d + 1))). f_equal. lia.
  - apply Z.leb_gt in E. split; [left; reflexivity|]. split; [eexists; apply N|]. rewrite LL. change (length_bytes 1) with 2%nat. change (256 ^ Z.of_nat 2) with 65536.
    pose proof (Z.mod_pos_bound (6 + 2 + 2 + (len d + 1)) 64). split; [lia|]. rewrite <- (M (6 + 2 + 2 + (len d + 1))). f_equal. lia.
Qed.
Lemma len_bytes_ok version n : version = 1 \/ version = 2 -> 0 <= n < 256 ^ Z.of_nat (length_bytes version) -> len_bytes version n = little_endian (length_bytes version) n.
Proof.
  intros [ -> | -> ] Hn; unfold len_bytes, length_bytes in *; cbn [Z.eqb Pos.eqb] in *.
  - change (256 ^ Z.of_nat 2) with (2 ^ 16) in Hn. rewrite (Z.mod_small n (2 ^ 16)) by exact Hn. reflexivity.
  - change (256 ^ Z.of_nat 4) with (2 ^ 32) in Hn. rewrite (Z.mod_small n (2 ^ 32)) by exact Hn. cbn [little_endian]. rewrite !Z.div_div by lia. reflexivity.
Qed.
Lemma write_header_ok descr fortran sh : is_shape sh -> len (header_dict descr fortran sh) + 100 < 2 ^ 32 ->
  exists version pad h, (version = 1 \/ version = 2) /\ npy_header descr fortran sh pad h /\ len h < 256 ^ Z.of_nat (length_bytes version) /\
  (8 + Z.of_nat (length_bytes version) + len h) mod 64 = 0 /\
  write_header descr fortran sh = [147; 78; 85; 77; 80; 89; version; 0] ++ little_endian (length_bytes version) (len h) ++ h.
Proof.
  intros Hsh HL. pose proof (header_of_ok descr fortran sh Hsh) as H. unfold write_header. destruct (header_of (header_dict descr fortran sh)) as [version h].
  destruct (H HL) as (Hv & [pad Hp] & Hb & Ha). exists version, pad, h. split; [exact Hv|]. split; [exact Hp|]. split; [exact Hb|]. split; [exact Ha|].
  rewrite len_bytes_ok; [reflexivity|exact Hv|]. split; [unfold len; lia|exact Hb].
Qed.

(** ** Reading the length *)

Lemma lor_add a b k : 0 <= k -> 0 <= a < 2 ^ k -> Z.lor a (b * 2 ^ k) = a + b * 2 ^ k.
Proof.
  intros Hk Ha. assert (L : Z.land a (b * 2 ^ k) = 0).
  { apply Z.bits_inj'. intros i Hi. rewrite Z.land_spec, Z.bits_0. destruct (Z.lt_ge_cases i k) as [H|H].
    - rewrite Z.mul_pow2_bits_low by exact H. apply andb_false_r.
    - destruct (Z.eq_dec a 0) as [ -> |Ne]; [rewrite Z.bits_0; reflexivity|]. rewrite (Z.bits_above_log2 a i); [reflexivity|lia|].
      apply Z.log2_lt_pow2; [lia|]. apply Z.lt_le_trans with (2 ^ k); [apply Ha|]. apply Z.pow_le_mono_r; lia. }
  rewrite <- (Z.lxor_lor _ _ L). symmetry. apply Z.add_nocarry_lxor. exact L.
Qed.
Lemma char_small cs b : 0 <= b -> cs = false \/ b < 128 -> char_value cs b = b.
Proof. intros H0 [ -> |H]; unfold char_value; [reflexivity|]. destruct cs; cbn [andb]; [|reflexivity]. destruct (128 <=? b) eqn:E; [apply Z.leb_le in E; lia|reflexivity]. Qed.
Lemma char_last cs b k m : 0 <= b < 256 -> 0 <= k -> m = 256 * 2 ^ k -> char_value cs b * 2 ^ k mod m = b * 2 ^ k.
Proof.
  intros Hb Hk ->. pose proof (Z.pow_pos_nonneg 2 k ltac:(lia) Hk). unfold char_value. destruct (cs && (128 <=? b)).
  - replace ((b - 256) * 2 ^ k) with (b * 2 ^ k + (-1) * (256 * 2 ^ k)) by ring. rewrite Z.mod_add by lia. apply Z.mod_small. nia.
  - apply Z.mod_small. nia.
Qed.
Definition readable_length (cs : bool) (version n : Z) : Prop :=
  cs = false \/ Forall (fun b => b < 128) (removelast (little_endian (length_bytes version) n)).
Lemma header_length_ok cs version n : version = 1 \/ version = 2 -> 0 <= n < 256 ^ Z.of_nat (length_bytes version) -> readable_length cs version n ->
  header_length cs version (little_endian (length_bytes version) n) = Ok n.
Proof.
  intros [ -> | -> ] Hn Hr; unfold readable_length, length_bytes in *; cbn [Z.eqb Pos.eqb] in *; cbn [little_endian removelast] in *.
  - change (256 ^ Z.of_nat 2) with (256 * 2 ^ 8) in Hn. unfold header_length, uint16.
    pose proof (Z.mod_pos_bound n 256 ltac:(lia)) as B0. assert (B1 : 0 <= n / 256 < 256) by (split; [apply Z.div_pos; lia|apply Z.div_lt_upper_bound; lia]).
    rewrite (Z.mod_small (n / 256) 256) by exact B1. rewrite (char_small cs (n mod 256)); [|lia|destruct Hr as [Hr|Hr]; [left; exact Hr|right; inversion Hr; assumption]].
    rewrite char_last by (try lia; reflexivity). rewrite (Z.mod_small (n mod 256)) by lia. rewrite lor_add by lia. pose proof (Z.div_mod n 256). f_equal. lia.
  - change (256 ^ Z.of_nat 4) with (256 * 2 ^ 24) in Hn. unfold header_length, uint32.
    set (n1 := n / 256) in *. set (n2 := n1 / 256) in *. set (n3 := n2 / 256) in *.
    pose proof (Z.mod_pos_bound n 256 ltac:(lia)) as B0. pose proof (Z.mod_pos_bound n1 256 ltac:(lia)) as B1. pose proof (Z.mod_pos_bound n2 256 ltac:(lia)) as B2.
    pose proof (Z.div_mod n 256 ltac:(lia)) as D0. fold n1 in D0. pose proof (Z.div_mod n1 256 ltac:(lia)) as D1. fold n2 in D1. pose proof (Z.div_mod n2 256 ltac:(lia)) as D2. fold n3 in D2.
    assert (B3 : 0 <= n3 < 256).
    { change (256 * 2 ^ 24) with 4294967296 in Hn. lia. }
    rewrite (Z.mod_small n3 256) by exact B3.
    assert (C : char_value cs (n mod 256) = n mod 256 /\ char_value cs (n1 mod 256) = n1 mod 256 /\ char_value cs (n2 mod 256) = n2 mod 256).
    { destruct Hr as [Hr|Hr]; [repeat split; apply char_small; try lia; left; exact Hr|].
      inversion Hr as [|? ? H0 Hr1]; subst. inversion Hr1 as [|? ? H1 Hr2]; subst. inversion Hr2 as [|? ? H2 Hr3]; subst. repeat split; apply char_small; lia. }
    destruct C as (C0 & C1 & C2). rewrite C0, C1, C2. rewrite (char_last cs n3) by (try lia; reflexivity).
    rewrite (Z.mod_small (n mod 256)) by lia. rewrite (Z.mod_small (n1 mod 256 * 2 ^ 8)) by lia. rewrite (Z.mod_small (n2 mod 256 * 2 ^ 16)) by lia.
    rewrite (lor_add (n mod 256) (n1 mod 256) 8) by lia. rewrite (lor_add _ (n2 mod 256) 16) by lia. rewrite (lor_add _ n3 24) by lia. f_equal. lia.
Qed.

(** ** Reading bytes *)

Lemma read_app a r n : n = length a -> read n (mk_in (a ++ r) true) = (map Some a, mk_in r true).
Proof.
  intros ->. unfold read. cbn [in_ok in_rest]. rewrite (proj2 (Nat.leb_le _ _)) by (rewrite app_length; lia).
  rewrite firstn_app, Nat.sub_diag, firstn_all, skipn_app, Nat.sub_diag, skipn_all. cbn [firstn skipn app]. rewrite app_nil_r. reflexivity.
Qed.
Lemma known_some a : known (map Some a) = Ok a.
Proof. induction a as [|b a IH]; [reflexivity|]. cbn [map known]. rewrite IH. reflexivity. Qed.
Lemma known_none l : In None l -> is_ok (known l) = false.
Proof.
  induction l as [|[b|] l IH]; [intros []| |reflexivity]. intros [H|H]; [discriminate|]. cbn [known]. specialize (IH H). destruct (known l); [discriminate|reflexivity|reflexivity].
Qed.
Lemma little_endian_length k n : length (little_endian k n) = k.
Proof. revert n. induction k as [|k IH]; intros n; [reflexivity|]. cbn. rewrite IH. reflexivity. Qed.

Lemma readable_len cs version n r : version = 1 \/ version = 2 ->
  readable cs ([147; 78; 85; 77; 80; 89; version; 0] ++ little_endian (length_bytes version) n ++ r) -> readable_length cs version n.
Proof.
  intros Hv [H|H]; [left; exact H|right]. specialize (H version eq_refl). destruct Hv as [ -> | -> ]; exact H.
Qed.
Lemma load_file_ok cs t version descr fortran sh pad data file : type_text t descr -> npy_format version descr fortran sh pad data file ->
  Forall (fun n => n < 2 ^ 64) sh -> 0 <= prod sh * ty_size t < 2 ^ 64 ->
  readable cs file ->
  load_npy_file cs file = Ok (mk_file sh fortran descr (fst (read (Z.to_nat (prod sh * ty_size t)) (mk_in data true)))).
Proof.
  intros Ht (Hv & h & Hh & Hb & ->) Hsh Hsz Hr. apply (readable_len _ _ _ (h ++ data) Hv) in Hr. unfold load_npy_file, read_magic.
  rewrite read_app by reflexivity. cbn [in_ok negb]. rewrite known_some. cbn [bind].
  assert (Em : prefixb magic [147; 78; 85; 77; 80; 89; version; 0] = true) by reflexivity. rewrite Em. cbn [negb]. unfold rd. cbn [nth_error bind].
  rewrite Z.eqb_refl, andb_true_r.
  assert (Ev : (version =? 1) || (version =? 2) = true) by (destruct Hv as [ -> | -> ]; reflexivity). rewrite Ev.
  unfold read_header. rewrite read_app; [|rewrite little_endian_length; unfold length_bytes; reflexivity].
  rewrite known_some. cbn [bind]. assert (Hn : 0 <= len h) by (unfold len; lia).
  rewrite header_length_ok by (try assumption; split; assumption). cbn [bind]. rewrite read_app by (unfold len; rewrite Nat2Z.id; reflexivity). rewrite known_some. cbn [bind].
  rewrite (parse_header_ok t descr fortran sh pad h Ht Hh Hsh). cbn [bind].
  assert (Ew : scan_digits 0 (skipn 2 descr) = ty_size t) by (inversion Ht; subst; cbn [skipn]; apply scan_ok; assumption). rewrite Ew, compute_size_prod.
  unfold to_size_t. rewrite Z.mod_small by exact Hsz. destruct (read _ (mk_in data true)) as [buf s]. reflexivity.
Qed.

(** ** Elements *)

Section Elements.
Context {V : Type} (little : bool) (ty : npy_type) (enc : V -> bytes) (dec : bytes -> V).
Hypothesis Hrep : represents ty enc dec.
Let sz := Z.to_nat (ty_size ty).

Lemma enc_length v : length (enc v) = sz.
Proof. destruct Hrep as (_ & _ & H). destruct (H v) as [E _]. unfold len in E. unfold sz. lia. Qed.
Lemma sz_pos : (0 < sz)%nat.
Proof. destruct Hrep as (_ & H & _). unfold sz. lia. Qed.
Lemma concat_enc vs : length (concat (map enc vs)) = (length vs * sz)%nat.
Proof. induction vs as [|v vs IH]; [reflexivity|]. cbn [map concat length]. rewrite app_length, enc_length, IH. lia. Qed.

Lemma elements_length n l : length (elements ty dec n l) = n.
Proof. revert l. induction n as [|n IH]; intros l; [reflexivity|]. cbn. rewrite IH. reflexivity. Qed.
Lemma elements_all vs : elements ty dec (length vs) (map Some (concat (map enc vs))) = map Some vs.
Proof.
  induction vs as [|v vs IH]; [reflexivity|]. cbn [length map concat elements]. fold sz. rewrite map_app.
  rewrite firstn_app, firstn_all2 by (rewrite map_length, enc_length; lia). rewrite skipn_app, skipn_all2 by (rewrite map_length, enc_length; lia).
  rewrite map_length, enc_length, Nat.sub_diag. cbn [firstn skipn app]. rewrite app_nil_r, IH. f_equal. unfold dec_element. rewrite known_some.
  destruct Hrep as (_ & _ & H). destruct (H v) as [_ E]. rewrite E. reflexivity.
Qed.
(** Elements whose bytes are all among the first k *)
Lemma elements_none n m : (sz * n <= m)%nat -> elements ty dec n (repeat None m) = repeat None n.
Proof.
  revert m. induction n as [|n IH]; intros m H; [reflexivity|]. cbn [elements repeat]. fold sz. pose proof sz_pos.
  assert (m = sz + (m - sz))%nat as E by nia. rewrite E at 1 2. rewrite repeat_app.
  rewrite firstn_app, firstn_all2 by (rewrite repeat_length; lia). rewrite skipn_app, skipn_all2 by (rewrite repeat_length; lia). rewrite repeat_length, Nat.sub_diag. cbn [firstn skipn app].
  rewrite app_nil_r. rewrite IH by nia. f_equal. unfold dec_element. assert (X : is_ok (known (repeat (@None Z) sz)) = false) by (apply known_none; destruct sz; [lia|left; reflexivity]).
  destruct (known (repeat None sz)); [discriminate|reflexivity|reflexivity].
Qed.
Lemma elements_cut : forall vs k m, (k <= length (concat (map enc vs)))%nat -> (length (concat (map enc vs)) <= k + m)%nat ->
  elements ty dec (length vs) (map Some (firstn k (concat (map enc vs))) ++ repeat None m) =
  map Some (firstn (k / sz) vs) ++ repeat None (length vs - k / sz).
Proof.
  pose proof sz_pos as Hp. induction vs as [|v vs IH]; intros k m Hk Hm.
  - cbn [length elements map firstn]. rewrite firstn_nil. reflexivity.
  - cbn [map concat] in *. rewrite app_length, enc_length in Hk, Hm. cbn [length elements]. fold sz. destruct (Nat.lt_ge_cases k sz) as [Hlt|Hge].
    + rewrite Nat.div_small by exact Hlt. cbn [firstn map app Nat.sub repeat].
      assert (Ef : firstn k (enc v ++ concat (map enc vs)) = firstn k (enc v)).
      { rewrite firstn_app, enc_length. replace (k - sz)%nat with 0%nat by lia. cbn [firstn]. apply app_nil_r. }
      rewrite Ef. f_equal.
      * unfold dec_element. assert (X : is_ok (known (firstn sz (map Some (firstn k (enc v)) ++ repeat None m))) = false).
        { apply known_none. rewrite firstn_app, map_length, firstn_length, enc_length. apply in_or_app. right.
          replace (Nat.min k sz) with k by lia. rewrite concat_enc in Hm. destruct (sz - k)%nat eqn:E; [lia|]. destruct m as [|m]; [lia|]. left. reflexivity. }
        destruct (known _); [discriminate|reflexivity|reflexivity].
      * rewrite skipn_app, map_length, firstn_length, enc_length. rewrite skipn_all2 by (rewrite map_length, firstn_length, enc_length; lia). cbn [app].
        replace (Nat.min k sz) with k by lia.
        assert (E : skipn (sz - k) (repeat (@None Z) m) = repeat None (m - (sz - k))).
        { clear. revert m. generalize (sz - k)%nat. intros a. induction a as [|a IHa]; intros [|m]; try reflexivity. cbn [skipn repeat Nat.sub]. apply IHa. }
        rewrite E. apply elements_none. rewrite concat_enc in Hm. nia.
    + assert (Ek : k = (sz + (k - sz))%nat) by lia. assert (Ed : (k / sz = S ((k - sz) / sz))%nat).
      { rewrite Ek at 1. replace (sz + (k - sz))%nat with (k - sz + 1 * sz)%nat by lia. rewrite Nat.div_add by lia. lia. }
      rewrite Ed. cbn [firstn map app Nat.sub]. rewrite (firstn_app k (enc v)), enc_length, (firstn_all2 (enc v)) by (rewrite enc_length; lia). rewrite map_app, <- app_assoc.
      rewrite firstn_app, firstn_all2 by (rewrite map_length, enc_length; lia). rewrite skipn_app, skipn_all2 by (rewrite map_length, enc_length; lia).
      rewrite map_length, enc_length, Nat.sub_diag. cbn [firstn skipn app]. rewrite app_nil_r. f_equal.
      * unfold dec_element. rewrite known_some. destruct Hrep as (_ & _ & H). destruct (H v) as [_ E]. rewrite E. reflexivity.
      * apply IH; lia.
Qed.
End Elements.
