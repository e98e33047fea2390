(** Round trips, files that are not npy files, files cut in the header; fixtures. *)
From Coq Require Import String Ascii List ZArith Bool Lia Arith.
From Verif Require Import Prelude PreludeFacts Strides_Model Strides_Spec Strides_Proofs Container_Model Container_Spec Slice_Model Access_Model Container_Proofs
  Reduce_Spec Reduce15_Proofs Select_Model Select_Spec Select_Proofs Npy_Model Npy_Spec Npy_Proofs Npy2_Proofs Npy3_Proofs.
Import ListNotations.
Open Scope Z_scope.

Section Round.
Context {V : Type} (little : bool) (ty : npy_type) (enc : V -> bytes) (dec : bytes -> V).
Hypothesis Hrep : represents ty enc dec.

Lemma roundtrip_lemma cs L c sh (v : list Z -> V) : holds c sh v -> is_order (ct_layout c) ->
  Forall (fun n => n < 2 ^ 64) sh -> Z.of_nat (length sh) < 2 ^ 27 -> prod sh * ty_size ty < 2 ^ 64 ->
  (L = dynamic \/ L = file_order (layout_eqb (ct_layout c) column_major && (1 <? length sh)%nat)) ->
  exists file, dump_npy little ty enc c = Ok file /\ (readable cs file ->
    exists c', load_npy little ty dec cs L file = Ok c' /\ holds c' sh (fun ix => Some (v ix))).
Proof.
  intros Hc Hl Hx Hn Hsz HL. destruct (dump_lemma little ty enc dec Hrep c sh v Hc Hl Hx Hn) as (version & pad & file & Ed & Hf & _).
  exists file. split; [exact Ed|]. intros Hr. pose proof Hc as ((Hsh & _) & Es & _). rewrite Es in Hsh.
  rewrite <- (app_nil_r (data_of _ _ _ _)) in Hf.
  destruct (load_lemma little ty enc dec Hrep cs L version _ sh pad v [] file Hsh Hx Hsz Hf Hr) as (c' & E & Hc' & _).
  - destruct HL as [ -> | -> ]; [left; discriminate|]. destruct (_ && _); [right; reflexivity|left; discriminate].
  - destruct HL as [ -> | -> ]; [left; discriminate|]. destruct (_ && _); [left; discriminate|right; reflexivity].
  - exists c'. split; assumption.
Qed.

(** Short headers *)
Lemma roundtrip_small_lemma cs L c sh (v : list Z -> V) k : holds c sh v -> is_order (ct_layout c) ->
  0 < k < 20 -> Forall (fun n => n < 10 ^ k) sh -> Z.of_nat (length sh) * (k + 2) <= 61 -> ty_size ty < 100 -> prod sh * ty_size ty < 2 ^ 64 ->
  (L = dynamic \/ L = file_order (layout_eqb (ct_layout c) column_major && (1 <? length sh)%nat)) ->
  exists file c', dump_npy little ty enc c = Ok file /\ load_npy little ty dec cs L file = Ok c' /\ holds c' sh (fun ix => Some (v ix)).
Proof.
  intros Hc Hl Hk Hx Hn Ht Hsz HL. pose proof Hc as (Hcon & Es & _). pose proof Hcon as (Hsh & _ & _ & Hd & _). rewrite Es in Hsh, Hd.
  assert (Hp : 10 ^ k < 2 ^ 64) by (apply Z.le_lt_trans with (10 ^ 19); [apply Z.pow_le_mono_r; lia|reflexivity]).
  assert (Hx' : Forall (fun n => n < 2 ^ 64) sh) by (rewrite Forall_forall in *; intros n Hin; specialize (Hx n Hin); lia).
  assert (Hn' : Z.of_nat (length sh) < 2 ^ 27) by lia.
  destruct (roundtrip_lemma cs L c sh v Hc Hl Hx' Hn' Hsz HL) as (file & Ed & Hr).
  destruct Hr as (c' & E & Hc').
  - right. intros version Ev. set (fo := layout_eqb (ct_layout c) column_major && (1 <? length sh)%nat) in *.
    assert (D : len (header_dict (build_typestring little ty) fo sh) <= 52 + 2 + Z.max 2 (Z.of_nat (length sh) * (k + 2) + 1)).
    { apply (dict_length little ty enc dec Hrep); [lia|lia| |lia]. unfold is_shape in Hsh. rewrite Forall_forall in *. intros n Hin. specialize (Hx n Hin). specialize (Hsh n Hin). lia. }
    set (d := header_dict (build_typestring little ty) fo sh) in *.
    unfold dump_npy in Ed. rewrite Es in Ed. fold fo in Ed. destruct (length (ct_data c) <? _)%nat; [discriminate Ed|]. unfold write_header in Ed. fold d in Ed. unfold header_of in Ed.
    assert (P : 0 <= len d) by (unfold len; lia).
    rewrite (proj2 (Z.leb_gt (255 * 255) (6 + 2 + 2 + (len d + 1)))) in Ed by lia.
    set (h := d ++ repeat 32 (Z.to_nat (64 - (6 + 2 + 2 + (len d + 1)) mod 64)) ++ [10]) in *.
    assert (Lh : 0 <= len h < 128).
    { unfold h, len. rewrite !app_length, repeat_length. cbn [length]. fold (len d). pose proof (Z.mod_pos_bound (6 + 2 + 2 + (len d + 1)) 64 ltac:(lia)) as B.
      pose proof (Z.div_mod (6 + 2 + 2 + (len d + 1)) 64 ltac:(lia)) as Q. set (q := (6 + 2 + 2 + (len d + 1)) / 64) in *. set (m := (6 + 2 + 2 + (len d + 1)) mod 64) in *.
      unfold len in *. assert (q <= 1) by lia. lia. }
    assert (Ef : exists r, file = [147; 78; 85; 77; 80; 89; 1; 0] ++ [len h mod 256; len h / 2 ^ 8 mod 256] ++ r).
    { injection Ed as <-. unfold len_bytes. cbn [Z.eqb Pos.eqb]. rewrite (Z.mod_small (len h) (2 ^ 16)) by lia. eexists. unfold write_magic, magic. rewrite <- !app_assoc. reflexivity. }
    destruct Ef as [r ->]. injection Ev as <-.
    rewrite (Z.mod_small (len h) 256) by lia. assert (E0 : len h / 2 ^ 8 mod 256 = 0) by (rewrite Z.div_small by lia; reflexivity). rewrite E0. constructor; [lia|constructor].
  - exists file, c'. split; [exact Ed|]. split; assumption.
Qed.
End Round.

Section Reject.
Context {V : Type} (little : bool) (ty : npy_type) (dec : bytes -> V).

Lemma prefixb_true p s : prefixb p s = true -> exists r, s = p ++ r.
Proof.
  revert s. induction p as [|a p IH]; intros s H; [exists s; reflexivity|]. destruct s as [|b s]; [discriminate|]. cbn [prefixb] in H.
  apply andb_true_iff in H. destruct H as [H1 H2]. apply Z.eqb_eq in H1. subst b. destruct (IH s H2) as [r ->]. exists r. reflexivity.
Qed.
Lemma not_npy_lemma cs L file : (length file < 8)%nat \/ firstn 6 file <> [147; 78; 85; 77; 80; 89] -> load_npy little ty dec cs L file = Throw runtime_error.
Proof.
  intros H. unfold load_npy, load_npy_file, read_magic, read. cbn [in_ok in_rest]. destruct (8 <=? length file)%nat eqn:E; [|reflexivity].
  apply Nat.leb_le in E. destruct H as [H|H]; [lia|]. cbn [in_ok negb]. rewrite known_some. cbn [bind].
  destruct (prefixb magic (firstn 8 file)) eqn:P; [|reflexivity]. exfalso. apply prefixb_true in P. destruct P as [r P]. apply H.
  replace (firstn 6 file) with (firstn 6 (firstn 8 file)) by (rewrite firstn_firstn; reflexivity). rewrite P. reflexivity.
Qed.
Lemma version_lemma cs L major minor rest : ~ ((major = 1 \/ major = 2) /\ minor = 0) ->
  load_npy little ty dec cs L ([147; 78; 85; 77; 80; 89; major; minor] ++ rest) = Throw runtime_error.
Proof.
  intros H. unfold load_npy, load_npy_file, read_magic. rewrite read_app by reflexivity. cbn [in_ok negb]. rewrite known_some. cbn [bind].
  assert (Em : prefixb magic [147; 78; 85; 77; 80; 89; major; minor] = true) by reflexivity. rewrite Em. cbn [negb]. unfold rd. cbn [nth_error bind].
  destruct (((major =? 1) || (major =? 2)) && (minor =? 0)) eqn:E; [|reflexivity]. exfalso. apply H. apply andb_true_iff in E. destruct E as [E1 E2].
  apply Z.eqb_eq in E2. apply orb_true_iff in E1. split; [|exact E2]. destruct E1 as [E1|E1]; apply Z.eqb_eq in E1; auto.
Qed.
Lemma read_short n r : (length r < n)%nat -> is_ok (known (fst (read n (mk_in r true)))) = false.
Proof.
  intros H. unfold read. cbn [in_ok in_rest]. rewrite (proj2 (Nat.leb_gt _ _)) by exact H. cbn [fst]. apply known_none. apply in_or_app. right.
  destruct (n - length r)%nat eqn:E; [lia|]. left. reflexivity.
Qed.
Lemma known_cases l : is_ok (known l) = false -> known l = UB.
Proof.
  induction l as [|[b|] l IH]; intros H; [discriminate| |reflexivity]. cbn [known] in *. destruct (known l) as [r| |]; [discriminate| |reflexivity]. discriminate (IH eq_refl).
Qed.
Lemma cut_header_lemma cs L version descr fortran sh pad data file k : npy_format version descr fortran sh pad data file -> readable cs file ->
  (8 <= k)%nat -> (k + length data < length file)%nat -> load_npy little ty dec cs L (firstn k file) = UB.
Proof.
  intros (Hv & h & Hh & Hb & ->) Hr Hk8 Hk. apply (readable_len _ _ _ (h ++ data) Hv) in Hr. rewrite !app_length, little_endian_length in Hk. cbn [length] in Hk.
  assert (Ek : exists j, k = (8 + j)%nat) by (exists (k - 8)%nat; lia). destruct Ek as [j ->].
  set (M := [147; 78; 85; 77; 80; 89; version; 0]). change (8 + j)%nat with (length M + j)%nat. rewrite firstn_app_2.
  unfold load_npy, load_npy_file, read_magic. rewrite read_app by reflexivity. cbn [in_ok negb]. rewrite known_some. cbn [bind].
  assert (Em : prefixb magic M = true) by reflexivity. rewrite Em. unfold M. cbn [negb]. unfold rd. cbn [nth_error bind].
  assert (Ev : ((version =? 1) || (version =? 2)) && (0 =? 0) = true) by (destruct Hv as [ -> | -> ]; reflexivity). rewrite Ev.
  unfold read_header. change (if version =? 1 then 2%nat else 4%nat) with (length_bytes version).
  set (lb := little_endian (length_bytes version) (len h)). assert (Ll : length lb = length_bytes version) by apply little_endian_length.
  destruct (Nat.lt_ge_cases j (length_bytes version)) as [Hj|Hj].
  - set (r := firstn j (lb ++ h ++ data)). assert (Lr : (length r < length_bytes version)%nat) by (unfold r; rewrite firstn_length; lia).
    pose proof (read_short _ _ Lr) as X. destruct (read (length_bytes version) (mk_in r true)) as [buf s]. cbn [fst] in X. rewrite (known_cases _ X). reflexivity.
  - assert (Ej : exists i, j = (length lb + i)%nat) by (exists (j - length lb)%nat; lia). destruct Ej as [i ->]. rewrite firstn_app_2. rewrite read_app by (symmetry; exact Ll).
    rewrite known_some. cbn [bind]. unfold lb. rewrite header_length_ok; [|exact Hv|split; [unfold len; lia|exact Hb]|exact Hr]. cbn [bind].
    set (r := firstn i (h ++ data)). assert (Lr : (length r < Z.to_nat (len h))%nat) by (unfold r, len; rewrite firstn_length; lia).
    pose proof (read_short _ _ Lr) as X. destruct (read (Z.to_nat (len h)) (mk_in r true)) as [buf s]. cbn [fst] in X. cbn [bind]. rewrite (known_cases _ X). reflexivity.
Qed.
End Reject.

(** ** Fixtures: pairs of bits in two bytes *)
Definition b2z (b : bool) : Z := if b then 1 else 0.
Definition enc2 (v : bool * bool) : bytes := [b2z (fst v); b2z (snd v)].
Definition dec2 (l : bytes) : bool * bool := match l with [a; b] => (a =? 1, b =? 1) | _ => (false, false) end.
Definition ty2 : npy_type := mk_type 117 2.
Lemma represents2 : represents ty2 enc2 dec2.
Proof.
  split; [cbn; tauto|]. split; [cbn; lia|]. intros [[] []]; split; reflexivity.
Qed.
Definition bits (n : Z) : bool * bool := (Z.odd n, Z.odd (n / 2)).
Definition of_shape (l : layout) (sh : list Z) : cont (bool * bool) :=
  let st := match l with row_major => row_strides sh | _ => col_strides sh end in
  mk_cont sh st (spec_backstrides st sh) l (map (fun i => bits (Z.of_nat i)) (seq 0 (Z.to_nat (prod sh)))).
Lemma of_shape_holds l sh : is_order l -> is_shape sh -> holds (of_shape l sh) sh (fun ix => bits (rank l sh ix)).
Proof.
  intros Hl Hsh. set (st := match l with row_major => row_strides sh | _ => col_strides sh end).
  assert (Ls : length st = length sh) by (unfold st; destruct l; first [apply row_strides_length|apply col_strides_length]).
  assert (Eo : forall ix, in_bounds sh ix -> element_offset st ix = rank l sh ix).
  { intros ix Hix. rewrite element_offset_same by (rewrite Ls; apply in_bounds_length; exact Hix). unfold st. destruct Hl as [ -> | -> ]; cbn; [apply dot_row|apply dot_col]; exact Hix. }
  pose proof (prod_nonneg sh Hsh) as Hp. split; [|split; [reflexivity|]].
  - unfold consistent, of_shape. cbn [ct_shape ct_strides ct_back ct_data ct_layout]. fold st. split; [exact Hsh|]. split; [exact Ls|].
    split; [unfold spec_backstrides; rewrite map_length, seq_length; reflexivity|]. split; [rewrite map_length, seq_length; lia|].
    exists l. split; [exact Hl|]. split; [reflexivity|exact Eo].
  - intros ix Hix. unfold elt, of_shape. cbn [ct_data ct_strides]. fold st. rewrite Eo by exact Hix. pose proof (rank_bound l sh ix Hix) as [B1 B2].
    apply rdz_ok; [exact B1|]. rewrite nth_error_map. rewrite (nth_error_nth' _ 0%nat) by (rewrite seq_length; lia). rewrite seq_nth by lia. cbn [option_map]. f_equal. f_equal. lia.
Qed.
Lemma shape23 : is_shape [2; 3].
Proof. repeat (constructor; [discriminate|]). constructor. Qed.

(** A 22-dimensional array cannot be read back where chars are signed. *)
Lemma big_header_lemma : exists (c : cont (bool * bool)) sh v file, holds c sh v /\ ct_layout c = row_major /\ length sh = 22%nat /\ prod sh = 1 /\
  dump_npy true ty2 enc2 c = Ok file /\ load_npy true ty2 dec2 true row_major file = UB.
Proof.
  exists (of_shape row_major (repeat 1 22)), (repeat 1 22). eexists _, _. split.
  - apply of_shape_holds; [left; reflexivity|]. apply Forall_forall. intros n H. apply repeat_spec in H. lia.
  - split; [reflexivity|]. split; [reflexivity|]. split; [reflexivity|]. split; [vm_compute; reflexivity|]. vm_compute. reflexivity.
Qed.
(** One dimension: the file says C order. *)
Lemma column_vector_lemma : exists (c : cont (bool * bool)) sh v file, holds c sh v /\ ct_layout c = column_major /\ sh = [3] /\
  dump_npy true ty2 enc2 c = Ok file /\ load_npy true ty2 dec2 true column_major file = Throw runtime_error.
Proof.
  exists (of_shape column_major [3]), [3]. eexists _, _. split.
  - apply of_shape_holds; [right; reflexivity|]. repeat (constructor; [discriminate|]). constructor.
  - split; [reflexivity|]. split; [reflexivity|]. split; [vm_compute; reflexivity|]. vm_compute. reflexivity.
Qed.
(** What load returns for a file in Fortran order, dumped and loaded again. *)
Definition retype {A B} (f : A -> B) (c : cont A) : cont B := mk_cont (ct_shape c) (ct_strides c) (ct_back c) (ct_layout c) (map f (ct_data c)).
Lemma reload_lemma : exists (c : cont (bool * bool)) sh v file0 file c', holds c sh v /\
  load_npy true ty2 dec2 true dynamic file0 = Ok (retype Some c) /\
  dump_npy true ty2 enc2 c = Ok file /\ load_npy true ty2 dec2 true dynamic file = Ok c' /\ ~ holds c' sh (fun ix => Some (v ix)).
Proof.
  set (c0 := of_shape column_major [2; 3]). set (file0 := match dump_npy true ty2 enc2 c0 with Ok f => f | _ => [] end).
  set (c := mk_cont [2; 3] (ct_strides c0) (ct_back c0) dynamic (ct_data c0)).
  exists c, [2; 3], (fun ix => bits (rank column_major [2; 3] ix)), file0. eexists _, _. split.
  - destruct (of_shape_holds column_major [2; 3] ltac:(right; reflexivity) shape23) as ((H1 & H2 & H3 & H4 & l & H5 & H6 & H7) & _ & H8).
    split; [|split; [reflexivity|exact H8]]. split; [exact H1|]. split; [exact H2|]. split; [exact H3|]. split; [exact H4|]. exists l. split; [exact H5|].
    split; [intros [X|X]; discriminate|exact H7].
  - split; [vm_compute; reflexivity|]. split; [vm_compute; reflexivity|]. split; [vm_compute; reflexivity|].
    intros (_ & _ & H). specialize (H [0; 1]). assert (B : in_bounds [2; 3] [0; 1]) by (repeat (constructor; [lia|]); constructor). specialize (H B). vm_compute in H. discriminate H.
Qed.
(** A file of version 1 with [pad] spaces *)
Definition header2 (fortran : bool) (sh : list Z) (pad : nat) : bytes := header_dict (build_typestring true ty2) fortran sh ++ repeat 32 pad ++ [10].
Definition file2 (fortran : bool) (sh : list Z) (pad : nat) (data : bytes) : bytes :=
  [147; 78; 85; 77; 80; 89; 1; 0] ++ little_endian 2 (len (header2 fortran sh pad)) ++ header2 fortran sh pad ++ data.
Lemma file2_format fortran sh pad data : is_shape sh -> len (header2 fortran sh pad) < 65536 ->
  npy_format 1 (build_typestring true ty2) fortran sh pad data (file2 fortran sh pad data).
Proof.
  intros Hsh Hl. split; [left; reflexivity|]. exists (header2 fortran sh pad). split; [|split; [exact Hl|reflexivity]].
  exists (map print sh). split; [apply print_all; exact Hsh|]. unfold header2, header_dict. rewrite shape_text_tuple. rewrite <- !app_assoc. reflexivity.
Qed.
Definition v6 (ix : list Z) : bool * bool := bits (rank row_major [2; 3] ix).
Lemma truncated_refuted_lemma : ~ forall V little ty (enc : V -> bytes) dec cs L version fortran sh pad data file,
  represents ty enc dec -> is_shape sh -> Forall (fun n => n < 2 ^ 64) sh -> prod sh * ty_size ty < 2 ^ 64 ->
  npy_format version (build_typestring little ty) fortran sh pad data file -> readable cs file -> len data < prod sh * ty_size ty ->
  exists e, load_npy little ty dec cs L file = Throw e.
Proof.
  intros H. destruct (H _ true ty2 enc2 dec2 true row_major 1 false [2; 3] 0%nat [1; 0] (file2 false [2; 3] 0 [1; 0]) represents2 shape23) as [e E].
  - repeat (constructor; [reflexivity|]). constructor.
  - reflexivity.
  - apply file2_format; [exact shape23|reflexivity].
  - right. intros version Ev. injection Ev as <-. constructor; [vm_compute; reflexivity|constructor].
  - reflexivity.
  - vm_compute in E. discriminate E.
Qed.
