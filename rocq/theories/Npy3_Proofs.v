(** Dumping, loading, round trips, damaged files. *)
From Coq Require Import String Ascii List ZArith Bool Lia Arith.
From Verif Require Import Prelude PreludeFacts Strides_Model Strides_Spec Strides_Proofs Container_Model Container_Spec Slice_Model Access_Model Container_Proofs
  Reduce_Spec Reduce5_Proofs Reduce13_Proofs Select_Model Select_Spec Select_Proofs SView_Proofs Npy_Model Npy_Spec Npy_Proofs Npy2_Proofs.
Import ListNotations.
Open Scope Z_scope.

Lemma dot_adapted sh ix : in_bounds sh ix -> forall st, length st = length sh -> dot ix (adapted sh st) = dot ix st.
Proof.
  induction 1 as [|n i sh ix Hi H IH]; intros [|s st] Hl; try discriminate; [reflexivity|]. rewrite adapted_cons. cbn [dot]. rewrite IH by (cbn in Hl; lia).
  destruct (n =? 1) eqn:E; [apply Z.eqb_eq in E; replace i with 0 by lia; lia|reflexivity].
Qed.
Lemma file_order_order fortran : is_order (file_order fortran).
Proof. destruct fortran; [right|left]; reflexivity. Qed.

Lemma idx_len fortran sh : is_shape sh -> length (indices_of (file_order fortran) sh) = Z.to_nat (prod sh).
Proof. intros H. pose proof (indices_of_length (file_order fortran) sh (file_order_order fortran) H). lia. Qed.

Section Load.
Context {V : Type} (little : bool) (ty : npy_type) (enc : V -> bytes) (dec : bytes -> V).
Hypothesis Hrep : represents ty enc dec.

Lemma typestring_ok : type_text ty (build_typestring little ty).
Proof.
  destruct Hrep as (Hk & Hs & _). unfold build_typestring. constructor; [|exact Hk|apply print_ok; lia].
  unfold get_endianess. destruct (ty_size ty <=? 1); [right; right; left; reflexivity|]. destruct little; [left|right; left]; reflexivity.
Qed.

Lemma cast_ok L fortran sh buf w : is_shape sh -> L <> column_major \/ fortran = true -> L <> row_major \/ fortran = false ->
  elements ty dec (Z.to_nat (prod sh)) buf = map w (indices_of (file_order fortran) sh) ->
  exists c, cast_npy little ty dec L (mk_file sh fortran (build_typestring little ty) buf) = Ok c /\ holds c sh w /\ ct_layout c = dynamic /\
    ct_data c = map w (indices_of (file_order fortran) sh).
Proof.
  intros Hsh HL1 HL2 He. unfold cast_npy. cbn [nf_shape nf_fortran nf_type nf_buffer]. rewrite (proj2 (zlist_eqb_eq _ _)) by reflexivity. cbn [negb].
  assert (EL : (layout_eqb L column_major && negb fortran) || (layout_eqb L row_major && fortran) = false).
  { destruct L, fortran; try reflexivity; [destruct HL2 as [HL2|HL2]; [elim HL2; reflexivity|discriminate]|destruct HL1 as [HL1|HL1]; [elim HL1; reflexivity|discriminate]]. }
  rewrite EL. rewrite compute_strides_ok; [|apply repeat_length|exact I]. cbn [bind some_bs]. cbv zeta.
  set (ss := if layout_eqb dynamic row_major || layout_eqb (if fortran then column_major else row_major) row_major then row_strides sh else col_strides sh).
  assert (Ls : length ss = length sh) by (unfold ss; destruct fortran; cbn; [apply col_strides_length|apply row_strides_length]).
  unfold c_resize_strides. cbn [layout_eqb negb]. rewrite adapt_strides_ok; [|exact Ls|rewrite repeat_length; exact Ls]. cbn [bind ct_data].
  rewrite compute_size_prod, He. eexists. split; [reflexivity|]. split; [|split; reflexivity].
  assert (Eo : forall ix, in_bounds sh ix -> element_offset (adapted sh ss) ix = rank (file_order fortran) sh ix).
  { intros ix Hix. rewrite element_offset_same by (rewrite adapted_length; apply in_bounds_length; exact Hix). rewrite dot_adapted by assumption.
    unfold ss. destruct fortran; cbn; [apply dot_col|apply dot_row]; exact Hix. }
  assert (Hd : Z.of_nat (length (map w (indices_of (file_order fortran) sh))) = prod sh).
  { rewrite map_length, indices_of_length; [|apply file_order_order|exact Hsh]. reflexivity. }
  split; [|split; [reflexivity|]].
  - unfold consistent. cbn [ct_shape ct_strides ct_back ct_data ct_layout]. split; [exact Hsh|]. split; [apply adapted_length|].
    split; [unfold spec_backstrides; rewrite map_length, seq_length; reflexivity|]. split; [exact Hd|].
    exists (file_order fortran). split; [apply file_order_order|]. split; [intros [X|X]; discriminate|exact Eo].
  - intros ix Hix. unfold elt. cbn [ct_data ct_strides]. rewrite Eo by exact Hix. apply rdz_ok; [apply rank_bound; exact Hix|].
    rewrite nth_error_map, indices_rank; [reflexivity|apply file_order_order|exact Hix].
Qed.

Lemma data_of_length fortran sh (v : list Z -> V) : is_shape sh -> len (data_of enc fortran sh v) = prod sh * ty_size ty.
Proof.
  intros Hsh. unfold data_of, len. rewrite <- (map_map v enc). rewrite (concat_enc ty enc dec Hrep), map_length, idx_len by exact Hsh.
  pose proof (prod_nonneg sh Hsh). destruct Hrep as (_ & H1 & _). nia.
Qed.

Lemma load_lemma cs L version fortran sh pad (v : list Z -> V) rest file : is_shape sh ->
  Forall (fun n => n < 2 ^ 64) sh -> prod sh * ty_size ty < 2 ^ 64 ->
  npy_format version (build_typestring little ty) fortran sh pad (data_of enc fortran sh v ++ rest) file -> readable cs file ->
  L <> column_major \/ fortran = true -> L <> row_major \/ fortran = false ->
  exists c, load_npy little ty dec cs L file = Ok c /\ holds c sh (fun ix => Some (v ix)) /\ ct_layout c = dynamic.
Proof.
  intros Hsh Hx Hsz Hf Hr HL1 HL2. pose proof (data_of_length fortran sh v Hsh) as Ld. pose proof (prod_nonneg sh Hsh). assert (0 < ty_size ty) by (destruct Hrep as (_ & X & _); lia).
  unfold load_npy. rewrite (load_file_ok cs ty version _ fortran sh pad _ file typestring_ok Hf Hx) by (try exact Hr; nia). cbn [bind].
  rewrite read_app by (unfold len in Ld; lia). cbn [fst].
  destruct (cast_ok L fortran sh (map Some (data_of enc fortran sh v)) (fun ix => Some (v ix)) Hsh HL1 HL2) as (c & Ec & Hc & Hl & _); [|exists c; split; [exact Ec|split; assumption]].
  unfold data_of. rewrite <- (map_map v enc), <- (map_map v Some).
  rewrite <- (idx_len fortran sh Hsh), <- (map_length v). apply (elements_all ty enc dec Hrep).
Qed.

(** Cut in the data *)
Lemma truncated_lemma cs L version fortran sh pad (v : list Z -> V) k file : is_shape sh ->
  Forall (fun n => n < 2 ^ 64) sh -> prod sh * ty_size ty < 2 ^ 64 -> Z.of_nat k < prod sh * ty_size ty ->
  npy_format version (build_typestring little ty) fortran sh pad (firstn k (data_of enc fortran sh v)) file -> readable cs file ->
  L <> column_major \/ fortran = true -> L <> row_major \/ fortran = false ->
  exists c, load_npy little ty dec cs L file = Ok c /\
    holds c sh (fun ix => if (rank (file_order fortran) sh ix + 1) * ty_size ty <=? Z.of_nat k then Some (v ix) else None).
Proof.
  intros Hsh Hx Hsz Hk Hf Hr HL1 HL2. pose proof (data_of_length fortran sh v Hsh) as Ld. pose proof (prod_nonneg sh Hsh). assert (Hty : 0 < ty_size ty) by (destruct Hrep as (_ & X & _); lia).
  unfold load_npy. rewrite (load_file_ok cs ty version _ fortran sh pad _ file typestring_ok Hf Hx) by (try exact Hr; nia). cbn [bind].
  set (D := data_of enc fortran sh v) in *. unfold len in Ld.
  assert (Er : fst (read (Z.to_nat (prod sh * ty_size ty)) (mk_in (firstn k D) true)) = map Some (firstn k D) ++ repeat None (Z.to_nat (prod sh * ty_size ty) - k)).
  { unfold read. cbn [in_ok in_rest]. rewrite firstn_length. replace (Nat.min k (length D)) with k by lia. rewrite (proj2 (Nat.leb_gt _ _)) by lia. reflexivity. }
  rewrite Er. clear Er.
  match goal with |- exists c, cast_npy _ _ _ _ (mk_file _ _ _ ?b) = _ /\ holds _ _ ?w => destruct (cast_ok L fortran sh b w Hsh HL1 HL2) as (c & Ec & Hc & _); [|exists c; split; assumption] end.
  pose proof (idx_len fortran sh Hsh) as Li.
  unfold D, data_of. rewrite <- (map_map v enc). rewrite <- Li, <- (map_length v).
  unfold D, data_of in Ld. rewrite <- (map_map v enc) in Ld.
  rewrite (elements_cut ty enc dec Hrep); [|lia|lia].
  rewrite map_length. set (n := length (indices_of (file_order fortran) sh)) in *. set (sz := Z.to_nat (ty_size ty)) in *.
  assert (Hq : (k / sz <= n)%nat) by (apply Nat.div_le_upper_bound; unfold sz in *; nia).
  apply nth_error_ext. intros i. destruct (Nat.lt_ge_cases i n) as [Hi|Hi].
  - destruct (nth_error (indices_of (file_order fortran) sh) i) as [ix|] eqn:Ei; [|apply nth_error_None in Ei; unfold n in *; lia].
    destruct (rank_indices _ _ _ _ (file_order_order fortran) Hsh Ei) as [Hb Hrk]. rewrite nth_error_map, Ei. cbn [option_map]. rewrite Hrk.
    destruct (Nat.lt_ge_cases i (k / sz)) as [Hlt|Hge].
    + rewrite nth_error_app1 by (rewrite map_length, firstn_length, map_length; fold n; lia). rewrite nth_error_map, nth_error_firstn by exact Hlt.
      rewrite nth_error_map, Ei. cbn [option_map]. rewrite (proj2 (Z.leb_le _ _)); [reflexivity|].
      assert (sz * (k / sz) <= k)%nat by (apply Nat.mul_div_le; unfold sz; lia). unfold sz in *. nia.
    + assert (Lf : length (map Some (firstn (k / sz) (map v (indices_of (file_order fortran) sh)))) = (k / sz)%nat) by (rewrite map_length, firstn_length, map_length; fold n; lia).
      rewrite nth_error_app2 by lia. rewrite Lf. rewrite (proj2 (Z.leb_gt _ _)); [apply nth_error_repeat; lia|].
      assert (k < sz * S (k / sz))%nat by (apply Nat.mul_succ_div_gt; unfold sz; lia). unfold sz in *. nia.
  - rewrite (proj2 (nth_error_None _ _)) by (rewrite app_length, map_length, firstn_length, repeat_length, map_length; fold n; lia).
    symmetry. apply nth_error_None. rewrite map_length. exact Hi.
Qed.

(** Another type, another order *)
Lemma wrong_type_lemma cs L version t descr fortran sh pad data file :
  type_text t descr -> descr <> build_typestring little ty -> Forall (fun n => n < 2 ^ 64) sh -> 0 <= prod sh * ty_size t < 2 ^ 64 ->
  npy_format version descr fortran sh pad data file -> readable cs file ->
  load_npy little ty dec cs L file = Throw runtime_error.
Proof.
  intros Ht Hne Hx Hsz Hf Hr. unfold load_npy. rewrite (load_file_ok cs t version descr fortran sh pad data file) by assumption. cbn [bind].
  unfold cast_npy. cbn [nf_type]. destruct (zlist_eqb descr (build_typestring little ty)) eqn:E; [apply zlist_eqb_eq in E; contradiction|reflexivity].
Qed.
Lemma wrong_order_lemma cs L version t descr fortran sh pad data file :
  type_text t descr -> Forall (fun n => n < 2 ^ 64) sh -> 0 <= prod sh * ty_size t < 2 ^ 64 -> is_order L -> L <> file_order fortran ->
  npy_format version descr fortran sh pad data file -> readable cs file ->
  load_npy little ty dec cs L file = Throw runtime_error.
Proof.
  intros Ht Hx Hsz HL Hne Hf Hr. unfold load_npy. rewrite (load_file_ok cs t version descr fortran sh pad data file) by assumption. cbn [bind].
  unfold cast_npy. cbn [nf_type nf_fortran]. destruct (zlist_eqb _ _); [|reflexivity]. cbn [negb].
  destruct fortran; destruct HL as [ -> | -> ]; try reflexivity; elim Hne; reflexivity.
Qed.

(** Dumping *)
Lemma decimal_length n s : decimal n s -> 10 ^ (len s - 1) <= n \/ len s = 1.
Proof.
  induction 1 as [d H|n s d Hn H IH Hd]; [right; reflexivity|]. left. unfold len in *. rewrite app_length. cbn [length].
  replace (Z.of_nat (length s + 1) - 1) with (Z.of_nat (length s)) by lia.
  destruct IH as [IH|IH].
  - destruct (decimal_digits _ _ H) as [_ Hne]. assert (0 < Z.of_nat (length s)) by (destruct s; [contradiction|cbn; lia]).
    replace (Z.of_nat (length s)) with (Z.succ (Z.of_nat (length s) - 1)) by lia. rewrite Z.pow_succ_r by lia. lia.
  - rewrite IH. lia.
Qed.
Lemma print_length n k : 0 < k -> 0 <= n < 10 ^ k -> len (print n) <= k.
Proof.
  intros Hk Hn. destruct (decimal_length _ _ (print_ok n (proj1 Hn))) as [H|H]; [|lia].
  destruct (Z.le_gt_cases (len (print n)) k) as [G|G]; [exact G|]. assert (10 ^ k <= 10 ^ (len (print n) - 1)) by (apply Z.pow_le_mono_r; lia). lia.
Qed.
Lemma tuple_length k sh : 0 < k -> Forall (fun n => 0 <= n < 10 ^ k) sh -> len (tuple_text (map print sh)) <= Z.max 2 (Z.of_nat (length sh) * (k + 2) + 1).
Proof.
  intros Hk H. assert (C : forall l, Forall (fun n => 0 <= n < 10 ^ k) l -> len (concat (map (fun x : bytes => str ", " ++ x) (map print l))) <= Z.of_nat (length l) * (k + 2)).
  { clear H sh. induction 1 as [|n l Hn H IH]; [apply Z.le_refl|]. cbn [map concat length]. unfold len in *. rewrite !app_length. change (length (str ", ")) with 2%nat.
    pose proof (print_length n k Hk Hn). unfold len in *. rewrite Nat2Z.inj_succ, Z.mul_succ_l. lia. }
  destruct H as [|n sh Hn H]; [apply Z.le_max_l|]. pose proof (print_length n k Hk Hn) as P. destruct sh as [|m sh].
  - cbn [map tuple_text length]. unfold len in *. rewrite !app_length. change (length (str "(")) with 1%nat. change (length (str ",)")) with 2%nat. lia.
  - specialize (C _ H). change (tuple_text (map print (n :: m :: sh))) with (str "(" ++ print n ++ concat (map (fun x : bytes => str ", " ++ x) (map print (m :: sh))) ++ str ")").
    unfold len in *. rewrite !app_length. change (length (str "(")) with 1%nat. change (length (str ")")) with 1%nat. cbn [length] in *. rewrite (Nat2Z.inj_succ (S (length sh))), Z.mul_succ_l. lia.
Qed.
Lemma dict_length fortran sh k j : 0 < k -> 0 < j -> Forall (fun n => 0 <= n < 10 ^ k) sh -> ty_size ty < 10 ^ j ->
  len (header_dict (build_typestring little ty) fortran sh) <= 52 + j + Z.max 2 (Z.of_nat (length sh) * (k + 2) + 1).
Proof.
  intros Hk Hj H Ht. pose proof (tuple_length k sh Hk H) as T. assert (Q : len (print (ty_size ty)) <= j) by (apply print_length; [exact Hj|destruct Hrep as (_ & X & _); lia]).
  unfold header_dict. rewrite shape_text_tuple. unfold build_typestring, len in *. rewrite !app_length. cbn [length]. destruct fortran; cbn [length str list_ascii_of_string map]; lia.
Qed.

Lemma one_dim_order sh : (length sh <= 1)%nat -> indices_of column_major sh = indices_of row_major sh.
Proof.
  destruct sh as [|n [|m sh]]; cbn [length]; intros H; [reflexivity| |lia]. cbn [indices_of rev app]. cbn [row_indices].
  induction (seq 0 (Z.to_nat n)) as [|i l IH]; [reflexivity|]. cbn [map concat flat_map app] in *. rewrite ?map_app in *. cbn [map rev app] in *. first [rewrite IH; reflexivity|congruence].
Qed.

Lemma dump_lemma c sh (v : list Z -> V) : holds c sh v -> is_order (ct_layout c) ->
  Forall (fun n => n < 2 ^ 64) sh -> Z.of_nat (length sh) < 2 ^ 27 ->
  let fortran := layout_eqb (ct_layout c) column_major && (1 <? length sh)%nat in
  exists version pad file, dump_npy little ty enc c = Ok file /\
    npy_format version (build_typestring little ty) fortran sh pad (data_of enc fortran sh v) file /\
    (len file - len (data_of enc fortran sh v)) mod 64 = 0.
Proof.
  intros (Hc & Es & He) Hl Hx Hn fortran. subst sh. pose proof Hc as (Hsh & _ & _ & Hd & _).
  assert (HL : len (header_dict (build_typestring little ty) fortran (ct_shape c)) + 100 < 2 ^ 32).
  { assert (X : len (header_dict (build_typestring little ty) fortran (ct_shape c)) <= 52 + 10 + Z.max 2 (Z.of_nat (length (ct_shape c)) * (20 + 2) + 1)).
    { apply dict_length; [lia|lia| |destruct Hrep as (_ & X & _); lia]. rewrite Forall_forall in Hx |- *. intros n Hin. split; [|specialize (Hx n Hin); lia].
      unfold is_shape in Hsh. rewrite Forall_forall in Hsh. apply Hsh. exact Hin. }
    lia. }
  destruct (write_header_ok (build_typestring little ty) fortran (ct_shape c) Hsh HL) as (version & pad & h & Hv & Hh & Hb & Ha & Ew).
  unfold dump_npy. fold fortran. rewrite compute_size_prod. replace (Z.to_nat (prod (ct_shape c))) with (length (ct_data c)) by lia.
  rewrite Nat.ltb_irrefl, firstn_all, Ew.
  assert (Ed : concat (map enc (ct_data c)) = data_of enc fortran (ct_shape c) v).
  { rewrite (data_list c v Hc Hl He), map_map. unfold data_of. f_equal. f_equal. unfold fortran, file_order.
    destruct Hl as [ -> | -> ]; cbn [layout_eqb andb]; [reflexivity|]. destruct (1 <? _)%nat eqn:E; [reflexivity|]. apply Nat.ltb_ge in E. apply one_dim_order. exact E. }
  rewrite Ed. exists version, pad. eexists. split; [reflexivity|]. split.
  - split; [exact Hv|]. exists h. split; [exact Hh|]. split; [exact Hb|]. rewrite <- !app_assoc. reflexivity.
  - rewrite <- Ha. f_equal. unfold len. rewrite !app_length, little_endian_length. cbn [length]. lia.
Qed.
End Load.
