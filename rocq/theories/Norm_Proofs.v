(** Norms: proofs. *)
From Coq Require Import List ZArith Lia Bool Sorted.
From Verif Require Import Prelude PreludeFacts Strides_Model Strides_Spec Strides_Proofs Access_Model Broadcast_Spec Container_Model Container_Spec
  Stepper_Model Stepper_Spec Stepper4_Proofs Reduce_Model Reduce_Spec Reduce_Proofs Reduce7_Proofs Reduce13_Proofs Accum_Spec Stats_Spec Stats_Proofs Nan_Model Nan_Spec Nan_Proofs Semantic3_Proofs Container_Proofs Reduce15_Proofs Nan2_Proofs Norm_Model Norm_Spec.
Import ListNotations.
Open Scope Z_scope.

Lemma high_pos t : 0 < high t.
Proof. destruct t as [[] []]; cbn; lia. Qed.
Lemma bits_pos t : 0 < 2 ^ bits t.
Proof. destruct t as [[] []]; cbn; lia. Qed.
Lemma value_in_fits t z : 0 <= z <= high t -> value_in t z = Some (Z.to_N z).
Proof.
  intros H. unfold value_in. destruct (signed t) eqn:E.
  - replace (z <=? high t) with true by lia. reflexivity.
  - unfold high in H. rewrite E in H. rewrite Z.mod_small by lia. reflexivity.
Qed.

(** ** The functors *)
Ltac leb_cases := repeat match goal with |- context [?x <=? ?y] => destruct (Z.leb_spec x y) end.
Lemma op_law (op : option N -> option N -> option N) (s : Z -> option N) z :
  (forall a b c, op (op a b) c = op a (op b c)) -> (forall a b, op (op a z) b = op a b) ->
  merge_law (mk_rfun (fun r v => op r (s v)) z op).
Proof.
  intros Ha Hz a ys Hy. cbn [rf_merge rf_reduce rf_init]. destruct ys as [|y ys]; [contradiction|]. cbn [fold_left].
  rewrite <- (Hz a (s y)), (Ha a z (s y)). generalize (op z (s y)). clear Hy y.
  induction ys as [|y ys IH]; intros b; cbn [fold_left]; [reflexivity|]. rewrite IH, Ha. reflexivity.
Qed.
Lemma plus_some t a b : plus_in t (Some a) (Some b) = value_in t (Z.of_N a + Z.of_N b).
Proof. reflexivity. Qed.
Lemma plus_none_r t a : plus_in t a None = None.
Proof. destruct a; reflexivity. Qed.
Lemma plus_none_l t a : plus_in t None a = None.
Proof. reflexivity. Qed.
Lemma value_signed t z : signed t = true -> value_in t z = if z <=? high t then Some (Z.to_N z) else None.
Proof. intros E. unfold value_in. rewrite E. reflexivity. Qed.
Lemma value_unsigned t z : signed t = false -> value_in t z = Some (Z.to_N (z mod 2 ^ bits t)).
Proof. intros E. unfold value_in. rewrite E. reflexivity. Qed.
Lemma plus_assoc t a b c : plus_in t (plus_in t a b) c = plus_in t a (plus_in t b c).
Proof.
  destruct a as [a|]; [|reflexivity]. destruct b as [b|]; [|reflexivity]. destruct c as [c|]; [|rewrite !plus_none_r; reflexivity].
  rewrite !plus_some. destruct (signed t) eqn:E.
  - rewrite (value_signed t (Z.of_N a + Z.of_N b)), (value_signed t (Z.of_N b + Z.of_N c)) by exact E.
    destruct (Z.leb_spec (Z.of_N a + Z.of_N b) (high t)), (Z.leb_spec (Z.of_N b + Z.of_N c) (high t));
      rewrite ?plus_none_r, ?plus_none_l, ?plus_some, ?(value_signed t _ E), ?Z2N.id by lia; leb_cases; try reflexivity; try lia.
    f_equal. f_equal. lia.
  - rewrite !(value_unsigned t _ E), !plus_some, !(value_unsigned t _ E). pose proof (bits_pos t). rewrite !Z2N.id by (apply Z.mod_pos_bound; lia). f_equal. f_equal.
    rewrite Z.add_mod_idemp_l, Z.add_mod_idemp_r by lia. f_equal. lia.
Qed.
Lemma plus_zero t a b : plus_in t (plus_in t a (Some 0%N)) b = plus_in t a b.
Proof.
  destruct a as [a|]; [|reflexivity]. destruct b as [b|]; [|rewrite !plus_none_r; reflexivity].
  rewrite !plus_some. change (Z.of_N 0) with 0. rewrite Z.add_0_r. destruct (signed t) eqn:E.
  - rewrite (value_signed t (Z.of_N a)) by exact E. destruct (Z.leb_spec (Z.of_N a) (high t)); rewrite ?plus_none_l, ?plus_some, ?(value_signed t _ E), ?Z2N.id by lia;
      leb_cases; try reflexivity; try lia.
  - rewrite !(value_unsigned t _ E), plus_some, (value_unsigned t _ E). pose proof (bits_pos t). rewrite Z2N.id by (apply Z.mod_pos_bound; lia). rewrite Z.add_mod_idemp_l by lia. reflexivity.
Qed.
Lemma max_assoc a b c : max_of (max_of a b) c = max_of a (max_of b c).
Proof. destruct a, b, c; cbn [max_of lift]; try reflexivity. rewrite N.max_assoc. reflexivity. Qed.
Lemma max_zero a b : max_of (max_of a (Some 0%N)) b = max_of a b.
Proof. destruct a, b; cbn [max_of lift]; try reflexivity. rewrite N.max_0_r. reflexivity. Qed.
Lemma l0_law : merge_law l0_f. Proof. apply op_law; [apply plus_assoc|apply plus_zero]. Qed.
Lemma l1_law t : merge_law (l1_f t). Proof. apply op_law; [apply plus_assoc|apply plus_zero]. Qed.
Lemma sq_law t : merge_law (sq_f t). Proof. apply op_law; [apply plus_assoc|apply plus_zero]. Qed.
Lemma linf_law t : merge_law (linf_f t). Proof. apply op_law; [apply max_assoc|apply max_zero]. Qed.

Lemma sum_nonneg l : Forall (fun x => 0 <= x) l -> 0 <= sum_of l.
Proof. intros H. induction H; cbn [sum_of fold_right]; [lia|]. fold (sum_of l). lia. Qed.
Lemma fold_sum t (s : Z -> option N) (w : Z -> Z) l : Forall (fun v => 0 <= w v /\ s v = Some (Z.to_N (w v))) l ->
  forall a, Z.of_N a + sum_of (map w l) <= high t -> fold_left (fun r v => plus_in t r (s v)) l (Some a) = Some (Z.to_N (Z.of_N a + sum_of (map w l))).
Proof.
  intros H. induction H as [|v l [Hw Hs] Hl IH]; intros a Ha; cbn [map sum_of fold_right fold_left] in *.
  - f_equal. lia.
  - fold (sum_of (map w l)) in *. rewrite Hs, plus_some.
    assert (Hn : 0 <= sum_of (map w l)).
    { apply sum_nonneg. rewrite Forall_map. eapply Forall_impl; [|exact Hl]. cbv beta. intros x [Hx _]. exact Hx. }
    rewrite Z2N.id by lia. rewrite value_in_fits by lia. rewrite IH by (rewrite Z2N.id by lia; lia). f_equal. rewrite Z2N.id by lia. f_equal. lia.
Qed.
Lemma l1_value t v : Z.abs v <= high (promoted t) -> (signed t = false -> 0 <= v) -> scalar_l1 t v = Some (Z.to_N (Z.abs v)).
Proof.
  intros H Hu. unfold scalar_l1. destruct (signed t) eqn:E; [apply value_in_fits; lia|]. rewrite Z.abs_eq by auto. reflexivity.
Qed.
Lemma linf_value t v : Z.abs v <= high (promoted t) -> (signed t = false -> 0 <= v) -> scalar_linf t v = Some (Z.to_N (Z.abs v)).
Proof. exact (l1_value t v). Qed.
Lemma sq_value t v : v * v <= high (promoted t) -> scalar_sq t v = Some (Z.to_N (v * v)).
Proof. intros H. unfold scalar_sq. apply value_in_fits. nia. Qed.
Lemma count_sum l : count_of l = sum_of (map (fun v => if v =? 0 then 0 else 1) l).
Proof.
  unfold count_of. induction l as [|v l IH]; [reflexivity|]. cbn [filter map sum_of fold_right]. fold (sum_of (map (fun v => if v =? 0 then 0 else 1) l)).
  rewrite <- IH. destruct (v =? 0); cbn [negb length]; lia.
Qed.
Lemma fold_max (s : Z -> option N) l : Forall (fun v => s v = Some (Z.to_N (Z.abs v))) l ->
  forall a, fold_left (fun r v => max_of r (s v)) l (Some a) = Some (N.max a (Z.to_N (max_abs l))).
Proof.
  intros H. induction H as [|v l Hs Hl IH]; intros a; cbn [max_abs map fold_right fold_left].
  - change (Z.to_N 0) with 0%N. rewrite N.max_0_r. reflexivity.
  - fold (max_abs l). rewrite Hs. cbn [max_of lift]. rewrite IH. f_equal. rewrite Z2N.inj_max. lia.
Qed.
Lemma max_abs_nonneg l : 0 <= max_abs l.
Proof. unfold max_abs. induction l; cbn; lia. Qed.

(** What the functors give, for the elements of a block *)
Definition as_res (x : option N) : res Z := match x with Some n => Ok (Z.of_N n) | None => UB end.
Lemma l0_block l : is_l0 l (as_res (fold_left (rf_reduce l0_f) l (rf_init l0_f))).
Proof.
  intros Hc. cbn [rf_reduce rf_init l0_f]. rewrite (fold_sum _ scalar_l0 (fun v => if v =? 0 then 0 else 1)).
  - cbn [as_res]. rewrite <- count_sum. unfold count_of in *. f_equal. lia.
  - apply Forall_forall. intros v _. unfold scalar_l0. destruct (v =? 0); split; try lia; reflexivity.
  - rewrite <- count_sum. unfold high. cbn [signed bits wide]. lia.
Qed.
Definition typed_list (t : ity) (l : list Z) : Prop := Forall (fun v => low t <= v <= high t) l.
Lemma typed_unsigned t v : low t <= v <= high t -> signed t = false -> 0 <= v.
Proof. intros H E. unfold low in H. rewrite E in H. lia. Qed.
Lemma l1_block t l : typed_list t l -> is_l1 t l (as_res (fold_left (rf_reduce (l1_f t)) l (rf_init (l1_f t)))).
Proof.
  intros Ht Hf Hs. cbn [rf_reduce rf_init l1_f]. rewrite (fold_sum _ (scalar_l1 t) Z.abs).
  - cbn [as_res]. f_equal. rewrite Z2N.id; [reflexivity|]. change (Z.of_N 0) with 0. rewrite Z.add_0_l. apply sum_nonneg. rewrite Forall_map. apply Forall_forall. lia.
  - unfold typed_list in Ht. rewrite Forall_forall in *. intros v Hv. split; [lia|]. apply l1_value; [auto|]. intros E. eapply typed_unsigned; eauto.
  - exact Hs.
Qed.
Lemma sq_block t l : is_sq t l (as_res (fold_left (rf_reduce (sq_f t)) l (rf_init (sq_f t)))).
Proof.
  intros Hf Hs. cbn [rf_reduce rf_init sq_f]. rewrite (fold_sum _ (scalar_sq t) (fun v => v * v)).
  - cbn [as_res]. f_equal. rewrite Z2N.id; [reflexivity|]. change (Z.of_N 0) with 0. rewrite Z.add_0_l. apply sum_nonneg. rewrite Forall_map. apply Forall_forall. intros; nia.
  - rewrite Forall_forall in *. intros v Hv. split; [nia|]. apply sq_value; auto.
  - exact Hs.
Qed.
Lemma linf_block t l : typed_list t l -> is_linf t l (as_res (fold_left (rf_reduce (linf_f t)) l (rf_init (linf_f t)))).
Proof.
  intros Ht Hf. cbn [rf_reduce rf_init linf_f]. rewrite (fold_max (scalar_linf t)).
  - cbn [as_res]. rewrite N.max_0_l. rewrite Z2N.id by apply max_abs_nonneg. reflexivity.
  - unfold typed_list in Ht. rewrite Forall_forall in *. intros v Hv. apply linf_value; [auto|]. intros E. eapply typed_unsigned; eauto.
Qed.

(** ** Lazy reductions *)
Lemma block_bounds l keep axes esh ix jx : In jx (block l keep axes esh ix) -> in_bounds esh jx.
Proof.
  unfold block. intros H. apply filter_In in H as [H _].
  assert (G : In jx (map (@rev Z) (row_indices (rev esh))) -> in_bounds esh jx).
  { intros K. apply in_map_iff in K as (kx & <- & K). apply row_indices_in in K. apply Stepper_Proofs.in_bounds_rev in K. rewrite rev_involutive in K. exact K. }
  destruct l; cbn [indices_of] in H; auto. apply row_indices_in. exact H.
Qed.
Lemma typed_block t l keep axes esh ix ev : typed t esh ev -> typed_list t (map ev (block l keep axes esh ix)).
Proof. intros H. unfold typed_list. rewrite Forall_map. apply Forall_forall. intros jx Hj. apply H. eapply block_bounds. exact Hj. Qed.
Lemma norms_lemma (f : rfun Z (option N)) esh e ev axes pos keep (P : list Z -> res Z -> Prop) : Z.of_nat (length esh) < 2 ^ 64 -> is_shape esh -> has_elements esh e ev ->
  names (length esh) axes pos -> valid_axes (length esh) pos -> merge_law f ->
  (forall ix, P (map ev (block row_major keep pos esh ix)) (as_res (fold_left (rf_reduce f) (map ev (block row_major keep pos esh ix)) (rf_init f)))) ->
  norms (norm_axes f esh e axes keep) keep pos esh ev P.
Proof.
  intros Hd Hs He Hn Hv Hl HP. destruct (reduce_axes_lemma f None esh e ev axes pos keep Hd Hs He Hn Hv Hl) as (q & E & Eq & H).
  exists q. unfold norm_axes. rewrite E. split; [reflexivity|]. split; [exact Eq|]. intros ix Hi. unfold norm_at. rewrite (H ix Hi). cbn [bind]. apply HP.
Qed.
Lemma lazy_norms_lemma t esh e ev axes pos keep : Z.of_nat (length esh) < 2 ^ 64 -> is_shape esh -> has_elements esh e ev -> typed t esh ev ->
  names (length esh) axes pos -> valid_axes (length esh) pos ->
  norms (norm_axes l0_f esh e axes keep) keep pos esh ev is_l0 /\
  norms (norm_axes (l1_f t) esh e axes keep) keep pos esh ev (is_l1 t) /\
  norms (norm_axes (sq_f t) esh e axes keep) keep pos esh ev (is_sq t) /\
  norms (norm_axes (linf_f t) esh e axes keep) keep pos esh ev (is_linf t).
Proof.
  intros Hd Hs He Ht Hn Hv.
  split; [|split; [|split]]; apply norms_lemma; auto using l0_law, l1_law, sq_law, linf_law; intros ix.
  - apply l0_block.
  - apply l1_block. apply typed_block. exact Ht.
  - apply sq_block.
  - apply linf_block. apply typed_block. exact Ht.
Qed.
Lemma all_names dim : names dim (all_axes dim) (all_axes dim).
Proof.
  unfold names, all_axes. assert (G : forall l, Forall (fun i => (i < dim)%nat) l -> Forall2 (fun a p => 0 <= p < Z.of_nat dim /\ (a = p \/ a = p - Z.of_nat dim)) (map Z.of_nat l) (map Z.of_nat l)).
  { intros l H. induction H; cbn [map]; constructor; auto. split; [lia|left; reflexivity]. }
  apply G. apply Forall_forall. intros i Hi. apply in_seq in Hi. lia.
Qed.
Lemma all_valid dim : valid_axes dim (all_axes dim).
Proof.
  unfold valid_axes, all_axes. split.
  - assert (G : forall n k, StronglySorted Z.lt (map Z.of_nat (seq k n))).
    { induction n as [|n IH]; intros k; cbn [seq map]; constructor; [apply IH|]. rewrite Forall_map. apply Forall_forall. intros i Hi. apply in_seq in Hi. lia. }
    apply G.
  - rewrite Forall_map. apply Forall_forall. intros i Hi. apply in_seq in Hi. lia.
Qed.
Lemma braces_id f esh e axes keep : Forall (fun a => 0 <= a < 2 ^ 64) axes -> norm_braces f esh e axes keep = norm_axes f esh e axes keep.
Proof.
  intros H. unfold norm_braces. f_equal. induction H as [|a axes Ha H IH]; [reflexivity|]. cbn [map]. rewrite IH. unfold to_size_t. rewrite Z.mod_small by lia. reflexivity.
Qed.

(** ** Immediate reductions *)
Lemma norms_now_lemma (f : rfun Z (option N)) SL DL conv fresh r0 keep c axes ev (P : list Z -> res Z -> Prop) :
  (forall d n, 0 <= n -> Z.of_nat (length (fresh d n)) = n) -> reducible SL c ev -> valid_axes (length (ct_shape c)) axes ->
  ~ copied (ct_layout c) axes (ct_shape c) -> merge_law f ->
  (forall ix, P (map ev (block (ct_layout c) keep axes (ct_shape c) ix)) (as_res (fold_left (rf_reduce f) (map ev (block (ct_layout c) keep axes (ct_shape c) ix)) (rf_init f)))) ->
  norms_now (reduce_immediate f SL DL conv fresh r0 keep None c axes) keep axes c ev P.
Proof.
  intros Hf Hc Hv Hn Hl HP.
  destruct (immediately_lemma f SL DL conv fresh r0 keep c axes ev (fun b x => x = fold_left (rf_reduce f) (map ev b) (rf_init f)) Hf Hc Hv) as (q & E & Hq & Es & Hx); auto; [tauto|].
  exists q. split; [exact E|]. split; [exact Hq|]. split; [exact Es|]. intros ix Hi. destruct (Hx ix Hi) as (x & Ex & ->). rewrite Ex. cbn [bind]. apply HP.
Qed.
Lemma now_norms_lemma t SL DL conv fresh r0 keep c axes ev :
  (forall d n, 0 <= n -> Z.of_nat (length (fresh d n)) = n) -> reducible SL c ev -> typed t (ct_shape c) ev -> valid_axes (length (ct_shape c)) axes ->
  ~ copied (ct_layout c) axes (ct_shape c) ->
  norms_now (reduce_immediate l0_f SL DL conv fresh r0 keep None c axes) keep axes c ev is_l0 /\
  norms_now (reduce_immediate (l1_f t) SL DL conv fresh r0 keep None c axes) keep axes c ev (is_l1 t) /\
  norms_now (reduce_immediate (sq_f t) SL DL conv fresh r0 keep None c axes) keep axes c ev (is_sq t) /\
  norms_now (reduce_immediate (linf_f t) SL DL conv fresh r0 keep None c axes) keep axes c ev (is_linf t).
Proof.
  intros Hf Hc Ht Hv Hn.
  split; [|split; [|split]]; apply norms_now_lemma; auto using l0_law, l1_law, sq_law, linf_law; intros ix.
  - apply l0_block.
  - apply l1_block. apply typed_block. exact Ht.
  - apply sq_block.
  - apply linf_block. apply typed_block. exact Ht.
Qed.

(** ** Axes out of range *)
Lemma bad_terminates f esh e axes keep : Z.of_nat (length esh) < 2 ^ 63 -> esh <> [] -> ~ valid_axes (length esh) (map (normalize_axis (length esh)) axes) ->
  (length axes <= length esh)%nat \/ keep = true -> norm_axes f esh e axes keep = Terminated.
Proof.
  intros Hd Hne Hv Hl. unfold norm_axes, reduce_axes. rewrite bad_axes_lemma; auto; [lia| |rewrite map_length; exact Hl].
  rewrite Forall_map. apply Forall_forall. intros a _. unfold normalize_axis. destruct (Z.ltb_spec a 0); [|assumption]. unfold to_size_t. apply Z.mod_pos_bound. lia.
Qed.
Lemma braces_negative f esh e axes keep : Z.of_nat (length esh) < 2 ^ 63 -> esh <> [] -> Exists (fun a => - 2 ^ 63 <= a < 0) axes ->
  (length axes <= length esh)%nat \/ keep = true -> norm_braces f esh e axes keep = Terminated.
Proof.
  intros Hd Hne Hx Hl. apply bad_terminates; auto; [|rewrite map_length; exact Hl]. intros [_ Hf]. rewrite Forall_forall in Hf.
  apply Exists_exists in Hx as (a & Ha & Hn). specialize (Hf (normalize_axis (length esh) (to_size_t a))).
  assert (E : normalize_axis (length esh) (to_size_t a) = a + 2 ^ 64).
  { unfold to_size_t. replace (a mod 2 ^ 64) with (a + 2 ^ 64); [|rewrite <- (Z.mod_small (a + 2 ^ 64) (2 ^ 64)) by lia; rewrite <- (Z_mod_plus_full a 1 (2 ^ 64)); f_equal; lia].
    unfold normalize_axis. destruct (Z.ltb_spec (a + 2 ^ 64) 0); [lia|reflexivity]. }
  rewrite E in Hf. assert (0 <= a + 2 ^ 64 < Z.of_nat (length esh)); [|lia]. apply Hf. rewrite <- E. apply in_map. apply in_map. exact Ha.
Qed.

(** ** Induced norms *)
Lemma only_index n j : 0 <= j < n -> filter (fun i => Z.of_nat i =? j) (seq 0 (Z.to_nat n)) = [Z.to_nat j].
Proof.
  intros H. replace (Z.to_nat n) with (Z.to_nat j + S (Z.to_nat n - Z.to_nat j - 1))%nat by lia. rewrite seq_app, filter_app. cbn [seq filter].
  assert (G : forall k m, (forall i, (k <= i < k + m)%nat -> Z.of_nat i <> j) -> filter (fun i => Z.of_nat i =? j) (seq k m) = []).
  { intros k m. revert k. induction m as [|m IH]; intros k Hk; [reflexivity|]. cbn [seq filter]. replace (Z.of_nat k =? j) with false by (specialize (Hk k); lia). apply IH. intros i Hi. apply Hk. lia. }
  rewrite (G 0%nat) by lia. destruct (Z.eqb_spec (Z.of_nat (0 + Z.to_nat j)) j); [|lia]. rewrite G by lia. cbn [app]. f_equal; lia.
Qed.
Lemma filter_flat {A B} (p : B -> bool) (g : A -> list B) l : filter p (flat_map g l) = flat_map (fun a => filter p (g a)) l.
Proof. induction l as [|a l IH]; [reflexivity|]. cbn [flat_map]. rewrite filter_app, IH. reflexivity. Qed.
Lemma filter_map {A B} (p : B -> bool) (g : A -> B) l : filter p (map g l) = map g (filter (fun a => p (g a)) l).
Proof. induction l as [|a l IH]; [reflexivity|]. cbn [map filter]. destruct (p (g a)); cbn [map]; rewrite IH; reflexivity. Qed.
Lemma row_indices_1 n : row_indices [n] = map (fun j => [Z.of_nat j]) (seq 0 (Z.to_nat n)).
Proof. cbn [row_indices map]. induction (seq 0 (Z.to_nat n)) as [|a l IH]; [reflexivity|]. cbn [flat_map map app]. rewrite IH. reflexivity. Qed.
Lemma column_block r c j : 0 <= j < c -> block row_major false [0] [r; c] [j] = map (fun i => [Z.of_nat i; j]) (seq 0 (Z.to_nat r)).
Proof.
  intros H. unfold block. cbn [indices_of]. change (row_indices [r; c]) with (flat_map (fun i => map (cons (Z.of_nat i)) (row_indices [c])) (seq 0 (Z.to_nat r))).
  rewrite filter_flat, row_indices_1. induction (seq 0 (Z.to_nat r)) as [|i l IH]; [reflexivity|]. cbn [flat_map map]. rewrite IH. clear IH.
  rewrite map_map, filter_map.
  rewrite (filter_ext _ (fun i => Z.of_nat i =? j)).
  - rewrite (only_index c j H). cbn [map app]. do 2 f_equal. f_equal. lia.
  - intros k. change (red_index false [0] [Z.of_nat i; Z.of_nat k]) with [Z.of_nat k]. destruct (list_eq_dec Z.eq_dec [Z.of_nat k] [j]) as [E|E]; [injection E as E; lia|]. destruct (Z.eqb_spec (Z.of_nat k) j); [subst; contradiction|reflexivity].
Qed.
Lemma row_block r c i : 0 <= i < r -> block row_major false [1] [r; c] [i] = map (fun j => [i; Z.of_nat j]) (seq 0 (Z.to_nat c)).
Proof.
  intros H. unfold block. cbn [indices_of]. change (row_indices [r; c]) with (flat_map (fun i => map (cons (Z.of_nat i)) (row_indices [c])) (seq 0 (Z.to_nat r))).
  rewrite filter_flat.
  assert (E : forall k, filter (fun jx => if list_eq_dec Z.eq_dec (red_index false [1] jx) [i] then true else false) (map (cons (Z.of_nat k)) (row_indices [c])) =
    if Z.of_nat k =? i then map (cons (Z.of_nat k)) (row_indices [c]) else []).
  { intros k. rewrite row_indices_1, map_map, filter_map. rewrite (filter_ext _ (fun _ => Z.of_nat k =? i)).
    - destruct (Z.of_nat k =? i); [|induction (seq 0 (Z.to_nat c)); [reflexivity|assumption]].
      f_equal. induction (seq 0 (Z.to_nat c)) as [|a l IH]; [reflexivity|]. cbn [filter]. rewrite IH. reflexivity.
    - intros a. change (red_index false [1] [Z.of_nat k; Z.of_nat a]) with [Z.of_nat k]. destruct (list_eq_dec Z.eq_dec [Z.of_nat k] [i]) as [E|E]; [injection E as E; lia|]. destruct (Z.eqb_spec (Z.of_nat k) i); [subst; contradiction|reflexivity]. }
  rewrite (flat_map_ext _ _ E). transitivity (flat_map (fun k => map (cons (Z.of_nat k)) (row_indices [c])) (filter (fun k => Z.of_nat k =? i) (seq 0 (Z.to_nat r)))).
  - induction (seq 0 (Z.to_nat r)) as [|a l IH]; [reflexivity|]. cbn [flat_map filter]. rewrite IH. destruct (Z.of_nat a =? i); reflexivity.
  - rewrite (only_index r i H). cbn [flat_map]. rewrite app_nil_r, row_indices_1, map_map. replace (Z.of_nat (Z.to_nat i)) with i by lia. reflexivity.
Qed.

Lemma induced_law t : merge_law (induced_f t).
Proof.
  intros a ys Hy. cbn [rf_merge rf_reduce rf_init induced_f].
  set (s := fun v : option N => match v with Some n => scalar_linf t (Z.of_N n) | None => None end).
  destruct ys as [|y ys]; [contradiction|]. cbn [fold_left]. change (match y with Some n => scalar_linf t (Z.of_N n) | None => None end) with (s y).
  change (fun r v => max_of r match v with Some n => scalar_linf t (Z.of_N n) | None => None end) with (fun r v => max_of r (s v)).
  rewrite <- (max_zero a (s y)), (max_assoc a (Some 0%N) (s y)). generalize (max_of (Some 0%N) (s y)). clear Hy y.
  induction ys as [|y ys IH]; intros b; cbn [fold_left]; [reflexivity|]. rewrite IH, max_assoc. reflexivity.
Qed.
Lemma fold_induced t l : Forall (fun v => 0 <= v <= high (big t)) l -> forall a,
  fold_left (rf_reduce (induced_f (big t))) (map (fun v => Some (Z.to_N v)) l) (Some a) = Some (N.max a (Z.to_N (max_abs l))).
Proof.
  intros H. induction H as [|v l Hv Hl IH]; intros a; cbn [max_abs map fold_right fold_left].
  - change (Z.to_N 0) with 0%N. rewrite N.max_0_r. reflexivity.
  - fold (max_abs l). cbn [rf_reduce induced_f]. rewrite Z2N.id by lia. rewrite (linf_value (big t) v).
    + cbn [max_of lift]. change (fun (r v0 : option N) => max_of r match v0 with Some n => scalar_linf (big t) (Z.of_N n) | None => None end) with (rf_reduce (induced_f (big t))).
      rewrite IH. f_equal. rewrite Z2N.inj_max. lia.
    + unfold promoted, big. cbn [wide]. fold (big t). lia.
    + lia.
Qed.

Lemma one_shape n : is_shape [n] <-> 0 <= n.
Proof. split; [intros H; inversion H; assumption|intros H; constructor; [exact H|constructor]]. Qed.
Lemma indexed_elements {V} n (f : list Z -> V) : has_elements [n] (XIndexed [n] f) f.
Proof.
  split; [cbn; split; [apply fits_self|discriminate]|]. intros jx Hj. cbn [x_value]. rewrite Semantic3_Proofs.bc_index_self by exact Hj. reflexivity.
Qed.

(** The values of the inner reduction, as a function of the index *)
Lemma inner_lemma t esh e ev axis other n (part : Z -> list Z) keep : keep = false -> Z.of_nat (length esh) < 2 ^ 64 -> is_shape esh -> has_elements esh e ev -> typed t esh ev ->
  names (length esh) [axis] [axis] -> valid_axes (length esh) [axis] -> 0 <= axis < 2 ^ 64 -> red_shape keep [axis] esh = [n] -> other = length [n] ->
  (forall j, 0 <= j < n -> map ev (block row_major keep [axis] esh [j]) = part j) ->
  (forall j, 0 <= j < n -> Forall (fun v => Z.abs v <= high (promoted t)) (part j) /\ sum_of (map Z.abs (part j)) <= high (big t)) ->
  exists q, norm_braces (l1_f t) esh e [axis] keep = Returned q /\ g_shape q = [n] /\
    forall j, 0 <= j < n -> g_at q [j] = Ok (Some (Z.to_N (sum_of (map Z.abs (part j))))).
Proof.
  intros -> Hd Hs He Ht Hn Hv Ha Hr _ Hp Hf.
  rewrite braces_id by (constructor; [exact Ha|constructor]).
  destruct (lazy_norms_lemma t esh e ev [axis] [axis] false Hd Hs He Ht Hn Hv) as (_ & (q & E & Es & Hq) & _).
  exists q. split; [exact E|]. split; [congruence|]. intros j Hj.
  assert (Hb : in_bounds (red_shape false [axis] esh) [j]) by (rewrite Hr; constructor; [lia|constructor]).
  specialize (Hq [j] Hb). rewrite (Hp j Hj) in Hq. destruct (Hf j Hj) as [F1 F2]. specialize (Hq F1 F2).
  unfold norm_at in Hq. destruct (g_at q [j]) as [[m|]| |]; cbn [bind] in Hq; try discriminate. injection Hq as Hq. rewrite <- Hq. rewrite N2Z.id. reflexivity.
Qed.
Lemma fold_ext {A B} (f g : A -> B -> A) l : (forall a b, In b l -> f a b = g a b) -> forall a, fold_left f l a = fold_left g l a.
Proof. induction l as [|b l IH]; intros H a; [reflexivity|]. cbn [fold_left]. rewrite H by (left; reflexivity). apply IH. intros; apply H; right; assumption. Qed.

Lemma outer_lemma t q n (s : Z -> Z) : 0 <= n -> g_shape q = [n] -> (forall j, 0 <= j < n -> g_at q [j] = Ok (Some (Z.to_N (s j))) /\ 0 <= s j <= high (big t)) ->
  exists o, noexcept (reduce_axes (induced_f (big t)) None (g_shape q)
      (XIndexed (g_shape q) (fun ix => match g_at q ix with Ok x => x | _ => None end)) (all_axes (length (g_shape q))) false) = Returned o /\
    g_shape o = [] /\ norm_at o [] = Ok (max_abs (map (fun j => s (Z.of_nat j)) (seq 0 (Z.to_nat n)))).
Proof.
  intros Hn Es Hq. rewrite Es.
  destruct (reduce_axes_lemma (induced_f (big t)) None [n] (XIndexed [n] (fun ix => match g_at q ix with Ok x => x | _ => None end)) (fun ix => match g_at q ix with Ok x => x | _ => None end) (all_axes 1) (all_axes 1) false)
    as (o & E & Eo & Ho).
  { cbn. lia. }
  { apply one_shape. exact Hn. }
  { apply indexed_elements. }
  { apply all_names. }
  { apply all_valid. }
  { apply induced_law. }
  change (all_axes (length [n])) with (all_axes 1). rewrite E. exists o. split; [reflexivity|]. split; [exact Eo|].
  unfold norm_at. rewrite Ho by constructor. cbn [bind].
  assert (Eb : block row_major false (all_axes 1) [n] [] = row_indices [n]) by (apply (all_block false [n] []); constructor). rewrite Eb. rewrite row_indices_1, map_map.
  rewrite (map_ext_in _ (fun j => Some (Z.to_N (s (Z.of_nat j))))).
  - rewrite <- (map_map (fun j => s (Z.of_nat j)) (fun v => Some (Z.to_N v))). cbn [rf_init induced_f]. rewrite fold_induced.
    + rewrite N.max_0_l, Z2N.id by apply max_abs_nonneg. reflexivity.
    + rewrite Forall_map. apply Forall_forall. intros j Hj. apply in_seq in Hj. apply Hq. lia.
  - intros j Hj. apply in_seq in Hj. destruct (Hq (Z.of_nat j)) as [-> _]; [lia|reflexivity].
Qed.

Lemma abs_nonneg l : 0 <= sum_of (map Z.abs l).
Proof. apply sum_nonneg. rewrite Forall_map. apply Forall_forall. lia. Qed.

Lemma induced_lemma t r c e ev : 0 <= r -> 0 <= c -> has_elements [r; c] e ev -> typed t [r; c] ev ->
  (forall i j, 0 <= i < r -> 0 <= j < c -> Z.abs (ev [i; j]) <= high (promoted t)) ->
  ((forall j, 0 <= j < c -> sum_of (map Z.abs (column r j ev)) <= high (big t)) ->
   exists q, induced 0 t [r; c] e false = Ok (Returned q) /\ g_shape q = [] /\
     norm_at q [] = Ok (max_abs (map (fun j => sum_of (map Z.abs (column r (Z.of_nat j) ev))) (seq 0 (Z.to_nat c))))) /\
  ((forall i, 0 <= i < r -> sum_of (map Z.abs (row c i ev)) <= high (big t)) ->
   exists q, induced 1 t [r; c] e false = Ok (Returned q) /\ g_shape q = [] /\
     norm_at q [] = Ok (max_abs (map (fun i => sum_of (map Z.abs (row c (Z.of_nat i) ev))) (seq 0 (Z.to_nat r))))).
Proof.
  intros Hr Hc He Ht Hf. split; intros Hs; unfold induced; cbn [length Nat.eqb negb].
  - destruct (inner_lemma t [r; c] e ev 0 1 c (fun j => column r j ev) false) as (q & E & Es & Hq); auto; try (cbn; lia).
    { repeat constructor; assumption. }
    { constructor; [cbn; lia|constructor]. }
    { split; [repeat constructor|constructor; [cbn; lia|constructor]]. }
    { intros j Hj. rewrite (column_block r c j Hj), map_map. reflexivity. }
    { intros j Hj. split; [|apply Hs; exact Hj]. unfold column. rewrite Forall_map. apply Forall_forall. intros i Hi. apply in_seq in Hi. apply Hf; lia. }
    destruct (outer_lemma t q c (fun j => sum_of (map Z.abs (column r j ev))) Hc Es) as (o & Eo & H); [|].
    { intros j Hj. split; [apply Hq; exact Hj|split; [apply abs_nonneg|apply Hs; exact Hj]]. }
    exists o. rewrite E, Eo. split; [reflexivity|exact H].
  - destruct (inner_lemma t [r; c] e ev 1 1 r (fun i => row c i ev) false) as (q & E & Es & Hq); auto; try (cbn; lia).
    { repeat constructor; assumption. }
    { constructor; [cbn; lia|constructor]. }
    { split; [repeat constructor|constructor; [cbn; lia|constructor]]. }
    { intros i Hi. rewrite (row_block r c i Hi), map_map. reflexivity. }
    { intros i Hi. split; [|apply Hs; exact Hi]. unfold row. rewrite Forall_map. apply Forall_forall. intros j Hj. apply in_seq in Hj. apply Hf; lia. }
    destruct (outer_lemma t q r (fun i => sum_of (map Z.abs (row c i ev))) Hr Es) as (o & Eo & H); [|].
    { intros j Hj. split; [apply Hq; exact Hj|split; [apply abs_nonneg|apply Hs; exact Hj]]. }
    exists o. rewrite E, Eo. split; [reflexivity|exact H].
Qed.
Lemma induced_dimension axis t esh e keep : length esh <> 2%nat -> induced axis t esh e keep = Throw runtime_error.
Proof. intros H. unfold induced. destruct (Nat.eqb_spec (length esh) 2); [contradiction|reflexivity]. Qed.

(** ** Elements whose norm is no value of the type *)
Lemma fold_none {A} (op : option N -> option N -> option N) (s : A -> option N) l v : (forall a, op a None = None) -> (forall b, op None b = None) -> In v l -> s v = None ->
  forall a, fold_left (fun r v => op r (s v)) l a = None.
Proof.
  intros H1 H2. induction l as [|w l IH]; intros Hv Hs a; [contradiction|]. cbn [fold_left]. destruct Hv as [ -> |Hv]; [|apply IH; assumption].
  rewrite Hs, H1. clear -H2. induction l as [|w l IH]; [reflexivity|]. cbn [fold_left]. rewrite H2. exact IH.
Qed.
Lemma max_none_r a : max_of a None = None.
Proof. destruct a; reflexivity. Qed.
Lemma least_undefined t v : signed t = true -> wide t = W32 \/ wide t = W64 -> v = low t -> scalar_l1 t v = None.
Proof. destruct t as [sg w]. cbn [signed wide]. intros -> [ -> | -> ] -> ; reflexivity. Qed.
Lemma square_undefined t v : signed (promoted t) = true -> high (promoted t) < v * v -> scalar_sq t v = None.
Proof. intros E H. unfold scalar_sq. rewrite value_signed by exact E. destruct (Z.leb_spec (v * v) (high (promoted t))); [lia|reflexivity]. Qed.
Lemma red_index_bounds keep axes sh jx : in_bounds sh jx -> in_bounds (red_shape keep axes sh) (red_index keep axes jx).
Proof.
  unfold red_shape, red_index. intros H.
  assert (G : forall k, in_bounds (replaced axes 1 k sh) (replaced axes 0 k jx) /\ in_bounds (without axes k sh) (without axes k jx)).
  { induction H as [|d i sh jx Hi H IH]; intros k; cbn [replaced without]; [split; constructor|]. destruct (IH (k + 1)) as [H1 H2].
    split; [constructor; [destruct (in_dec Z.eq_dec k axes); lia|exact H1]|]. destruct (in_dec Z.eq_dec k axes); [exact H2|constructor; assumption]. }
  destruct keep; apply G.
Qed.
Lemma undefined_lemma t esh e ev axes pos keep jx : Z.of_nat (length esh) < 2 ^ 64 -> is_shape esh -> has_elements esh e ev ->
  names (length esh) axes pos -> valid_axes (length esh) pos -> in_bounds esh jx ->
  (signed t = true -> wide t = W32 \/ wide t = W64 -> ev jx = low t ->
   (exists q, norm_axes (l1_f t) esh e axes keep = Returned q /\ norm_at q (red_index keep pos jx) = UB) /\
   (exists q, norm_axes (linf_f t) esh e axes keep = Returned q /\ norm_at q (red_index keep pos jx) = UB)) /\
  (signed (promoted t) = true -> high (promoted t) < ev jx * ev jx ->
   exists q, norm_axes (sq_f t) esh e axes keep = Returned q /\ norm_at q (red_index keep pos jx) = UB).
Proof.
  intros Hd Hs He Hn Hv Hj.
  assert (Hi : in_bounds (red_shape keep pos esh) (red_index keep pos jx)) by (apply red_index_bounds; assumption).
  assert (Hin : In (ev jx) (map ev (block row_major keep pos esh (red_index keep pos jx)))).
  { apply in_map. unfold block. apply filter_In. split; [apply row_indices_in; exact Hj|]. destruct (list_eq_dec _ _ _); [reflexivity|contradiction]. }
  assert (G : forall (f : rfun Z (option N)) (op : option N -> option N -> option N) (s : Z -> option N), merge_law f -> rf_reduce f = (fun r v => op r (s v)) -> (forall a, op a None = None) -> (forall b, op None b = None) -> s (ev jx) = None ->
    exists q, norm_axes f esh e axes keep = Returned q /\ norm_at q (red_index keep pos jx) = UB).
  { intros f op s Hl Ef H1 H2 Hx. destruct (reduce_axes_lemma f None esh e ev axes pos keep Hd Hs He Hn Hv Hl) as (q & E & _ & H).
    exists q. unfold norm_axes. rewrite E. split; [reflexivity|]. unfold norm_at. rewrite (H _ Hi). rewrite Ef. rewrite (fold_none op s _ (ev jx)); auto. }
  split; [intros Hsg Hw Hx; split|intros Hsg Hx].
  - apply (G _ (plus_in (big t)) (scalar_l1 t)); auto using l1_law, plus_none_r, least_undefined.
  - apply (G _ max_of (scalar_linf t)); auto using linf_law, max_none_r. apply (least_undefined t); assumption.
  - apply (G _ (plus_in (big t)) (scalar_sq t)); auto using sq_law, plus_none_r, square_undefined.
Qed.

(** ** Fixtures *)
Definition mat (buf : list Z) : sexp Z := XStrided (mk_container [2; 3] [3; 1] [3; 2] 0) buf.
Definition mat_ev (buf : list Z) (ix : list Z) : Z := nth (Z.to_nat (nth 0 ix 0 * 3 + nth 1 ix 0)) buf 0.
Lemma mat_elements buf : length buf = 6%nat -> has_elements [2; 3] (mat buf) (mat_ev buf).
Proof.
  intros Hl. destruct (six_elements) as [Ho _]. split; [exact Ho|]. intros jx Hj. apply six_bounds in Hj.
  destruct buf as [|a [|b [|c [|d [|x [|y [|z buf]]]]]]]; try discriminate Hl.
  cbn in Hj. repeat (destruct Hj as [<-|Hj]; [reflexivity|]). contradiction.
Qed.
Lemma mat_typed t buf : Forall (fun v => low t <= v <= high t) buf -> length buf = 6%nat -> typed t [2; 3] (mat_ev buf).
Proof.
  intros H Hl jx Hj. apply six_bounds in Hj. destruct buf as [|a [|b [|c [|d [|x [|y [|z buf]]]]]]]; try discriminate Hl.
  repeat match goal with H : Forall _ (_ :: _) |- _ => inversion_clear H end. cbn in Hj.
  repeat (destruct Hj as [<-|Hj]; [assumption|]). contradiction.
Qed.
Definition int_t : ity := mk_ity true W32.
Definition uint_t : ity := mk_ity false W32.
Definition read (c : called (gexp (option N))) (ix : list Z) : res Z := match c with Returned q => norm_at q ix | _ => UB end.
Definition m6 : list Z := [1; -2; 0; -4; 5; -6].
Definition zeros_of (d : list (option N)) (n : Z) : list (option N) := repeat (Some 0%N) (Z.to_nat n).
Ltac in_range := unfold low, high; cbn [signed wide bits int_t uint_t]; repeat (apply Forall_cons; [lia|]); apply Forall_nil.
Lemma read_returned (c : called (gexp (option N))) ix v : read c ix = Ok v -> exists q, c = Returned q /\ norm_at q ix = Ok v.
Proof. destruct c as [q| |]; cbn [read]; [|discriminate|discriminate]. intros H. exists q. split; [reflexivity|exact H]. Qed.
Lemma m6_reducible : reducible row_major (ck [2; 3] row_major m6) (mat_ev m6).
Proof.
  split; [ckc|]. split; [left; reflexivity|]. split; [right; reflexivity|]. split; [intros [|[|i]]; cbn; intros; lia|].
  split; [cbn; lia|]. split; [repeat constructor; lia|]. intros jx Hb. apply six_bounds in Hb. cbn in Hb. repeat (destruct Hb as [<-|Hb]; [reflexivity|]). contradiction.
Qed.
