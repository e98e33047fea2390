(** Blockwise reducers: the functors, the multi-index iterator, the findings. *)
From Coq Require Import List ZArith Lia Bool Arith Sorted Permutation QArith Qfield.
From Verif Require Import Prelude PreludeFacts Strides_Model Strides_Spec Strides_Proofs Access_Model Slice_Model Container_Model Container_Spec Container_Proofs
  Reduce_Model Reduce_Spec Reduce_Proofs Reduce3_Proofs Reduce5_Proofs Reduce9_Proofs Reduce13_Proofs Chunk_Model Chunk_Spec Chunk_Proofs Chunk2_Proofs Chunk3_Proofs
  Reduce15_Proofs Block_Model Block_Spec Block_Proofs Block2_Proofs Block3_Proofs.
Import ListNotations.
Open Scope Z_scope.

(** ** Sums *)

Lemma sum_left (g : Z -> Z) : forall l a, fold_left (fun r x => r + g x) l a = a + Zsum g l.
Proof. induction l as [|x l IH]; intros a; cbn [fold_left Zsum fold_right]; [lia|]. rewrite IH. unfold Zsum. lia. Qed.
Lemma sum_like (g : Z -> Z) m : order_free (mk_rfun (fun r x => r + g x) 0 m) /\ merges (fun _ => True) (mk_rfun (fun r x => r + g x) 0 m) (fun v r => r + v).
Proof.
  split; [apply swap_free; cbn; intros; lia|]. intros a ys _ _. cbn [rf_reduce rf_init]. rewrite !sum_left. lia.
Qed.
Lemma prod_left : forall l a, fold_left Z.mul l a = a * Zprod l.
Proof. induction l as [|x l IH]; intros a; cbn [fold_left Zprod fold_right]; [lia|]. rewrite IH. unfold Zprod. lia. Qed.
Lemma prod_like : order_free mul_fun /\ merges (fun _ => True) mul_fun (fun v r => r * v).
Proof. split; [apply swap_free; cbn; intros; lia|]. intros a ys _ _. cbn [mul_fun rf_reduce rf_init]. rewrite !prod_left. lia. Qed.

Lemma min_left (g : Z -> Z) : forall l a, fold_left (fun r x => Z.min r (g x)) l a = Z.min a (fold_left (fun r x => Z.min r (g x)) l a).
Proof. induction l as [|x l IH]; intros a; cbn [fold_left]; [lia|]. rewrite IH. lia. Qed.
Lemma min_split (g : Z -> Z) : forall l a b, fold_left (fun r x => Z.min r (g x)) l (Z.min a b) = Z.min a (fold_left (fun r x => Z.min r (g x)) l b).
Proof. induction l as [|x l IH]; intros a b; cbn [fold_left]; [reflexivity|]. rewrite <- IH. f_equal. lia. Qed.
Lemma max_split (g : Z -> Z) : forall l a b, fold_left (fun r x => Z.max r (g x)) l (Z.max a b) = Z.max a (fold_left (fun r x => Z.max r (g x)) l b).
Proof. induction l as [|x l IH]; intros a b; cbn [fold_left]; [reflexivity|]. rewrite <- IH. f_equal. lia. Qed.
Lemma min_fold : forall l a, l <> [] -> Forall (fun x => x <= a) l -> smallest l (fold_left (fun r x => Z.min r x) l a).
Proof.
  induction l as [|x l IH]; intros a Hn Hk; [contradiction|]. inversion Hk; subst. cbn [fold_left]. replace (Z.min a x) with x by lia.
  clear IH Hn Hk. revert x H1. induction l as [|y l IH]; intros x Hx; [split; [left; reflexivity|repeat constructor; cbn; lia]|].
  cbn [fold_left]. inversion H2 as [|? ? Hy Hl]; subst. destruct (Z.le_gt_cases x y) as [Hxy|Hxy].
  - replace (Z.min x y) with x by lia. destruct (IH Hl x Hx) as [I1 I2]. split; [destruct I1 as [I1|I1]; [left; exact I1|right; right; exact I1]|].
    inversion I2; subst. constructor; [assumption|]. constructor; [lia|assumption].
  - replace (Z.min x y) with y by lia. destruct (IH Hl y Hy) as [I1 I2]. split; [right; exact I1|]. inversion I2; subst. constructor; [lia|]. constructor; assumption.
Qed.
Lemma max_fold : forall l a, l <> [] -> Forall (fun x => a <= x) l -> largest l (fold_left (fun r x => Z.max r x) l a).
Proof.
  induction l as [|x l IH]; intros a Hn Hk; [contradiction|]. inversion Hk; subst. cbn [fold_left]. replace (Z.max a x) with x by lia.
  clear IH Hn Hk. revert x H1. induction l as [|y l IH]; intros x Hx; [split; [left; reflexivity|repeat constructor; cbn; lia]|].
  cbn [fold_left]. inversion H2 as [|? ? Hy Hl]; subst. destruct (Z.le_gt_cases y x) as [Hxy|Hxy].
  - replace (Z.max x y) with x by lia. destruct (IH Hl x Hx) as [I1 I2]. split; [destruct I1 as [I1|I1]; [left; exact I1|right; right; exact I1]|].
    inversion I2; subst. constructor; [assumption|]. constructor; [lia|assumption].
  - replace (Z.max x y) with y by lia. destruct (IH Hl y Hy) as [I1 I2]. split; [right; exact I1|]. inversion I2; subst. constructor; [lia|]. constructor; assumption.
Qed.
Lemma fold_map {A B C} (g : A -> B) (h : C -> B -> C) : forall l a, fold_left (fun r x => h r (g x)) l a = fold_left h (map g l) a.
Proof. induction l as [|x l IH]; intros a; cbn; [reflexivity|apply IH]. Qed.

Lemma min_like top m : order_free (mk_rfun Z.min top m) /\ merges (fun x => x <= top) (mk_rfun Z.min top m) Z.min.
Proof.
  split; [apply swap_free; cbn; intros; lia|]. intros a ys Hn Hk. cbn [rf_reduce rf_init]. rewrite Z.min_comm.
  pose proof (min_split (fun x => x) ys a top) as E. change (fun r x : Z => Z.min r ((fun x0 : Z => x0) x)) with Z.min in E. rewrite <- E. destruct ys as [|y ys]; [contradiction|]. inversion Hk; subst. cbn [fold_left].
  f_equal. lia.
Qed.
Lemma max_like (g : Z -> Z) bottom m : order_free (mk_rfun (fun r x => Z.max r (g x)) bottom m) /\
  merges (fun x => bottom <= g x) (mk_rfun (fun r x => Z.max r (g x)) bottom m) Z.max.
Proof.
  split; [apply swap_free; cbn; intros; lia|]. intros a ys Hn Hk. cbn [rf_reduce rf_init]. rewrite Z.max_comm.
  pose proof (max_split g ys a bottom) as E. rewrite <- E. destruct ys as [|y ys]; [contradiction|]. inversion Hk; subst. cbn [fold_left].
  f_equal. lia.
Qed.

(** ** Rational sums: addition of fractions is associative and commutative as it stands *)

Lemma Qplus_swap (a b c : Q) : (a + b + c = a + c + b)%Q.
Proof.
  destruct a as [a1 a2], b as [b1 b2], c as [c1 c2]. unfold Qplus. cbn [Qnum Qden]. f_equal; [|lia]. rewrite ?Pos2Z.inj_mul. ring.
Qed.
Lemma Qplus_assoc_eq (a b c : Q) : (a + (b + c) = a + b + c)%Q.
Proof. destruct a as [a1 a2], b as [b1 b2], c as [c1 c2]. unfold Qplus. cbn [Qnum Qden]. f_equal; [rewrite ?Pos2Z.inj_mul; ring|apply Pos.mul_assoc]. Qed.
Lemma Qplus_0_eq (a : Q) : (a + 0 = a)%Q.
Proof. destruct a as [a1 a2]. unfold Qplus. cbn [Qnum Qden]. f_equal; lia. Qed.
Lemma Qplus_comm_eq (a b : Q) : (a + b = b + a)%Q.
Proof. destruct a as [a1 a2], b as [b1 b2]. unfold Qplus. cbn [Qnum Qden]. f_equal; [ring|apply Pos.mul_comm]. Qed.
Lemma Qsum_left : forall l a, fold_left Qplus l a = (a + Qsum l)%Q.
Proof.
  induction l as [|x l IH]; intros a; cbn [fold_left Qsum fold_right]; [symmetry; apply Qplus_0_eq|]. rewrite IH. symmetry. apply Qplus_assoc_eq.
Qed.
Lemma Qsum_fold l : fold_left Qplus l 0%Q = Qsum l.
Proof. rewrite Qsum_left, Qplus_comm_eq. apply Qplus_0_eq. Qed.
Lemma Qsum_like m : order_free (mk_rfun Qplus 0%Q m) /\ merges (fun _ => True) (mk_rfun Qplus 0%Q m) (fun v r => (r + v)%Q).
Proof.
  split; [apply swap_free; cbn; intros; apply Qplus_swap|]. intros a ys _ _. cbn [rf_reduce rf_init]. rewrite Qsum_fold. symmetry. apply Qsum_left.
Qed.
Lemma Qsum_cons x l : Qsum (x :: l) = (x + Qsum l)%Q.
Proof. reflexivity. Qed.
Lemma Qsum_app l l' : (Qsum (l ++ l') == Qsum l + Qsum l')%Q.
Proof.
  induction l as [|x l IH]; cbn [app]; [change (Qsum []) with 0%Q; ring|]. rewrite !Qsum_cons, IH. ring.
Qed.
Lemma Qsum_perm l l' : Permutation l l' -> (Qsum l == Qsum l')%Q.
Proof. induction 1; rewrite ?Qsum_cons; [reflexivity|rewrite IHPermutation; reflexivity|ring|rewrite IHPermutation1; assumption]. Qed.

(** ** The variance of a list, from the sums of its elements and of their squares *)

Definition Qsq (l : list Q) : Q := Qsum (map (fun x => x * x)%Q l).
Lemma dev_sum m : forall l, (Qsum (map (fun x => (x - m) * (x - m)) l) == Qsq l - 2 * m * Qsum l + Qlen l * m * m)%Q.
Proof.
  induction l as [|x l IH]; [unfold Qsq, Qlen; cbn; ring|].
  unfold Qsq in *. cbn [map]. rewrite !Qsum_cons, IH. unfold Qlen. cbn [length]. rewrite Nat2Z.inj_succ, <- Z.add_1_l, inject_Z_plus. ring.
Qed.
Lemma Qlen_pos l : l <> [] -> ~ (Qlen l == 0)%Q.
Proof. destruct l; [contradiction|]. intros _. unfold Qlen, inject_Z, Qeq. cbn [length Qnum Qden]. lia. Qed.
Lemma Qlen_app l l' : (Qlen (l ++ l') == Qlen l + Qlen l')%Q.
Proof. unfold Qlen. rewrite app_length, Nat2Z.inj_add, inject_Z_plus. reflexivity. Qed.
Lemma Qlen_map {g : Q -> Q} l : Qlen (map g l) = Qlen l.
Proof. unfold Qlen. rewrite map_length. reflexivity. Qed.
Lemma variance_sums l : l <> [] -> (variance l == Qsq l / Qlen l - (Qsum l / Qlen l) * (Qsum l / Qlen l))%Q.
Proof.
  intros Hn. unfold variance. unfold mean at 1. rewrite Qlen_map, dev_sum. unfold mean. field. apply Qlen_pos. exact Hn.
Qed.
Lemma variance_perm l l' : l <> [] -> Permutation l l' -> (variance l == variance l')%Q.
Proof.
  intros Hn HP. assert (l' <> []) by (intros ->; apply Permutation_sym, Permutation_nil in HP; contradiction).
  rewrite (variance_sums l), (variance_sums l') by assumption. unfold Qsq. rewrite (Qsum_perm _ _ HP), (Qsum_perm _ _ (Permutation_map (fun x => x * x)%Q HP)).
  unfold Qlen. rewrite (Permutation_length HP). reflexivity.
Qed.
Lemma Qsq_app l l' : (Qsq (l ++ l') == Qsq l + Qsq l')%Q.
Proof. unfold Qsq. rewrite map_app. apply Qsum_app. Qed.
Lemma mean_of_eq l : mean_of l = mean l.
Proof. unfold mean_of, mean. rewrite Qsum_fold. reflexivity. Qed.
Lemma variance_of_eq l : variance_of l = variance l.
Proof. unfold variance_of, variance. rewrite mean_of_eq, Qsum_fold. set (g := fun x => _). change (mean (map g l)) with (Qsum (map g l) / Qlen (map g l))%Q. rewrite Qlen_map. reflexivity. Qed.

Definition vstate (l : list Q) (s : Q * (Q * Q)) : Prop := (fst s == variance l /\ fst (snd s) == mean l /\ snd (snd s) == Qlen l)%Q.
Definition vblock (p : list Q) : Q * Q * Q := bf_compute variance_b (Z.of_nat (length p)) p.
Lemma variance_step l p s : l <> [] -> p <> [] -> vstate l s -> vstate (l ++ p) (bf_merge variance_b (vblock p) false s).
Proof.
  intros Hl Hp. destruct s as (va & ma & na). unfold vstate, vblock. cbn [fst snd variance_b bf_merge bf_compute]. intros (E1 & E2 & E3).
  rewrite variance_of_eq, mean_of_eq. fold (Qlen p).
  assert (Hs : ~ (Qlen l + Qlen p == 0)%Q) by (rewrite <- Qlen_app; apply Qlen_pos; destruct l; [contradiction|discriminate]).
  pose proof (Qlen_pos l Hl) as N1. pose proof (Qlen_pos p Hp) as N2.
  split; [|split].
  - rewrite E1, E2, E3. assert (Hlp : l ++ p <> []) by (destruct l; [contradiction|discriminate]).
    rewrite (variance_sums l Hl), (variance_sums p Hp), (variance_sums (l ++ p) Hlp).
    unfold mean. rewrite Qsq_app, Qlen_app, Qsum_app. field. auto.
  - rewrite E2, E3. unfold mean. rewrite Qlen_app, Qsum_app. field. auto.
  - rewrite E3, Qlen_app. reflexivity.
Qed.
Lemma variance_fold : forall rest l s, l <> [] -> Forall (fun p => p <> []) rest -> vstate l s ->
  vstate (l ++ concat rest) (fold_left (fun s v => bf_merge variance_b v false s) (map vblock rest) s).
Proof.
  induction rest as [|p rest IH]; intros l s Hl Hr Hs; cbn [concat map fold_left]; [rewrite app_nil_r; exact Hs|]. inversion Hr; subst.
  rewrite app_assoc. apply IH; [destruct l; [contradiction|discriminate]|assumption|]. apply variance_step; assumption.
Qed.
Lemma variance_merged parts r : parts <> [] -> Forall (fun p => p <> []) parts -> (fst (merged variance_b (map vblock parts) r) == variance (concat parts))%Q.
Proof.
  intros Hn Hp. destruct parts as [|p rest]; [contradiction|]. inversion Hp; subst. cbn [map merged concat].
  apply variance_fold; [assumption..|]. unfold vstate, vblock. cbn [variance_b bf_compute bf_merge bf_start fst snd].
  rewrite variance_of_eq, mean_of_eq. split; [reflexivity|]. split; [reflexivity|]. rewrite Qplus_0_l. reflexivity.
Qed.

Section Given.
  Context (TL : layout) (esh cs axes : list Z) (keep : bool).
  Context (HTL : is_order TL) (H : chunkable esh cs) (Hv : valid_axes (length esh) axes) (Ha : addressable esh) (Hf : filled_axes esh axes).

  Lemma sum_like_lemma (g : Z -> Z) m ev (c : cont Z) fin : consistent c -> ct_shape c = red_shape keep axes esh ->
    gives TL (simple (mk_rfun (fun r x => r + g x) 0 m) (fun v r => r + v) fin) keep axes esh cs ev c (fun l v => v = fin (Z.of_nat (length l)) (Zsum g l)).
  Proof.
    intros Hc Hs. destruct (sum_like g m) as [O M]. eapply gives_impl; [|apply (simple_lemma TL (fun _ => True)); auto].
    intros l v (_ & _ & ->). cbn [rf_reduce rf_init]. rewrite sum_left. f_equal.
  Qed.
  Lemma sum_lemma ev (c : cont Z) : consistent c -> ct_shape c = red_shape keep axes esh ->
    gives TL sum_b keep axes esh cs ev c (fun l v => v = Zsum (fun x => x) l).
  Proof. intros Hc Hs. apply (sum_like_lemma (fun x => x) Z.add ev c keep_value Hc Hs). Qed.
  Lemma prod_lemma ev (c : cont Z) : consistent c -> ct_shape c = red_shape keep axes esh ->
    gives TL prod_b keep axes esh cs ev c (fun l v => v = Zprod l).
  Proof.
    intros Hc Hs. destruct prod_like as [O M]. eapply gives_impl; [|apply (simple_lemma TL (fun _ => True)); auto].
    intros l v (_ & _ & ->). cbn [mul_fun rf_reduce rf_init keep_value]. unfold keep_value. rewrite prod_left. lia.
  Qed.
  Lemma amin_lemma top ev (c : cont Z) : consistent c -> ct_shape c = red_shape keep axes esh -> (forall jx, in_bounds esh jx -> ev jx <= top) ->
    gives TL (amin_b top) keep axes esh cs ev c smallest.
  Proof.
    intros Hc Hs Hk. destruct (min_like top Z.min) as [O M]. eapply gives_impl; [|apply (simple_lemma TL (fun x => x <= top)); auto].
    intros l v (Hn & Hok & ->). apply min_fold; assumption.
  Qed.
  Lemma max_like_lemma (g : Z -> Z) bottom ev (c : cont Z) : consistent c -> ct_shape c = red_shape keep axes esh -> (forall jx, in_bounds esh jx -> bottom <= g (ev jx)) ->
    gives TL (simple (mk_rfun (fun r x => Z.max r (g x)) bottom Z.max) Z.max keep_value) keep axes esh cs ev c (fun l v => largest (map g l) v).
  Proof.
    intros Hc Hs Hk. destruct (max_like g bottom Z.max) as [O M]. eapply gives_impl; [|apply (simple_lemma TL (fun x => bottom <= g x)); auto].
    intros l v (Hn & Hok & ->). cbn [rf_reduce rf_init]. unfold keep_value. rewrite (fold_map g Z.max). apply max_fold.
    - intros E. apply map_eq_nil in E. contradiction.
    - apply Forall_map. exact Hok.
  Qed.
  Lemma amax_lemma bottom ev (c : cont Z) : consistent c -> ct_shape c = red_shape keep axes esh -> (forall jx, in_bounds esh jx -> bottom <= ev jx) ->
    gives TL (amax_b bottom) keep axes esh cs ev c largest.
  Proof.
    intros Hc Hs Hk. eapply gives_impl; [|apply (max_like_lemma (fun x => x) bottom ev c Hc Hs Hk)]. intros l v Hl. cbv beta in Hl. rewrite map_id in Hl. exact Hl.
  Qed.
  Lemma mean_lemma ev (c : cont Q) : consistent c -> ct_shape c = red_shape keep axes esh ->
    gives TL mean_b keep axes esh cs ev c (fun l v => v == mean l)%Q.
  Proof.
    intros Hc Hs. destruct (Qsum_like Qplus) as [O M]. eapply gives_impl; [|apply (simple_lemma TL (fun _ => True)); auto].
    intros l v (_ & _ & ->). cbn [rf_reduce rf_init]. rewrite Qsum_fold. reflexivity.
  Qed.
  Lemma variance_like (fin : Z -> Q -> Q) ev (c : cont Q) : consistent c -> ct_shape c = red_shape keep axes esh ->
    gives TL (mk_bfun (bf_compute variance_b) (bf_start variance_b) (bf_merge variance_b) fin) keep axes esh cs ev c
      (fun l v => exists w, w == variance l /\ v = fin (Z.of_nat (length l)) w)%Q.
  Proof.
    intros Hc Hs. set (f := mk_bfun _ _ _ fin). destruct (parts_lemma TL HTL f ev esh cs axes keep H Hv Ha c Hc Hs) as (b & c' & E1 & E2 & E3 & E4 & E5 & E6 & E7 & E8).
    exists b, c'. repeat (split; [assumption|]). intros ix Hb. destruct (E8 ix Hb) as (r & parts & _ & HP & Hn & Hne & E). specialize (Hne Hf).
    eexists. split; [exact E|]. eexists. split; [|rewrite map_length; reflexivity].
    change (fst (merged variance_b (map (fun p => bf_compute variance_b (Z.of_nat (length p)) (map ev p)) parts) r) == variance (map ev (block row_major keep axes esh ix)))%Q.
    replace (map (fun p => bf_compute variance_b (Z.of_nat (length p)) (map ev p)) parts) with (map vblock (map (map ev) parts))
      by (rewrite map_map; apply map_ext; intros p; unfold vblock; rewrite map_length; reflexivity).
    rewrite variance_merged.
    - apply variance_perm; [|rewrite <- concat_map; apply Permutation_map; exact HP].
      destruct parts as [|p parts]; [contradiction|]. inversion Hn; subst. cbn. destruct p; [contradiction|discriminate].
    - intros E0. apply map_eq_nil in E0. contradiction.
    - apply Forall_map. eapply Forall_impl; [|exact Hn]. intros p Hp E0. apply map_eq_nil in E0. contradiction.
  Qed.
  Lemma variance_lemma ev (c : cont Q) : consistent c -> ct_shape c = red_shape keep axes esh ->
    gives TL variance_b keep axes esh cs ev c (fun l v => v == variance l)%Q.
  Proof. intros Hc Hs. eapply gives_impl; [|apply (variance_like keep_value ev c Hc Hs)]. intros l v (w & Hw & ->). exact Hw. Qed.
  Lemma lp_partial_lemma ev (c : cont Z) (p : nat) : consistent c -> ct_shape c = red_shape keep axes esh -> (forall jx, in_bounds esh jx -> 0 <= ev jx) ->
    gives TL (norm_lp_to_p_b p) keep axes esh cs ev c (fun l v => v = Zsum (fun x => Z.abs x ^ Z.of_nat p) l).
  Proof.
    intros Hc Hs Hk. destruct (sum_like (fun x => x ^ Z.of_nat p) Z.add) as [O M].
    assert (M' : merges (fun x => 0 <= x) (mk_rfun (fun r x => r + x ^ Z.of_nat p) 0 Z.add) (fun v r => r + v)).
    { intros a ys Hn _. apply M; [exact Hn|]. apply Forall_forall. auto. }
    eapply gives_impl; [|apply (simple_lemma TL (fun x => 0 <= x)); auto].
    intros l v (_ & Hok & ->). cbn [rf_reduce rf_init]. unfold keep_value. rewrite (sum_left (fun x => x ^ Z.of_nat p)). rewrite Z.add_0_l.
    induction Hok as [|x l Hx Hok IH]; [reflexivity|]. unfold Zsum in *. cbn [fold_right]. rewrite IH, Z.abs_eq by exact Hx. reflexivity.
  Qed.
End Given.

(** ** The multi-index iterator *)

Lemma distances_subz : forall e b, distances e b = subz e b.
Proof. reflexivity. Qed.
Lemma between_length b e p : between b e p -> length b = length p /\ length e = length p.
Proof. intros [H1 H2]. apply Forall2_length in H1, H2. lia. Qed.
Lemma between_bounds : forall b e p, length e = length b -> between b e p <-> in_bounds (subz e b) (subz p b) /\ length p = length b.
Proof.
  induction b as [|x b IH]; intros [|y e] [|z p] L; try discriminate; cbn [subz].
  - split; [intros _; split; [constructor|reflexivity]|intros _; split; constructor].
  - split; [intros [A _]; inversion A|intros [_ A]; discriminate].
  - split; [intros [A _]; inversion A|intros [_ A]; discriminate].
  - specialize (IH e p ltac:(cbn in L; lia)). split.
    + intros [A B]. inversion A; subst. inversion B; subst. destruct IH as [IH _]. destruct (IH ltac:(split; assumption)) as [I1 I2].
      split; [constructor; [lia|exact I1]|cbn; lia].
    + intros [A B]. inversion A; subst. destruct IH as [_ IH]. destruct (IH ltac:(split; [assumption|cbn in B; lia])) as [I1 I2].
      split; constructor; try assumption; lia.
Qed.
Lemma addz_subz : forall b p, length p = length b -> addz b (subz p b) = p.
Proof. induction b as [|x b IH]; intros [|y p] L; try discriminate; [reflexivity|]. cbn in *. f_equal; [lia|apply IH; lia]. Qed.
Lemma subz_addz : forall b j, length j = length b -> subz (addz b j) b = j.
Proof. induction b as [|x b IH]; intros [|y p] L; try discriminate; [reflexivity|]. cbn in *. f_equal; [lia|apply IH; lia]. Qed.

Lemma multiindex_lemma b e : length e = length b -> Forall (fun d => 0 <= d < 2 ^ 64) (distances e b) ->
  exists l, mi_all b e = Ok l /\ NoDup l /\ (forall p, In p l <-> between b e p) /\
    forall p, between b e p -> nth_error l (Z.to_nat (row_pos (distances e b) (distances p b))) = Some p.
Proof.
  intros L Hd. rewrite distances_subz in Hd. exists (all_blocks b e). split; [apply mi_all_ok; assumption|].
  pose proof (subz_length e b L) as Ld.
  assert (Hs : is_shape (subz e b)) by (eapply Forall_impl; [|exact Hd]; cbn; intros; lia).
  split; [|split].
  - unfold all_blocks. apply nodup_map_in; [apply row_indices_nodup|]. intros x y Hx Hy E. apply row_indices_in in Hx, Hy. apply in_bounds_length in Hx, Hy.
    apply addz_inj in E; [exact E|lia|lia].
  - intros p. unfold all_blocks. rewrite in_map_iff, between_bounds by exact L. split.
    + intros (j & <- & Hj). apply row_indices_in in Hj. pose proof (in_bounds_length _ _ Hj). rewrite subz_addz by lia. split; [exact Hj|apply addz_length; lia].
    + intros [Hj Hl]. exists (subz p b). split; [apply addz_subz; exact Hl|apply row_indices_in; exact Hj].
  - intros p Hp. apply between_bounds in Hp as [Hj Hl]; [|exact L]. rewrite !distances_subz. unfold all_blocks. rewrite nth_error_map, row_indices_nth by exact Hj.
    cbn. f_equal. apply addz_subz. exact Hl.
Qed.

(** ** Findings *)

Lemma negative_axis_lemma sh bs a : chunkable sh bs -> sh <> [] -> a < 0 -> make_breducer sh bs [a] false = UB.
Proof.
  intros H Hn Ha. unfold make_breducer, view_chunking. rewrite (grid_ok _ _ H). cbn [bind].
  enough (E : init_shapes sh bs [a] false = UB) by (rewrite E; reflexivity). pose proof (chunkable_length _ _ H) as Lb.
  unfold init_shapes. cbn [length]. destruct (length sh <? 1)%nat eqn:E1; [apply Nat.ltb_lt in E1; destruct sh; [contradiction|cbn in E1; lia]|].
  apply Nat.ltb_ge in E1. set (n := (length sh - 1)%nat).
  assert (Hm : forall i, mem_axis i [a] = false) by (intros i; cbn; destruct (Z.eqb_spec a (Z.of_nat i)); [lia|reflexivity]).
  set (body := fun (i : nat) '(idx, (rs, rc, m)) => _).
  assert (Hstep : forall i idx rs rc m, (i < length sh)%nat -> (idx < n)%nat -> length rs = n -> length rc = n -> length m = n ->
    exists rs' rc' m', body i (idx, (rs, rc, m)) = Ok (S idx, (rs', rc', m')) /\ length rs' = n /\ length rc' = n /\ length m' = n).
  { intros i idx rs rc m Hi Hx L1 L2 L3. unfold body. rewrite Hm.
    destruct (nth_error sh i) as [s|] eqn:Es; [|apply nth_error_None in Es; lia]. destruct (nth_error bs i) as [c|] eqn:Ec; [|apply nth_error_None in Ec; lia].
    rewrite (rd_ok _ _ _ Es), (rd_ok _ _ _ Ec). cbn [bind]. rewrite !wr_ok by lia. cbn [bind]. rewrite ?wr_ok by lia. cbn [bind].
    do 3 eexists. split; [reflexivity|]. rewrite !upd_length. auto. }
  replace (length sh) with (n + 1)%nat at 1 by lia. rewrite for_up_app.
  destruct (for_up_inv (fun i '(idx, (rs, rc, m)) => idx = i /\ length rs = n /\ length rc = n /\ length m = n) body 0 n (O, (repeat 0 n, repeat 0 n, repeat O n)))
    as ([idx [[rs rc] m]] & E & Hx & L1 & L2 & L3).
  - rewrite !repeat_length. auto.
  - intros i [idx [[rs rc] m]] Hi (-> & L1 & L2 & L3). destruct (Hstep i i rs rc m ltac:(lia) ltac:(lia) L1 L2 L3) as (rs' & rc' & m' & E & A1 & A2 & A3).
    exists (S i, (rs', rc', m')). auto.
  - rewrite E. cbn [bind]. rewrite Hx. cbn [for_up plus]. unfold body. rewrite Hm. cbn [plus].
    destruct (nth_error sh n) as [s|] eqn:Es; [|apply nth_error_None in Es; lia]. rewrite (rd_ok _ _ _ Es). cbn [bind].
    unfold wr at 1. replace (n <? length rs)%nat with false by (symmetry; apply Nat.ltb_ge; lia). reflexivity.
Qed.

Lemma lp_lemma : exists (esh cs axes : list Z) (ev : list Z -> Z) (b : breducer) (c c' : cont Z),
  chunkable esh cs /\ valid_axes (length esh) axes /\ addressable esh /\ filled_axes esh axes /\ consistent c /\ ct_shape c = red_shape false axes esh /\
  map ev (block row_major false axes esh []) = [-1; 1] /\
  make_breducer esh cs axes false = Ok b /\ assign_to row_major (norm_lp_to_p_b 1) b ev c = Ok c' /\ elt c' [] = Ok 0.
Proof.
  exists [2], [1], [0], (fun ix => if nth 0 ix 0 =? 0 then -1 else 1). eexists. exists (ck [] row_major [7]). eexists.
  split; [repeat constructor; lia|]. split; [repeat constructor; cbn; lia|]. split; [split; [cbn; lia|repeat constructor; lia]|].
  split; [repeat constructor; cbn; lia|]. split; [ckc|]. split; [reflexivity|]. split; [reflexivity|].
  split; [vm_compute; reflexivity|]. split; [vm_compute; reflexivity|]. vm_compute. reflexivity.
Qed.

Lemma empty_axis_lemma : exists (esh cs axes : list Z) (ev : list Z -> Z) (b : breducer) (c c' : cont Z),
  chunkable esh cs /\ valid_axes (length esh) axes /\ addressable esh /\ consistent c /\ ct_shape c = red_shape false axes esh /\
  red_shape false axes esh = [2] /\ (forall ix, in_bounds [2] ix -> block row_major false axes esh ix = []) /\
  make_breducer esh cs axes false = Ok b /\ assign_to row_major sum_b b ev c = Ok c' /\ elt c' [0] = Ok 7 /\ elt c' [1] = Ok 8.
Proof.
  exists [2; 0], [1; 1], [1], (fun _ => 0). eexists. exists (ck [2] row_major [7; 8]). eexists.
  split; [repeat constructor; lia|]. split; [repeat constructor; cbn; lia|]. split; [split; [cbn; lia|repeat constructor; lia]|].
  split; [ckc|]. split; [reflexivity|]. split; [reflexivity|]. split; [intros; reflexivity|].
  split; [vm_compute; reflexivity|]. split; [vm_compute; reflexivity|]. split; vm_compute; reflexivity.
Qed.

(** A 3 x 5 expression in blocks of 2 x 2, for the cases. *)
Definition grid35 (ix : list Z) : Z := 10 * nth 0 ix 0 + nth 1 ix 0 - 20.
Definition grid35q (ix : list Z) : Q := inject_Z (grid35 ix).
Definition three {A} (a : A) : cont A := mk_cont [3] [1] [2] row_major [a; a; a].
Lemma three_consistent {A} (a : A) : consistent (three a).
Proof.
  apply dense_consistent with (SL := row_major); [repeat constructor; lia|reflexivity..|].
  intros ix Hb. inversion Hb as [|? x ? l Hx Hl]; subst. inversion Hl; subst. cbn. change (prod []) with 1. lia.
Qed.
Lemma grid35_ok : chunkable [3; 5] [2; 2] /\ addressable [3; 5].
Proof. split; [repeat constructor; lia|split; [cbn; lia|repeat constructor; lia]]. Qed.
