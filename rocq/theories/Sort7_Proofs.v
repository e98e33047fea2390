(** Proofs about sorting: argmin and argmax. *)
From Coq Require Import List ZArith Bool Lia Permutation Sorted.
From Verif Require Import Prelude PreludeFacts Strides_Model Strides_Spec Strides_Proofs Container_Model Container_Spec Container_Proofs
  Access_Model Semantic_Spec Manip_Model Manip_Spec Manip_Proofs Reduce_Spec Reduce5_Proofs Reduce13_Proofs Accum_Spec Accum3_Proofs
  Sort_Model Sort_Spec Sort_Proofs Sort2_Proofs Sort3_Proofs Sort4_Proofs Sort5_Proofs Sort6_Proofs.
Import ListNotations.
Open Scope Z_scope.

Section First.
Context {V : Type} (cmp : V -> V -> bool).
Definition first_step : Z * V * Z -> V -> Z * V * Z :=
  fun '(idx, val, i) y => if cmp y val then (i, y, i + 1) else (idx, val, i + 1).
Lemma first_fold : forall t p idx val, strict_weak_order cmp (p ++ t) -> first_min cmp p idx -> nth_error p (Z.to_nat idx) = Some val ->
  first_min cmp (p ++ t) (fst (fst (fold_left first_step t (idx, val, Z.of_nat (length p))))).
Proof.
  induction t as [|y t IH]; intros p idx val Hs (Hi & Hm) Hv; [cbn; rewrite app_nil_r; split; assumption|].
  cbn [fold_left first_step]. destruct (Hm val Hv) as [M1 M2].
  replace (Z.of_nat (length p) + 1) with (Z.of_nat (length (p ++ [y]))) by (rewrite app_length; cbn; lia).
  replace (p ++ y :: t) with ((p ++ [y]) ++ t) in * by (rewrite <- app_assoc; reflexivity).
  assert (Iv : In val (p ++ [y])) by (apply in_app_iff; left; apply (nth_error_In _ _ Hv)).
  assert (Iy : In y (p ++ [y])) by (apply in_app_iff; right; left; reflexivity).
  assert (Hs' : strict_weak_order cmp (p ++ [y])) by (apply (swo_incl cmp _ _ Hs); apply incl_appl, incl_refl).
  destruct (cmp y val) eqn:E.
  - apply IH; [exact Hs| |].
    + split; [rewrite app_length; cbn; lia|]. rewrite Nat2Z.id. intros x Hx. rewrite nth_error_app2, Nat.sub_diag in Hx by lia. injection Hx as <-.
      assert (F : forall j z, (j < length p)%nat -> nth_error (p ++ [y]) j = Some z -> cmp y z = true /\ In z (p ++ [y])).
      { intros j z Hj Hz. pose proof (nth_error_In _ _ Hz) as Iz. split; [|exact Iz]. rewrite nth_error_app1 in Hz by lia.
        apply (lt_nlt cmp (p ++ [y]) y val z); auto. apply (M1 j). exact Hz. }
      split; intros j z.
      * intros Hz. destruct (Nat.lt_ge_cases j (length p)) as [Hj|Hj].
        { destruct (F j z Hj Hz) as [F1 F2]. apply (asym cmp (p ++ [y])); assumption. }
        { rewrite nth_error_app2 in Hz by lia. destruct (j - length p)%nat as [|[|q]] eqn:Eq; cbn in Hz; try discriminate. injection Hz as <-. apply Hs'. exact Iy. }
      * intros Hj Hz. apply (F j z Hj Hz).
    + rewrite Nat2Z.id, nth_error_app2, Nat.sub_diag by lia. reflexivity.
  - apply IH; [exact Hs| |].
    + split; [rewrite app_length; cbn; lia|]. intros x Hx. rewrite nth_error_app1 in Hx by lia. rewrite Hv in Hx. injection Hx as <-.
      split; intros j z.
      * intros Hz. destruct (Nat.lt_ge_cases j (length p)) as [Hj|Hj].
        { rewrite nth_error_app1 in Hz by lia. apply (M1 j). exact Hz. }
        { rewrite nth_error_app2 in Hz by lia. destruct (j - length p)%nat as [|[|q]] eqn:Eq; cbn in Hz; try discriminate. injection Hz as <-. exact E. }
      * intros Hj Hz. rewrite nth_error_app1 in Hz by lia. apply (M2 j); assumption.
    + rewrite nth_error_app1 by lia. exact Hv.
Qed.
Lemma first_ok x t : strict_weak_order cmp (x :: t) -> first_min cmp (x :: t) (fst (fst (fold_left first_step t (0, x, 1)))).
Proof.
  intros Hs. change 1 with (Z.of_nat (length [x])). change (x :: t) with ([x] ++ t). apply first_fold; [exact Hs| |reflexivity].
  split; [cbn; lia|]. intros y Hy. cbn in Hy. injection Hy as <-. split; intros [|[|j]] z; cbn; intros; try lia; try discriminate.
  injection H as <-. apply Hs. left. reflexivity.
Qed.
Lemma arg_func_ok l : l <> [] -> strict_weak_order cmp l -> exists i, arg_func cmp l = Ok i /\ first_min cmp l i.
Proof.
  destruct l as [|x t]; [congruence|]. intros _ Hs. pose proof (first_ok x t Hs) as H. unfold arg_func.
  match goal with |- context [fold_left ?f t (0, x, 1)] => change f with first_step end.
  destruct (fold_left first_step t (0, x, 1)) as [[idx val] i]. exists idx. split; [reflexivity|exact H].
Qed.
End First.

Lemma flip_swo {V} (lt : V -> V -> bool) l : strict_weak_order lt l -> strict_weak_order (fun x y => lt y x) l.
Proof.
  intros (H1 & H2 & H3). split; [|split]; eauto.
Qed.
Lemma min_position_ok {V} (lt : V -> V -> bool) l : l <> [] -> strict_weak_order lt l -> first_min lt l (min_position lt l).
Proof. destruct l as [|x t]; [congruence|]. intros _ Hs. exact (first_ok lt x t Hs). Qed.
Lemma max_position_ok {V} (lt : V -> V -> bool) l : l <> [] -> strict_weak_order lt l -> first_min (fun x y => lt y x) l (max_position lt l).
Proof. destruct l as [|x t]; [congruence|]. intros _ Hs. exact (first_ok (fun x y => lt y x) x t (flip_swo lt _ Hs)). Qed.

(** ** Removing an axis *)
Lemma permute_rest n ax l : length l = n -> permute (firstn ax (seq 0 n) ++ skipn (S ax) (seq 0 n)) l = without_axis ax l.
Proof.
  intros Hl. unfold permute, without_axis. rewrite map_app, <- firstn_map, <- skipn_map.
  assert (E : map (fun p => nth p l 0) (seq 0 n) = l) by (rewrite <- Hl; apply (permute_seq l)). rewrite E. reflexivity.
Qed.
Lemma others_permute l n ax s : is_order l -> length s = n -> (ax < n)%nat -> others l (permute (lead_perm n ax l) s) = without_axis ax s.
Proof.
  intros Hl Hs Ha. rewrite <- (permute_rest n ax s Hs). unfold lead_perm. set (rest := firstn ax (seq 0 n) ++ skipn (S ax) (seq 0 n)).
  destruct Hl as [ -> | -> ]; cbn [others]; [|reflexivity].
  rewrite permute_length, app_length. cbn [length]. unfold permute. rewrite map_app. cbn [map].
  replace (length rest + 1 - 1)%nat with (length (map (fun p => nth p s 0) rest)) by (rewrite map_length; lia).
  rewrite firstn_app, Nat.sub_diag, firstn_all. cbn [firstn]. apply app_nil_r.
Qed.
Lemma others_lead l s : is_order l -> s <> [] -> others l s = without_axis (lead l (length s)) s.
Proof.
  intros [ -> | -> ] Hs; cbn [others lead]; unfold without_axis; [|reflexivity].
  destruct s as [|x s]; [congruence|]. rewrite (skipn_all2 (x :: s)) by (cbn; lia). rewrite app_nil_r. reflexivity.
Qed.

(** ** The lanes of argmin *)
Lemma traversal_eq L sh : is_order L -> traversal L sh = indices_of L sh.
Proof. intros [ -> | -> ]; reflexivity. Qed.

Lemma arg_lanes_ok {V : Type} (cmp : V -> V -> bool) (input : cont V) (result : cont Z) (ev : list Z -> V) :
  good input -> good result -> (2 <= length (ct_shape input))%nat ->
  (forall jx, in_bounds (ct_shape input) jx -> elt input jx = Ok (ev jx)) ->
  let sh := ct_shape input in let l := ct_layout input in let ld := lead l (length sh) in let n := nth ld sh 0 in
  ct_shape result = others l sh -> strict_weak_order cmp (ct_data input) ->
  exists d, arg_lanes l cmp input result = Ok (with_data result d) /\ length d = length (ct_data result) /\
    forall ix, in_bounds sh ix -> exists i, elt (with_data result d) (others l ix) = Ok i /\ first_min cmp (lane ev ld n ix) i.
Proof.
  intros (C1 & D1 & O1) (C2 & D2 & O2) Hdim He sh l ld n Hres Hsw.
  destruct (secondary input C1 D1 O1 Hdim) as (ss & Es & Hss). pose proof (data_len input C1 O1 Hdim) as L1. pose proof (m_val input C1 Hdim) as Hm.
  pose proof (n_nonneg input C1 Hdim) as Hn. pose proof (size_lead input O1 Hdim) as Hsz.
  unfold arg_lanes. rewrite (n_iters_eq input O1 Hdim), Es. cbn [bind]. fold sh l in Hss, L1, Hm, Hn, Hsz |- *. fold ld in Hss, L1, Hn, Hsz. fold n in Hss, L1, Hn, Hsz.
  set (m := Z.to_nat (prod (others l sh))) in *. set (N := Z.to_nat n) in *.
  assert (Triv : forall P : Prop, prod sh = 0 -> forall ix, in_bounds sh ix -> P).
  { intros P Hz ix B. pose proof (rank_bound l _ _ B). lia. }
  assert (Hsame : with_data result (ct_data result) = result) by (destruct result; reflexivity).
  destruct (Z.eqb_spec ss 0) as [E0|E0].
  { assert (Hz : prod sh = 0) by (rewrite Hsz; destruct Hss; nia). exists (ct_data result). rewrite Hsame. split; [reflexivity|]. split; [reflexivity|].
    intros ix B. exact (Triv _ Hz ix B). }
  destruct (Nat.eq_dec m 0) as [Hm0|Hm0].
  { assert (Hz : prod sh = 0) by (rewrite Hsz; nia). rewrite Hm0. cbn [for_up bind]. exists (ct_data result). rewrite Hsame.
    split; [reflexivity|]. split; [reflexivity|]. intros ix B. exact (Triv _ Hz ix B). }
  assert (ss = n) as -> by (destruct Hss; [lia|assumption]). clear Hss.
  assert (HN : (0 < N)%nat) by (unfold N; lia). assert (En : n = Z.of_nat N) by (unfold N; lia).
  assert (Ho : is_shape (others l sh)) by (apply (others_shape input C1)).
  pose proof C2 as (_ & _ & _ & L2 & _). rewrite Hres in L2.
  assert (Htr : forall q, (q < m)%nat -> exists jx, nth_error (traversal l (others l sh)) q = Some jx /\ in_bounds (others l sh) jx /\ Z.to_nat (rank l (others l sh) jx) = q).
  { intros q Hq. destruct (index_of_rank l (others l sh) q O1 Ho) as (jx & B & E); [lia|]. exists jx. split; [|split; [exact B|exact E]].
    rewrite traversal_eq by exact O1. pose proof (indices_of_nth l (others l sh) jx O1 B) as X.
    rewrite <- E. exact X. }
  destruct (for_up_inv (fun k d => length d = length (ct_data result) /\ forall q jx, (q < k)%nat -> (q < m)%nat ->
      nth_error (traversal l (others l sh)) q = Some jx ->
      exists i, nth_error d (Z.to_nat (rank (ct_layout result) (others l sh) jx)) = Some i /\ first_min cmp (sub q N (ct_data input)) i)
    (fun i d => let p := Z.to_nat (Z.of_nat i * n) in
      if (0 <? n) && (Z.of_nat i * n + n <=? Z.of_nat (length (ct_data input))) then
        let* idx := arg_func cmp (firstn (Z.to_nat n) (skipn p (ct_data input))) in
        let* ix := rd (traversal l (ct_shape result)) i in
        wrz d (element_offset (ct_strides result) ix) idx
      else UB) 0 m (ct_data result)) as (d & E & Ld & HQ).
  - split; [reflexivity|]. intros; lia.
  - intros k d Hk (Ld & HQ). cbv zeta. rewrite (proj2 (Z.ltb_lt 0 n)) by lia. rewrite (proj2 (Z.leb_le _ _)) by (rewrite L1; nia). cbn [andb].
    replace (Z.to_nat (Z.of_nat k * n)) with (k * N)%nat by (unfold N; nia). fold N. fold (sub k N (ct_data input)).
    destruct (arg_func_ok cmp (sub k N (ct_data input))) as (i & Ei & Fi).
    { intros X. apply (f_equal (@length V)) in X. rewrite (sub_length k N m) in X by (try exact L1; lia). cbn in X. lia. }
    { apply (swo_incl cmp (ct_data input)); [exact Hsw|apply sub_incl]. }
    rewrite Ei. cbn [bind]. rewrite Hres. destruct (Htr k ltac:(lia)) as (jx & Ej & Bj & Rj). rewrite (rd_ok _ _ _ Ej). cbn [bind].
    rewrite (offset_rank result C2 O2) by (rewrite Hres; exact Bj). rewrite Hres. pose proof (rank_bound (ct_layout result) _ _ Bj) as Rb.
    rewrite wrz_ok by lia. eexists. split; [reflexivity|]. split; [rewrite upd_length; exact Ld|].
    intros q jx' Hq Hqm Ejx. destruct (Nat.eq_dec q k) as [ -> |Hne].
    + rewrite Ej in Ejx. injection Ejx as <-. exists i. split; [|exact Fi]. apply nth_error_upd_same. lia.
    + destruct (HQ q jx' ltac:(lia) Hqm Ejx) as (i' & E1 & F1). exists i'. split; [|exact F1].
      rewrite nth_error_upd_other; [exact E1|]. intros X. apply Hne. destruct (Htr q Hqm) as (jq & Eq & Bq & Rq). rewrite Ejx in Eq. injection Eq as <-.
      pose proof (rank_bound (ct_layout result) _ _ Bq).
      assert (jx = jx') as <- by (apply (rank_inj (ct_layout result) (others l sh)); [exact Bj|exact Bq|lia]). congruence.
  - cbv zeta in E. rewrite E. cbn [bind]. exists d. split; [reflexivity|]. split; [exact Ld|]. intros ix B.
    destruct (lane_no_lt input C1 O1 Hdim ix B) as [Hq _]. fold l sh m in Hq.
    destruct (rank_lead l sh ix O1 (sh_ne input Hdim) B) as (Bo & _).
    assert (Et : nth_error (traversal l (others l sh)) (lane_no input ix) = Some (others l ix)).
    { destruct (Htr _ Hq) as (jx & Ej & Bj & Rj). rewrite Ej. f_equal. unfold lane_no in Rj. fold l sh in Rj.
      pose proof (rank_bound l _ _ Bj). pose proof (rank_bound l _ _ Bo). apply (rank_inj l (others l sh)); [exact Bj|exact Bo|]. lia. }
    destruct (HQ (lane_no input ix) (others l ix)) as (i & E1 & F1); [lia|exact Hq|exact Et|].
    exists i. split.
    + unfold elt, with_data. cbn. rewrite (offset_rank result C2 O2) by (rewrite Hres; exact Bo). rewrite Hres. pose proof (rank_bound (ct_layout result) _ _ Bo).
      apply rdz_ok; [lia|exact E1].
    + pose proof (ev_lane input ev C1 O1 He Hdim ix B) as X. fold l sh ld n N in X. rewrite X. exact F1.
Qed.

Section Arg.
Context {V : Type} (SL DL RL : layout) (fresh : list V -> Z -> list V) (fresh_i : list Z -> Z -> list Z) (n0 n1 : nat) (v0 : V) (lt : V -> V -> bool).
Hypothesis Hfresh : resizes fresh.
Hypothesis Hfreshi : resizes fresh_i.
Hypothesis HDL : is_order DL.
Hypothesis HRL : is_order RL.
Context (c : cont V) (ev : list Z -> V) (axis : Z).
Hypothesis Hc : consistent c.
Hypothesis Hdoc : documented c.
Hypothesis Hl : is_order (ct_layout c).
Hypothesis Hlay : SL = ct_layout c \/ (SL = dynamic /\ DL = ct_layout c /\ n0 = 0%nat).
Hypothesis He : forall jx, in_bounds (ct_shape c) jx -> elt c jx = Ok (ev jx).
Hypothesis Hdim : (1 <= length (ct_shape c))%nat.
Hypothesis Hsmall : Z.of_nat (length (ct_shape c)) < 2 ^ 63.
Hypothesis Haxis : valid_axis (length (ct_shape c)) axis.
Hypothesis Hlt : strict_weak_order lt (ct_data c).
Let ax := the_axis (length (ct_shape c)) axis.
Let n := nth ax (ct_shape c) 0.

Lemma arg_result_ok sh : is_shape sh -> exists r, c_resize_layout RL RL fresh_i (c_default RL n1 0) sh RL = Ok r /\ good r /\ ct_shape r = sh.
Proof.
  intros Hs. destruct (from_shape_ok RL RL fresh_i n1 Hfreshi HRL RL sh HRL (or_introl eq_refl) Hs) as (r & E & G & S & _). exists r. split; [exact E|]. split; assumption.
Qed.

Lemma arg_func_lemma (mx : bool) : let cmp := if mx then fun x y => lt y x else lt in
  exists r, arg_func_impl SL DL fresh fresh_i n0 v0 lt (ct_layout c) RL n1 mx c (norm_axis (length (ct_shape c)) axis) = Ok r /\
    consistent r /\ ct_shape r = without_axis ax (ct_shape c) /\
    forall ix, in_bounds (ct_shape c) ix -> exists i, elt r (without_axis ax ix) = Ok i /\ first_min cmp (lane ev ax n ix) i.
Proof.
  intros cmp. destruct (norm_axis_eq (length (ct_shape c)) axis) as [Eax Hax]; [lia|exact Hsmall|exact Haxis|]. fold ax in Eax, Hax.
  assert (Hcmp : forall l, strict_weak_order lt l -> strict_weak_order cmp l) by (intros l; unfold cmp; destruct mx; [apply flip_swo|auto]).
  unfold arg_func_impl. rewrite Eax. destruct (Nat.eqb_spec (length (ct_shape c)) 1) as [E1|E1].
  - assert (exists k, ct_shape c = [k]) as [k Ek]. { destruct (ct_shape c) as [|k [|]]; cbn in E1; try discriminate. eauto. }
    assert (Hax0 : ax = 0%nat) by lia. assert (En : n = k) by (unfold n; rewrite Hax0, Ek; reflexivity).
    eexists. split; [reflexivity|]. split; [|split].
    + split; [constructor|]. split; [reflexivity|]. split; [reflexivity|]. split; [reflexivity|]. exists RL. split; [exact HRL|]. split; [auto|].
      intros ix B. inversion B; subst. destruct RL; reflexivity.
    + rewrite Hax0, Ek. reflexivity.
    + intros ix B. rewrite Ek in B. inversion B as [|? x ? t Hx Ht]; subst ix. inversion Ht; subst t. rewrite Hax0. cbn [without_axis firstn skipn app].
      eexists. split; [reflexivity|]. fold n.
      assert (Hn : Z.of_nat (length (ct_data c)) = k).
      { destruct Hc as (_ & _ & _ & L & _). rewrite L, Ek, prod_cons. change (prod []) with 1. lia. }
      assert (L1 : lane ev 0 n [x] = ct_data c).
      { apply nth_error_ext. intros i. destruct (Nat.lt_ge_cases i (Z.to_nat n)) as [Hi|Hi].
        - rewrite lane_nth by exact Hi. cbn [upd]. assert (B' : in_bounds (ct_shape c) [Z.of_nat i]) by (rewrite Ek; constructor; [lia|constructor]).
          pose proof (data_at c ev Hc Hl He _ B') as X. rewrite Ek in X.
          replace (rank (ct_layout c) [k] [Z.of_nat i]) with (Z.of_nat i) in X by (unfold rank; destruct (ct_layout c); cbn [row_pos col_pos]; change (prod []) with 1; lia).
          rewrite Nat2Z.id in X. rewrite X. reflexivity.
        - transitivity (@None V); [|symmetry]; apply nth_error_None; [rewrite lane_length|]; lia. }
      rewrite L1. assert (Hne : ct_data c <> []) by (intros X; rewrite X in Hn; cbn in Hn; lia).
      unfold cmp. destruct mx; [apply max_position_ok|apply min_position_ok]; assumption.
  - rewrite (proj2 (Z.leb_gt _ _)) by lia. rewrite Nat2Z.id. cbv zeta. fold (without_axis ax (ct_shape c)).
    assert (Hd2 : (2 <= length (ct_shape c))%nat) by lia.
    assert (Hws : is_shape (without_axis ax (ct_shape c))).
    { unfold is_shape, without_axis. apply Forall_app. split; [apply Forall_firstn'|apply Forall_skipn']; apply Hc. }
    destruct (arg_result_ok _ Hws) as (r & Er & G & Sr). rewrite Er. cbn [bind].
    assert (Hne : ct_shape c <> []) by (destruct (ct_shape c); [cbn in Hd2; lia|discriminate]).
    rewrite (leading_axis_eq c Hl) by lia. cbn [bind]. fold cmp.
    destruct (Z.eqb_spec (Z.of_nat ax) (Z.of_nat (lead (ct_layout c) (length (ct_shape c))))) as [Ea|Ea]; cbn [negb].
    + apply Nat2Z.inj in Ea.
      destruct (arg_lanes_ok cmp c r ev (conj Hc (conj Hdoc Hl)) G Hd2 He) as (d & E & Ld & M).
      { rewrite others_lead by assumption. rewrite <- Ea. exact Sr. }
      { apply Hcmp. exact Hlt. }
      exists (with_data r d). split; [exact E|]. split; [apply good_with_data; assumption|]. split; [exact Sr|].
      intros ix B. destruct (M ix B) as (i & E2 & F). rewrite <- Ea in F. exists i. split; [|exact F].
      pose proof (in_bounds_length _ _ B) as Lix. rewrite others_lead in E2; [|exact Hl|intros ->; cbn in Lix; lia]. rewrite Lix, <- Ea in E2. exact E2.
    + rewrite get_permutations_eq by assumption. cbn [bind].
      set (dim := length (ct_shape c)) in *. set (l := ct_layout c) in *. set (p := lead_perm dim ax l).
      pose proof (lead_perm_ok dim ax l Hax) as Hp. fold p in Hp. pose proof (lead_perm_nth dim ax l Hl Hax) as Hpn. fold p in Hpn.
      destruct (transposed_ok SL DL fresh n0 v0 l Hfresh Hl Hlay HDL c ev p) as (c1 & ev1 & Et & G1 & L1 & A1 & M1); [split; [exact Hc|split; [reflexivity|exact He]]|exact Hp|exact Hne|].
      rewrite Et. cbn [bind]. pose proof A1 as (Hc1 & Hs1 & He1).
      assert (Ldim : length (permute p (ct_shape c)) = dim) by (rewrite permute_length; apply Hp).
      assert (Hld : (lead l dim < dim)%nat) by (unfold lead; destruct l; lia).
      assert (Hn1 : nth (lead l dim) (permute p (ct_shape c)) 0 = n).
      { rewrite permute_nth by (destruct Hp as (Lp & _); lia). rewrite Hpn. reflexivity. }
      assert (Ho1 : is_order (ct_layout c1)) by (rewrite L1; exact Hl).
      destruct (arg_lanes_ok cmp c1 r ev1 G1 G) as (d & E & Ld & M).
      { rewrite Hs1, Ldim. exact Hd2. }
      { rewrite Hs1. exact He1. }
      { rewrite L1, Hs1, Sr. unfold p. rewrite others_permute; [reflexivity|exact Hl|reflexivity|exact Hax]. }
      { apply Hcmp. apply (swo_incl lt (ct_data c)); [exact Hlt|]. intros y Hy. apply (elem_in_data c ev); try assumption.
        apply (elem_of_permute (ct_shape c) p ev ev1 y Hp M1). pose proof (data_list c1 ev1 Hc1 Ho1) as X. rewrite Hs1 in X. specialize (X He1). rewrite X in Hy.
        apply in_map_iff in Hy. destruct Hy as (jx & Ey & Hj). apply indices_of_in in Hj; [|exact Ho1]. exists jx. split; assumption. }
      rewrite L1 in E, M. rewrite Hs1, Ldim, Hn1 in M.
      exists (with_data r d). split; [exact E|]. split; [apply good_with_data; assumption|]. split; [exact Sr|].
      intros ix B. pose proof (in_bounds_length _ _ B) as Lix. fold dim in Lix.
      assert (B1 : in_bounds (permute p (ct_shape c)) (permute p ix)) by (apply in_bounds_permute; [destruct Hp as (_ & _ & F); exact F|exact B]).
      destruct (M _ B1) as (i & E2 & F). exists i. split.
      * rewrite <- E2. f_equal. symmetry. unfold p. apply others_permute; [exact Hl|exact Lix|exact Hax].
      * replace (lane ev ax n ix) with (lane ev1 (lead l dim) n (permute p ix)); [exact F|].
        unfold lane. apply map_ext_in. intros k Hk. apply in_seq in Hk.
        rewrite <- (permute_upd dim p Hp) by assumption. rewrite Hpn. apply M1. apply in_bounds_upd; [exact B|fold n; lia].
Qed.
End Arg.
