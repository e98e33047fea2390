(** Blockwise reducers: the multi-index iterator, the shapes, the range of blocks. *)
From Coq Require Import List ZArith Lia Bool Arith Sorted.
From Verif Require Import Prelude PreludeFacts Strides_Model Strides_Spec Strides_Proofs Access_Model Slice_Model Container_Model Container_Spec Container_Proofs
  Reduce_Model Reduce_Spec Reduce_Proofs Reduce3_Proofs Reduce5_Proofs Reduce9_Proofs Reduce13_Proofs Stepper_Proofs Reduce9_Proofs Chunk_Model Chunk_Spec Chunk_Proofs Block_Model.
Import ListNotations.
Open Scope Z_scope.

(** ** Lists *)

Lemma rd_mid {A} (l : list A) v t : rd (l ++ v :: t) (length l) = Ok v.
Proof. apply rd_ok. rewrite nth_error_app2, Nat.sub_diag by lia. reflexivity. Qed.
Lemma rd_mid' {A} n (l : list A) v t : length l = n -> rd (l ++ v :: t) n = Ok v.
Proof. intros <-. apply rd_mid. Qed.
Lemma wr_mid' {A} n (l : list A) u t v : length l = n -> wr (l ++ u :: t) n v = Ok (l ++ v :: t).
Proof. intros <-. apply wr_mid. Qed.
Lemma snoc_eq {A} (l : list A) v t : l ++ v :: t = (l ++ [v]) ++ t.
Proof. rewrite <- app_assoc. reflexivity. Qed.

(** ** The multi-index iterator *)

Fixpoint addz (b j : list Z) : list Z := match b, j with x :: b', y :: j' => x + y :: addz b' j' | _, _ => [] end.
Fixpoint subz (e b : list Z) : list Z := match e, b with x :: e', y :: b' => x - y :: subz e' b' | _, _ => [] end.

Lemma subz_length : forall e b, length e = length b -> length (subz e b) = length b.
Proof. induction e; intros [|] H; try discriminate; cbn in *; [reflexivity|]. f_equal. apply IHe. lia. Qed.
Lemma addz_length : forall b j, length j = length b -> length (addz b j) = length b.
Proof. induction b; intros [|] H; try discriminate; cbn in *; [reflexivity|]. f_equal. apply IHb. lia. Qed.

Fixpoint succ (b e c : list Z) {struct b} : list Z * bool :=
  match b, e, c with
  | x :: b', y :: e', z :: c' =>
      let '(r, carry) := succ b' e' c' in
      if carry then (if z + 1 =? y then (x :: r, true) else (z + 1 :: r, false)) else (z :: r, false)
  | _, _, _ => ([], true)
  end.

Lemma succ_snoc x y z : forall b e c, length e = length b -> length c = length b ->
  succ (b ++ [x]) (e ++ [y]) (c ++ [z]) =
  if z + 1 =? y then (fst (succ b e c) ++ [x], snd (succ b e c)) else (c ++ [z + 1], false).
Proof.
  induction b as [|x0 b IH]; intros [|y0 e] [|z0 c] He Hc; try discriminate.
  - cbn. destruct (z + 1 =? y); reflexivity.
  - cbn [app succ]. rewrite IH by (cbn in *; lia). destruct (z + 1 =? y); [|reflexivity].
    destruct (succ b e c) as [r k]. cbn [fst snd]. destruct k; [destruct (z0 + 1 =? y0)|]; reflexivity.
Qed.

Lemma carry_succ : forall b1 e1 c1 b2 e2 c2, length e1 = length b1 -> length c1 = length b1 ->
  mi_carry (length b1) (b1 ++ b2) (e1 ++ e2) (c1 ++ c2) = Ok (fst (succ b1 e1 c1) ++ c2).
Proof.
  induction b1 as [|x b1 IH] using rev_ind; intros e1 c1 b2 e2 c2 He Hc.
  - destruct e1, c1; try discriminate. reflexivity.
  - rewrite app_length in *. cbn [length] in *.
    destruct (exists_last (l := e1)) as (e & y & ->); [intros ->; cbn in He; lia|].
    destruct (exists_last (l := c1)) as (c & z & ->); [intros ->; cbn in Hc; lia|].
    rewrite app_length in He, Hc. cbn [length] in *.
    replace (length b1 + 1)%nat with (S (length b1)) by lia. cbn [mi_carry].
    rewrite <- !app_assoc. cbn [app].
    assert (A : forall l t : list Z, forall v, length l = length b1 -> nth_error (l ++ v :: t) (length b1) = Some v).
    { intros l t v L. rewrite nth_error_app2 by lia. rewrite L, Nat.sub_diag. reflexivity. }
    rewrite (rd_ok _ _ _ (A c c2 z ltac:(lia))). cbn [bind]. rewrite (rd_ok _ _ _ (A e e2 y ltac:(lia))). cbn [bind].
    rewrite succ_snoc by lia. destruct (z + 1 =? y).
    + rewrite (rd_ok _ _ _ (A b1 b2 x eq_refl)). cbn [bind]. rewrite wr_mid' by lia. cbn [bind fst].
      rewrite IH by lia. rewrite <- app_assoc. reflexivity.
    + rewrite wr_mid' by lia. cbn [fst]. rewrite <- app_assoc. reflexivity.
Qed.
Lemma next_succ b e c : length e = length b -> length c = length b -> mi_next b e c = Ok (fst (succ b e c)).
Proof.
  intros He Hc. unfold mi_next. pose proof (carry_succ b e c [] [] [] He Hc) as E. rewrite !app_nil_r in E. exact E.
Qed.

Lemma succ_pos : forall b e j, length e = length b -> in_bounds (subz e b) j ->
  (snd (succ b e (addz b j)) = true /\ fst (succ b e (addz b j)) = b /\ row_pos (subz e b) j + 1 = prod (subz e b)) \/
  (snd (succ b e (addz b j)) = false /\ exists j', fst (succ b e (addz b j)) = addz b j' /\ in_bounds (subz e b) j' /\ row_pos (subz e b) j' = row_pos (subz e b) j + 1).
Proof.
  induction b as [|x b IH]; intros [|y e] j He Hj; try discriminate.
  - left. inversion Hj; subst. repeat split.
  - cbn [subz] in *. inversion Hj as [|? z ? j0 Hz Hj0]; subst. cbn [addz succ].
    destruct (IH e j0 ltac:(cbn in He; lia) Hj0) as [(E1 & E2 & E3)|(E1 & j' & E2 & E3 & E4)];
      destruct (succ b e (addz b j0)) as [r k]; cbn [fst snd] in *; subst.
    + cbn [row_pos]. rewrite prod_cons. destruct (x + z + 1 =? y) eqn:E; [apply Z.eqb_eq in E; left|apply Z.eqb_neq in E; right].
      * repeat split. nia.
      * split; [reflexivity|]. exists (z + 1 :: repeat 0 (length (subz e b))).
        assert (Hp : Forall (fun d => 0 < d) (subz e b)).
        { clear - Hj0. induction Hj0; constructor; [lia|assumption]. }
        pose proof (zeros_in_bounds _ Hp) as Z0. cbn [row_pos addz fst]. rewrite row_pos_repeat0.
        split; [|split; [constructor; [lia|exact Z0]|lia]]. f_equal; [lia|].
        rewrite subz_length by (cbn in He; lia). clear. induction b; cbn; [reflexivity|]. f_equal; [lia|exact IHb].
    + right. split; [reflexivity|]. exists (z :: j'). cbn [addz row_pos]. split; [reflexivity|]. split; [constructor; assumption|lia].
Qed.

Lemma mi_count_ok b e : length e = length b -> Forall (fun d => 0 <= d < 2 ^ 64) (subz e b) -> mi_count b e = Ok (prod (subz e b)).
Proof.
  intros He Hd. unfold mi_count.
  assert (G : forall b2 e2 b1 e1 n, length e1 = length b1 -> length e2 = length b2 -> Forall (fun d => 0 <= d < 2 ^ 64) (subz e2 b2) ->
    for_up (fun i n => let* y := rd (e1 ++ e2) i in let* x := rd (b1 ++ b2) i in Ok (n * to_size_t (y - x))) (length b1) (length b2) n
    = Ok (n * prod (subz e2 b2))).
  { induction b2 as [|x b2 IH]; intros [|y e2] b1 e1 n H1 H2 Hp; try discriminate.
    - cbn. rewrite prod_nil. f_equal. lia.
    - cbn [length for_up subz] in *. inversion Hp as [|? ? Hxy Hp']; subst. rewrite prod_cons.
      rewrite (rd_ok _ _ y) by (rewrite <- H1, nth_error_app2, Nat.sub_diag by lia; reflexivity). cbn [bind].
      rewrite (rd_ok _ _ x) by (rewrite nth_error_app2, Nat.sub_diag by lia; reflexivity). cbn [bind].
      assert (A : forall l v (t : list Z), l ++ v :: t = (l ++ [v]) ++ t) by (intros; rewrite <- app_assoc; reflexivity).
      rewrite (A e1), (A b1). replace (S (length b1)) with (length (b1 ++ [x])) by (rewrite app_length; cbn; lia).
      rewrite IH; [|rewrite !app_length; cbn; lia|lia|exact Hp']. f_equal. unfold to_size_t. rewrite Z.mod_small by exact Hxy. lia. }
  specialize (G b e [] [] 1 eq_refl He Hd). cbn [app length] in G. rewrite G. f_equal. lia.
Qed.

Section Loop.
  Context (lo hi : list Z) (Hl : length hi = length lo) (Hs : is_shape (subz hi lo)).
  Let D := subz hi lo.
  Definition all_blocks : list (list Z) := map (addz lo) (row_indices D).
  Lemma all_blocks_length : Z.of_nat (length all_blocks) = prod D.
  Proof. unfold all_blocks. rewrite map_length. apply row_indices_length. exact Hs. Qed.

  Lemma mi_first : (0 < length all_blocks)%nat -> nth_error all_blocks 0 = Some lo.
  Proof.
    intros Hn. pose proof all_blocks_length as L.
    assert (Hp : Forall (fun d => 0 < d) D) by (apply Accum2_Proofs.pos_of_prod; [exact Hs|lia]).
    pose proof (row_indices_nth D _ (zeros_in_bounds _ Hp)) as E. rewrite row_pos_repeat0 in E. change (Z.to_nat 0) with O in E.
    unfold all_blocks. rewrite nth_error_map, E. cbn. f_equal. unfold D. rewrite subz_length by exact Hl.
    clear. induction lo; cbn; [reflexivity|]. f_equal; [lia|assumption].
  Qed.
  Lemma mi_step n q : nth_error all_blocks n = Some q ->
    exists q', mi_next lo hi q = Ok q' /\ ((S n < length all_blocks)%nat -> nth_error all_blocks (S n) = Some q').
  Proof.
    intros E. unfold all_blocks in E. rewrite nth_error_map in E. destruct (nth_error (row_indices D) n) as [j|] eqn:Ej; [|discriminate].
    injection E as <-. assert (Hj : in_bounds D j) by (apply row_indices_in; eapply nth_error_In; exact Ej).
    assert (Hr : row_pos D j = Z.of_nat n).
    { pose proof (row_indices_nth D j Hj) as E. assert (Hn : (n < length (row_indices D))%nat) by (apply nth_error_Some; rewrite Ej; discriminate).
      pose proof (row_pos_bound _ _ Hj). pose proof (proj1 (NoDup_nth_error _) (row_indices_nodup D) n (Z.to_nat (row_pos D j)) Hn) as U.
      rewrite Ej, E in U. specialize (U eq_refl). lia. }
    pose proof (in_bounds_length _ _ Hj) as Lj. assert (LD : length D = length lo) by (apply subz_length; exact Hl).
    rewrite next_succ by (try rewrite addz_length; lia). eexists. split; [reflexivity|]. intros HS. pose proof all_blocks_length as LB.
    destruct (succ_pos lo hi j Hl Hj) as [(_ & _ & E)|(_ & j' & E1 & E2 & E3)]; [fold D in E; lia|]. fold D in E2, E3.
    unfold all_blocks. rewrite nth_error_map, E1. pose proof (row_indices_nth D j' E2) as F. rewrite E3, Hr in F.
    replace (Z.to_nat (Z.of_nat n + 1)) with (S n) in F by lia. rewrite F. reflexivity.
  Qed.

  (** A loop over the multi-indices. *)
  Lemma mi_loop {X} (P : nat -> X -> Prop) (body : nat -> list Z * bool * X -> res (list Z * bool * X)) s0 : P O s0 ->
    (forall i n q s, nth_error all_blocks n = Some q -> P n s ->
       exists s', P (S n) s' /\ body i (q, (n =? 0)%nat, s) = let* q' := mi_next lo hi q in Ok (q', false, s')) ->
    exists q first s, for_up body 0 (length all_blocks) (lo, true, s0) = Ok (q, first, s) /\ P (length all_blocks) s.
  Proof.
    intros H0 Hstep.
    destruct (for_up_inv (fun n '(q, first, s) => P n s /\ first = (n =? 0)%nat /\ ((n < length all_blocks)%nat -> nth_error all_blocks n = Some q))
      body 0 (length all_blocks) (lo, true, s0)) as ([[q first] s] & E & HP & _).
    - split; [exact H0|]. split; [reflexivity|]. apply mi_first.
    - intros n [[q first] s] Hn (HP & -> & Hq). specialize (Hq ltac:(lia)). destruct (Hstep n n q s Hq HP) as (s' & HP' & E).
      destruct (mi_step n q Hq) as (q' & E' & Hq'). rewrite E, E'. cbn [bind]. eexists. split; [reflexivity|]. cbn beta iota. auto.
    - exists q, first, s. split; [exact E|exact HP].
  Qed.
End Loop.

Lemma mi_all_ok lo hi : length hi = length lo -> Forall (fun d => 0 <= d < 2 ^ 64) (subz hi lo) ->
  mi_all lo hi = Ok (all_blocks lo hi).
Proof.
  intros Hl Hs. unfold mi_all. rewrite mi_count_ok by assumption. cbn [bind].
  assert (Hs' : is_shape (subz hi lo)) by (eapply Forall_impl; [|exact Hs]; cbn; intros; lia).
  pose proof (all_blocks_length lo hi Hs') as L. rewrite <- L, Nat2Z.id.
  destruct (for_up_inv (fun n '(q, l) => l = firstn n (all_blocks lo hi) /\ ((n < length (all_blocks lo hi))%nat -> nth_error (all_blocks lo hi) n = Some q))
    (fun _ '(cur, l) => let* cur' := mi_next lo hi cur in Ok (cur', l ++ [cur])) 0 (length (all_blocks lo hi)) (lo, [])) as ([q l] & E & -> & _).
  - split; [reflexivity|]. apply mi_first; assumption.
  - intros n [q l] Hn (-> & Hq). specialize (Hq ltac:(lia)). destruct (mi_step lo hi Hl Hs' n q Hq) as (q' & E' & Hq'). rewrite E'. cbn [bind].
    eexists. split; [reflexivity|]. cbn beta iota. split; [|exact Hq'].
    clear - Hq. revert Hq. generalize (all_blocks lo hi). induction n as [|n IH]; intros [|x l] H; try discriminate; cbn in *; [congruence|]. f_equal. apply IH. exact H.
  - rewrite E. cbn [bind]. rewrite Nat.add_0_l, firstn_all. reflexivity.
Qed.

(** ** The shapes *)

Lemma mem_axis_dec i axes : mem_axis i axes = if in_dec Z.eq_dec (Z.of_nat i) axes then true else false.
Proof.
  unfold mem_axis. destruct (in_dec _ _ _) as [H|H].
  - apply existsb_exists. exists (Z.of_nat i). split; [exact H|apply Z.eqb_refl].
  - destruct (existsb _ _) eqn:E; [|reflexivity]. apply existsb_exists in E as (x & Hx & Ex). apply Z.eqb_eq in Ex. subst. contradiction.
Qed.

Definition the_map (keep : bool) (axes : list Z) (i len : nat) : list nat := if keep then seq i len else kepts axes (Z.of_nat i) i len.

Lemma init_keep sh bs axes : length bs = length sh ->
  init_shapes sh bs axes true = Ok (red_shape true axes sh, red_shape true axes bs, the_map true axes 0 (length sh)).
Proof.
  intros Hb. unfold init_shapes. set (body := fun i s => _).
  assert (G : forall sh2 bs2 sh1 bs1 rs rc m n1 n2 n3, sh = sh1 ++ sh2 -> bs = bs1 ++ bs2 -> length bs1 = length sh1 -> length bs2 = length sh2 ->
    length rs = length sh1 -> length rc = length sh1 -> length m = length sh1 -> length n1 = length sh2 -> length n2 = length sh2 -> length n3 = length sh2 ->
    for_up body (length sh1) (length sh2) (rs ++ n1, rc ++ n2, m ++ n3)
    = Ok (rs ++ replaced axes 1 (Z.of_nat (length sh1)) sh2, rc ++ replaced axes 1 (Z.of_nat (length sh1)) bs2, m ++ seq (length sh1) (length sh2))).
  { induction sh2 as [|s sh2 IH]; intros [|c bs2] sh1 bs1 rs rc m [|a1 n1] [|a2 n2] [|a3 n3] E1 E2 L1 L2 L3 L4 L5 L6 L7 L8; try discriminate; [reflexivity|].
    cbn [length for_up replaced seq] in *. unfold body at 1. rewrite (wr_mid' _ m) by lia. cbn [bind]. rewrite mem_axis_dec.
    set (v := if in_dec Z.eq_dec (Z.of_nat (length sh1)) axes then 1 else s). set (w := if in_dec Z.eq_dec (Z.of_nat (length sh1)) axes then 1 else c).
    transitivity (let* s' := Ok (rs ++ v :: n1, rc ++ w :: n2, m ++ length sh1 :: n3) in for_up body (S (length sh1)) (length sh2) s').
    - unfold v, w. destruct (in_dec _ _ _); cbn [bind].
      + rewrite (wr_mid' _ rs) by lia. cbn [bind]. rewrite (wr_mid' _ rc) by lia. reflexivity.
      + rewrite E1 at 1. rewrite rd_mid. cbn [bind]. rewrite (wr_mid' _ rs) by lia. cbn [bind]. rewrite E2 at 1. rewrite rd_mid' by lia. cbn [bind].
        rewrite (wr_mid' _ rc) by lia. reflexivity.
    - cbn [bind]. rewrite (snoc_eq rs v), (snoc_eq rc w), (snoc_eq m).
      replace (S (length sh1)) with (length (sh1 ++ [s])) by (rewrite app_length; cbn; lia).
      rewrite (IH bs2 (sh1 ++ [s]) (bs1 ++ [c])); rewrite ?app_length, <- ?app_assoc; cbn [length app]; try assumption; try lia.
      replace (Z.of_nat (length sh1 + 1)) with (Z.of_nat (length sh1) + 1) by lia. replace (length sh1 + 1)%nat with (S (length sh1)) by lia. reflexivity. }
  specialize (G sh bs [] [] [] [] [] (repeat 0 (length sh)) (repeat 0 (length sh)) (repeat O (length sh)) eq_refl eq_refl).
  cbn [app length] in G. apply G; rewrite ?repeat_length; try reflexivity. exact Hb.
Qed.

Lemma init_drop sh bs axes : length bs = length sh -> valid_axes (length sh) axes ->
  init_shapes sh bs axes false = Ok (red_shape false axes sh, red_shape false axes bs, the_map false axes 0 (length sh)).
Proof.
  intros Hb Hv. unfold init_shapes. pose proof (valid_axes_length _ _ Hv). destruct (Nat.ltb_spec (length sh) (length axes)); [lia|].
  set (body := fun i s => _).
  assert (G : forall sh2 bs2 sh1 bs1 rs rc m n1 n2 n3, sh = sh1 ++ sh2 -> bs = bs1 ++ bs2 -> length bs1 = length sh1 -> length bs2 = length sh2 ->
    length rc = length rs -> length m = length rs -> length n1 = nkept axes (Z.of_nat (length sh1)) (length sh2) -> length n2 = length n1 -> length n3 = length n1 ->
    exists idx, for_up body (length sh1) (length sh2) (length rs, (rs ++ n1, rc ++ n2, m ++ n3))
    = Ok (idx, (rs ++ without axes (Z.of_nat (length sh1)) sh2, rc ++ without axes (Z.of_nat (length sh1)) bs2, m ++ kepts axes (Z.of_nat (length sh1)) (length sh1) (length sh2)))).
  { induction sh2 as [|s sh2 IH]; intros [|c bs2] sh1 bs1 rs rc m n1 n2 n3 E1 E2 L1 L2 L3 L4 L5 L6 L7; try discriminate.
    { cbn in *. destruct n1, n2, n3; try discriminate. eexists. reflexivity. }
    cbn [length for_up without kepts nkept] in *. unfold body at 1. rewrite mem_axis_dec.
    assert (EL : S (length sh1) = length (sh1 ++ [s])) by (rewrite app_length; cbn; lia).
    assert (EZ : Z.of_nat (length sh1) + 1 = Z.of_nat (length (sh1 ++ [s]))) by lia.
    rewrite EZ in *. rewrite EL.
    destruct (in_dec _ _ _); cbn [bind].
    - apply (IH bs2 (sh1 ++ [s]) (bs1 ++ [c])); rewrite ?app_length, <- ?app_assoc; cbn [length app]; try assumption; try lia. rewrite L5. f_equal. rewrite app_length. reflexivity.
    - destruct n1 as [|a1 n1], n2 as [|a2 n2], n3 as [|a3 n3]; try discriminate. cbn [length] in *.
      assert (R1 : rd sh (length sh1) = Ok s) by (rewrite E1; apply rd_mid). assert (R2 : rd bs (length sh1) = Ok c) by (rewrite E2; apply rd_mid'; lia).
      rewrite R1. cbn [bind]. rewrite wr_mid. cbn [bind]. rewrite R2. cbn [bind].
      rewrite (wr_mid' _ rc) by lia. cbn [bind]. rewrite (wr_mid' _ m) by lia. cbn [bind].
      rewrite (snoc_eq rs s), (snoc_eq rc c), (snoc_eq m (length sh1)).
      replace (S (length rs)) with (length (rs ++ [s])) by (rewrite app_length; cbn; lia).
      edestruct (IH bs2 (sh1 ++ [s]) (bs1 ++ [c]) (rs ++ [s]) (rc ++ [c]) (m ++ [length sh1]) n1 n2 n3) as (idx & E);
        try (rewrite ?app_length, <- ?app_assoc; cbn [length app]; try assumption; lia).
      + exact (eq_add_S _ _ L5).
      + exists idx. rewrite E. rewrite <- !app_assoc. reflexivity. }
  destruct (G sh bs [] [] [] [] [] (repeat 0 (length sh - length axes)) (repeat 0 (length sh - length axes)) (repeat O (length sh - length axes)) eq_refl eq_refl)
    as (idx & E); rewrite ?repeat_length; try reflexivity; try assumption.
  - destruct Hv as [H1 H2]. pose proof (nkept_valid (length sh) axes 0 H1 ltac:(eapply Forall_impl; [|exact H2]; cbn; intros; lia)). cbn [length]. change (Z.of_nat 0) with 0. lia.
  - cbn [app length] in E. rewrite E. reflexivity.
Qed.

Lemma grid_strides_ok grid : exists st, grid_strides grid = Ok st /\ length st = length grid.
Proof.
  unfold grid_strides.
  destruct (for_down_inv (fun _ '(st, s) => length st = length grid)
    (fun i '(st, s) => let* st' := wr st i s in let* g := rd grid i in Ok (st', s * g)) (length grid) (repeat 0 (length grid), 1)) as ([st s] & E & L).
  - apply repeat_length.
  - intros i [st s] Hi L. rewrite wr_ok by lia. cbn [bind]. destruct (nth_error grid i) as [g|] eqn:Eg; [|apply nth_error_None in Eg; lia].
    rewrite (rd_ok _ _ _ Eg). cbn [bind]. eexists. split; [reflexivity|]. cbn beta iota. rewrite upd_length. exact L.
  - rewrite E. cbn [bind]. eauto.
Qed.

Lemma make_ok sh bs axes keep : chunkable sh bs -> valid_axes (length sh) axes ->
  exists st, make_breducer sh bs axes keep =
    Ok (mk_breducer (mk_chunking sh bs (ceils sh bs)) axes keep (red_shape keep axes sh) (red_shape keep axes bs) (the_map keep axes 0 (length sh)) st) /\
    length st = length sh.
Proof.
  intros H Hv. unfold make_breducer, view_chunking. rewrite (grid_ok _ _ H). cbn [bind].
  assert (E : init_shapes sh bs axes keep = Ok (red_shape keep axes sh, red_shape keep axes bs, the_map keep axes 0 (length sh))).
  { destruct keep; [apply init_keep|apply init_drop; [|exact Hv]]; apply chunkable_length; exact H. }
  rewrite E. cbn [bind g_grid]. destruct (grid_strides_ok (ceils sh bs)) as (st & Es & L). rewrite Es. cbn [bind]. exists st. split; [reflexivity|].
  rewrite L. apply ceils_length. exact H.
Qed.

Lemma input_iter_ok sh bs axes keep rs rc m st q : chunkable sh bs -> length st = length sh -> length q = length sh ->
  exists n, input_iter (mk_breducer (mk_chunking sh bs (ceils sh bs)) axes keep rs rc m st) q = Ok (mk_it q n (boxes q bs sh)).
Proof.
  intros H Ls Lq. unfold input_iter. cbn [b_in b_strides g_shape].
  destruct (for_up_inv (fun _ _ => True) (fun i n => let* x := rd q i in let* s := rd st i in Ok (n + x * s)) 0 (length sh) 0 I) as (n & E & _).
  - intros i n Hi _. destruct (nth_error q i) as [x|] eqn:Ex; [|apply nth_error_None in Ex; lia].
    destruct (nth_error st i) as [s|] eqn:Es; [|apply nth_error_None in Es; lia]. rewrite (rd_ok _ _ _ Ex). cbn [bind]. rewrite (rd_ok _ _ _ Es). cbn [bind]. eauto.
  - rewrite E. cbn [bind]. exists n. apply it_make_ok; assumption.
Qed.

(** ** The range of blocks *)

Fixpoint lohi (keep : bool) (axes : list Z) (k : Z) (sh grid q : list Z) {struct sh} : list (Z * Z) :=
  match sh, grid with
  | s :: sh', g :: grid' =>
      if in_dec Z.eq_dec k axes then (0, g) :: lohi keep axes (k + 1) sh' grid' (if keep then tl q else q)
      else (if s =? 1 then (0, g) else (hd 0 q, hd 0 q + 1)) :: lohi keep axes (k + 1) sh' grid' (tl q)
  | _, _ => []
  end.

Lemma range_ok sh bs axes keep st q : chunkable sh bs -> length q = length (red_shape keep axes sh) ->
  input_range (mk_breducer (mk_chunking sh bs (ceils sh bs)) axes keep (red_shape keep axes sh) (red_shape keep axes bs) (the_map keep axes 0 (length sh)) st) q =
  Ok (map fst (lohi keep axes 0 sh (ceils sh bs) q), map snd (lohi keep axes 0 sh (ceils sh bs) q)).
Proof.
  intros H Lq. unfold input_range. cbn [b_in g_shape g_grid b_shape b_map].
  pose proof (ceils_length sh bs H) as Lg. revert Lg. generalize (ceils sh bs) as grid. intros grid Lg.
  set (body := fun r s => _).
  assert (G : forall sh2 g2 q2 (sh1 : list Z) rs q1 m lo hi, length g2 = length sh2 -> length q2 = length (rsh keep axes (Z.of_nat (length sh1)) sh2) ->
    red_shape keep axes sh = rs ++ rsh keep axes (Z.of_nat (length sh1)) sh2 -> the_map keep axes 0 (length sh) = m ++ the_map keep axes (length sh1) (length sh2) ->
    q = q1 ++ q2 -> length m = length rs -> length q1 = length rs -> length lo = length sh1 -> length hi = length sh1 ->
    for_up body (length rs) (length (rsh keep axes (Z.of_nat (length sh1)) sh2)) (lo ++ repeat 0 (length sh2), hi ++ g2) =
    Ok (lo ++ map fst (lohi keep axes (Z.of_nat (length sh1)) sh2 g2 q2), hi ++ map snd (lohi keep axes (Z.of_nat (length sh1)) sh2 g2 q2))).
  { induction sh2 as [|s sh2 IH]; intros [|g g2] q2 sh1 rs q1 m lo hi L1 L2 E1 E2 E3 L3 L4 L5 L6; try discriminate.
    { rewrite rsh_nil. reflexivity. }
    assert (EL : S (length sh1) = length (sh1 ++ [s])) by (rewrite app_length; cbn; lia).
    assert (EZ : Z.of_nat (length sh1) + 1 = Z.of_nat (length (sh1 ++ [s]))) by lia.
    assert (EM : the_map keep axes (length sh1) (length (s :: sh2)) = if in_dec Z.eq_dec (Z.of_nat (length sh1)) axes
      then (if keep then length sh1 :: the_map keep axes (length (sh1 ++ [s])) (length sh2) else the_map keep axes (length (sh1 ++ [s])) (length sh2))
      else length sh1 :: the_map keep axes (length (sh1 ++ [s])) (length sh2)).
    { unfold the_map. cbn [length seq kepts]. rewrite EZ, EL. destruct keep, (in_dec _ _ _); reflexivity. }
    rewrite EM in E2. rewrite rsh_cons in *. cbn [lohi repeat length]. rewrite EZ in *.
    destruct (in_dec _ _ _) as [Hin|Hout].
    - destruct keep.
      + destruct q2 as [|x q2]; [discriminate|]. cbn [tl map fst snd length for_up] in *. unfold body at 1. rewrite E1 at 1. rewrite rd_mid. cbn [bind].
        change (1 =? 1) with true. cbn iota. cbn [bind].
        rewrite (snoc_eq lo 0 (repeat _ _)), (snoc_eq hi g g2). replace (S (length rs)) with (length (rs ++ [1])) by (rewrite app_length; cbn; lia).
        rewrite (IH g2 q2 (sh1 ++ [s]) (rs ++ [1]) (q1 ++ [x]) (m ++ [length sh1])); rewrite ?app_length, <- ?app_assoc; cbn [length app]; try reflexivity; try lia.
        * rewrite app_length in *. cbn [length] in *. exact (eq_add_S _ _ L2).
        * rewrite app_length in *. exact E1.
        * rewrite app_length in *. exact E2.
        * exact E3.
      + cbn [map fst snd] in *. rewrite (snoc_eq lo 0 (repeat _ _)), (snoc_eq hi g g2).
        rewrite (IH g2 q2 (sh1 ++ [s]) rs q1 m); rewrite ?app_length, <- ?app_assoc; cbn [length app]; try reflexivity; try lia; try assumption.
        * cbn in L1. lia.
        * rewrite app_length in *. exact L2.
        * rewrite app_length in *. exact E1.
        * rewrite app_length in *. exact E2.
    - destruct q2 as [|x q2]; [destruct keep; discriminate|]. cbn [tl hd map fst snd length for_up] in *. unfold body at 1. rewrite E1 at 1. rewrite rd_mid. cbn [bind].
      transitivity (let* s' := Ok (lo ++ (if s =? 1 then 0 else x) :: repeat 0 (length sh2), hi ++ (if s =? 1 then g else x + 1) :: g2) in
        for_up body (S (length rs)) (length (rsh keep axes (Z.of_nat (length (sh1 ++ [s]))) sh2)) s').
      + destruct (s =? 1); [reflexivity|]. rewrite E2 at 1. rewrite rd_mid' by lia. cbn [bind]. rewrite E3 at 1. rewrite rd_mid' by lia. cbn [bind].
        rewrite (wr_mid' _ lo) by lia. cbn [bind]. rewrite (wr_mid' _ hi) by lia. reflexivity.
      + cbn [bind]. rewrite (snoc_eq lo), (snoc_eq hi). replace (S (length rs)) with (length (rs ++ [s])) by (rewrite app_length; cbn; lia).
        rewrite (IH g2 q2 (sh1 ++ [s]) (rs ++ [s]) (q1 ++ [x]) (m ++ [length sh1])); rewrite ?app_length, <- ?app_assoc; cbn [length app]; try lia.
        * destruct (s =? 1); reflexivity.
        * rewrite app_length in *. cbn [length] in *. exact (eq_add_S _ _ L2).
        * rewrite app_length in *. exact E1.
        * rewrite app_length in *. exact E2.
        * exact E3. }
  specialize (G sh grid q [] [] [] [] [] [] Lg Lq eq_refl eq_refl eq_refl eq_refl eq_refl eq_refl eq_refl).
  cbn [app length] in G. exact G.
Qed.

Lemma lohi_length keep axes : forall sh k grid q, length grid = length sh -> length (lohi keep axes k sh grid q) = length sh.
Proof.
  induction sh as [|s sh IH]; intros k [|g grid] q H; try discriminate; [reflexivity|]. cbn [lohi length] in *.
  destruct (in_dec _ _ _); cbn [length]; f_equal; apply IH; lia.
Qed.
Lemma subz_lohi keep axes : forall sh cs k q, chunkable sh cs ->
  Forall2 (fun d g => 0 <= d /\ (d = g \/ d = 1)) (subz (map snd (lohi keep axes k sh (ceils sh cs) q)) (map fst (lohi keep axes k sh (ceils sh cs) q))) (ceils sh cs).
Proof.
  intros sh cs k q H. revert k q. induction H as [|s c sh cs [Hs Hc] H IH]; intros k q; cbn [lohi ceils map subz]; [constructor|].
  pose proof (Z.div_pos s c ltac:(lia) ltac:(lia)).
  destruct (in_dec _ _ _); [|destruct (s =? 1)]; cbn [map fst snd subz]; (constructor; [|apply IH]);
    destruct (0 <? s mod c); lia.
Qed.

Lemma ceils_red keep axes : forall sh cs k, chunkable sh cs -> ceils (rsh keep axes k sh) (rsh keep axes k cs) = rsh keep axes k (ceils sh cs).
Proof.
  intros sh cs k H. revert k. induction H as [|s c sh cs [Hs Hc] H IH]; intros k; [rewrite !rsh_nil; reflexivity|].
  cbn [ceils]. rewrite !rsh_cons. destruct (in_dec _ _ _), keep; cbn [ceils]; rewrite ?IH; reflexivity.
Qed.
Lemma chunkable_red keep axes : forall sh cs k, chunkable sh cs -> chunkable (rsh keep axes k sh) (rsh keep axes k cs).
Proof.
  intros sh cs k H. revert k. induction H as [|s c sh cs [Hs Hc] H IH]; intros k; [rewrite !rsh_nil; constructor|].
  rewrite !rsh_cons. destruct (in_dec _ _ _), keep; try apply IH; constructor; try apply IH; lia.
Qed.

(** The blocks of the range are those that contribute to the chunk q of the result. *)
Lemma range_in keep axes : forall sh cs k q p, chunkable sh cs -> in_bounds (rsh keep axes k (ceils sh cs)) q ->
  let r := lohi keep axes k sh (ceils sh cs) q in
  (exists j, in_bounds (subz (map snd r) (map fst r)) j /\ p = addz (map fst r) j) <-> in_bounds (ceils sh cs) p /\ rix keep axes k p = q.
Proof.
  intros sh cs k q p H. revert k q p. induction H as [|s c sh cs [Hs Hc] H IH]; intros k q p Hq; cbn zeta.
  - rewrite rsh_nil in Hq. inversion Hq; subst. cbn. split.
    + intros (j & Hj & ->). inversion Hj; subst. split; [constructor|destruct keep; reflexivity].
    + intros (Hp & _). inversion Hp; subst. exists []. split; [constructor|reflexivity].
  - cbn [ceils lohi] in *. set (g := if 0 <? s mod c then s / c + 1 else s / c) in *.
    rewrite rsh_cons in Hq.
    assert (Hcons : forall lo hi r q', in_bounds (rsh keep axes (k + 1) (ceils sh cs)) q' -> r = lohi keep axes (k + 1) sh (ceils sh cs) q' ->
      (exists j, in_bounds (hi - lo :: subz (map snd r) (map fst r)) j /\ p = addz (lo :: map fst r) j) <->
      exists y p', p = y :: p' /\ lo <= y < hi /\ in_bounds (ceils sh cs) p' /\ rix keep axes (k + 1) p' = q').
    { intros lo hi r q' Hq' ->. split.
      - intros (j & Hj & ->). inversion Hj as [|? x ? j' Hx Hj']; subst. cbn [addz]. do 2 eexists. split; [reflexivity|]. split; [lia|]. apply IH; [exact Hq'|]. eauto.
      - intros (y & p' & -> & Hy & Hp'). apply (IH _ _ _ Hq') in Hp' as (j & Hj & ->). exists (y - lo :: j). split; [constructor; [lia|exact Hj]|]. cbn [addz]. f_equal. lia. }
    destruct (in_dec Z.eq_dec k axes) as [Hin|Hout] eqn:Ed.
    + assert (Q : exists q', in_bounds (rsh keep axes (k + 1) (ceils sh cs)) q' /\ q = (if keep then 0 :: q' else q') /\ (if keep then tl q else q) = q').
      { destruct keep; [|eauto]. inversion Hq as [|? x ? q' Hx Hq']; subst. exists q'. cbn. split; [exact Hq'|]. split; [f_equal; lia|reflexivity]. }
      destruct Q as (q' & Hq' & -> & ->). cbn [map fst snd subz]. rewrite (Hcons 0 g _ q' Hq' eq_refl). split.
      * intros (y & p' & -> & Hy & Hp & <-). split; [constructor; [lia|exact Hp]|]. rewrite rix_cons, Ed. reflexivity.
      * intros (Hp & Hr). inversion Hp as [|? y ? p' Hy Hp']; subst. rewrite rix_cons, Ed in Hr. exists y, p'. repeat split; try assumption; try lia.
        destruct keep; [injection Hr as Hr; exact Hr|exact Hr].
    + assert (Q : exists x q', q = x :: q' /\ 0 <= x < g /\ in_bounds (rsh keep axes (k + 1) (ceils sh cs)) q') by (inversion Hq; subst; eauto 6).
      destruct Q as (x & q' & -> & Hx & Hq'). cbn [tl hd].
      assert (Eg : s = 1 -> g = 1).
      { intros ->. unfold g. destruct (Z.eq_dec c 1) as [ -> |Hc1]; [reflexivity|]. rewrite Z.mod_small, Z.div_small by lia. reflexivity. }
      assert (A : forall lo hi, (forall y, lo <= y < hi <-> y = x) ->
        (exists j, in_bounds (hi - lo :: subz (map snd (lohi keep axes (k + 1) sh (ceils sh cs) q')) (map fst (lohi keep axes (k + 1) sh (ceils sh cs) q'))) j /\
           p = addz (lo :: map fst (lohi keep axes (k + 1) sh (ceils sh cs) q')) j) <-> in_bounds (g :: ceils sh cs) p /\ rix keep axes k p = x :: q').
      { intros lo hi Hlh. rewrite (Hcons lo hi _ q' Hq' eq_refl). split.
        - intros (y & p' & -> & Hy & Hp & <-). apply Hlh in Hy. subst y. split; [constructor; [lia|exact Hp]|]. rewrite rix_cons, Ed. reflexivity.
        - intros (Hp & Hr). inversion Hp as [|? y ? p' Hy Hp']; subst. rewrite rix_cons, Ed in Hr. injection Hr as -> Hr. exists x, p'. repeat split; try assumption; apply Hlh; reflexivity. }
      destruct (s =? 1) eqn:E1; cbn [map fst snd subz].
      * apply Z.eqb_eq in E1. specialize (Eg E1). apply A. intros y. lia.
      * apply A. intros y. lia.
Qed.
