From Coq Require Import List ZArith Bool Lia Permutation.
From Verif Require Import Prelude PreludeFacts Strides_Model Strides_Spec Strides_Proofs Access_Model Container_Model Container_Spec Container_Proofs Manip_Model Builder_Model Builder_Spec Builder_Proofs Reduce_Spec Reduce13_Proofs SetOp_Model Random_Model Random_Spec Random_Proofs.
Import ListNotations.
Open Scope Z_scope.

(** Reading and writing the positions of a sub-array *)
Lemma write_all_ok {V} : forall ps (xs mem : list V), NoDup ps -> length xs = length ps -> Forall (fun p => 0 <= p < Z.of_nat (length mem)) ps ->
  exists mem', write_all ps xs mem = Ok mem' /\ length mem' = length mem /\
    (forall k p, nth_error ps k = Some p -> nth_error mem' (Z.to_nat p) = nth_error xs k) /\
    (forall q, ~ In (Z.of_nat q) ps -> nth_error mem' q = nth_error mem q).
Proof.
  unfold write_all. induction ps as [|p ps IH]; intros xs mem Nd HL F; cbn [combine for_each].
  - exists mem. split; [reflexivity|]. split; [reflexivity|]. split; [intros [|k] q E; discriminate|reflexivity].
  - destruct xs as [|x xs]; [discriminate|]. inversion Nd as [|? ? Hn Nd']; subst. inversion F as [|? ? Fp F']; subst. cbn [for_each fst snd].
    rewrite wrz_ok by lia. cbn [bind]. destruct (IH xs (upd mem (Z.to_nat p) x)) as (mem' & E & L & H1 & H2); [exact Nd'|cbn in HL; lia|rewrite upd_length; exact F'|].
    exists mem'. split; [exact E|]. split; [rewrite L, upd_length; reflexivity|]. split.
    + intros [|k] q Eq; cbn in Eq; [|exact (H1 k q Eq)]. injection Eq as <-. rewrite H2 by (rewrite Z2Nat.id by lia; exact Hn). cbn. apply nth_error_upd_same. lia.
    + intros q Hq. rewrite H2 by (intros Hi; apply Hq; right; exact Hi). apply nth_error_upd_other. intros E0. apply Hq. left. lia.
Qed.

Lemma nodup_map_in {A B} (f : A -> B) : forall l, (forall i j, In i l -> In j l -> f i = f j -> i = j) -> NoDup l -> NoDup (map f l).
Proof.
  induction l as [|x l IH]; intros Hi Nd; cbn; [constructor|]. inversion Nd; subst. constructor.
  - intros Hx. apply in_map_iff in Hx. destruct Hx as (y & E & Hy). assert (y = x) by (apply Hi; [right; exact Hy|left; reflexivity|exact E]). congruence.
  - apply IH; [|assumption]. intros i j Hii Hjj. apply Hi; right; assumption.
Qed.

(** The loop over a list commutes with a map *)
Lemma lswap_map {V W} (f : V -> W) i j l : lswap i j (map f l) = map f (lswap i j l).
Proof.
  unfold lswap. rewrite !nth_error_map. destruct (nth_error l i) as [x|], (nth_error l j) as [y|]; cbn [option_map]; try reflexivity.
  assert (U : forall (l : list V) k z, upd (map f l) k (f z) = map f (upd l k z)).
  { induction l0 as [|a l0 IH]; intros [|k] z; cbn; try reflexivity. rewrite IH. reflexivity. }
  rewrite !U. reflexivity.
Qed.
Lemma shuffled_map {G V W} (uniform : Z -> G -> Z * G) (f : V -> W) : forall i l g,
  shuffled uniform i (map f l) g = (map f (fst (shuffled uniform i l g)), snd (shuffled uniform i l g)).
Proof.
  induction i as [|i IH]; intros l g; cbn [shuffled]; [reflexivity|]. destruct (uniform (Z.of_nat (S i)) g) as [j g']. rewrite lswap_map. apply IH.
Qed.

Lemma upto_length n : length (upto n) = n.
Proof. unfold upto. rewrite map_length. apply seq_length. Qed.
Lemma upto_nth n k : (k < n)%nat -> nth_error (upto n) k = Some (Z.of_nat k).
Proof. intros H. unfold upto. rewrite nth_error_map. rewrite (nth_error_nth' (seq 0 n) 0%nat) by (rewrite seq_length; exact H). rewrite seq_nth by exact H. reflexivity. Qed.
Lemma upto_nodup n : NoDup (upto n).
Proof. unfold upto. apply nodup_map_in; [intros; lia|apply seq_NoDup]. Qed.
Lemma shows_self {V} (l : list V) : shows (upto (length l)) l l.
Proof.
  apply forall2_of_nth; [apply upto_length|]. intros k p x Ep Ex. assert (k < length l)%nat by (apply nth_error_Some; congruence).
  rewrite upto_nth in Ep by assumption. injection Ep as <-. split; [lia|]. rewrite Nat2Z.id. exact Ex.
Qed.
Lemma shows_upto {V} n (mem l : list V) : length mem = n -> shows (upto n) mem l -> mem = l.
Proof.
  intros HL Sh. pose proof (shows_length _ _ _ Sh) as L2. rewrite upto_length in L2. apply nth_error_ext_len; [lia|]. intros i Hi.
  destruct (forall2_nth' _ _ _ Sh i (Z.of_nat i)) as (x & Ex & _ & Em); [apply upto_nth; lia|]. rewrite Nat2Z.id in Em. congruence.
Qed.

Section Rows.
Context {G V : Type} (uniform : Z -> G -> Z * G) (c : cont V) (n0 : Z) (sh' : list Z).
Hypothesis Hu : in_range uniform.
Hypothesis Hc : consistent c.
Hypothesis Hs : ct_shape c = n0 :: sh'.

Let addr (r : Z) (ix : list Z) : Z := element_offset (ct_strides c) (r :: ix).
Definition filled (mem : list V) (F : Z -> list Z -> V) : Prop :=
  length mem = length (ct_data c) /\ forall r ix, 0 <= r < n0 -> in_bounds sh' ix -> nth_error mem (Z.to_nat (addr r ix)) = Some (F r ix).

Lemma addr_in r ix : 0 <= r < n0 -> in_bounds sh' ix -> 0 <= addr r ix < Z.of_nat (length (ct_data c)).
Proof.
  intros Hr Hix. destruct Hc as (_ & _ & _ & HL & l & _ & _ & He). unfold addr. rewrite He by (rewrite Hs; constructor; assumption).
  rewrite HL. apply rank_bound. rewrite Hs. constructor; assumption.
Qed.
Lemma addr_inj r ix r' ix' : 0 <= r < n0 -> in_bounds sh' ix -> 0 <= r' < n0 -> in_bounds sh' ix' -> addr r ix = addr r' ix' -> r = r' /\ ix = ix'.
Proof.
  intros H1 H2 H3 H4 E. destruct Hc as (_ & _ & _ & HL & l & _ & _ & He). unfold addr in E. rewrite !He in E by (rewrite Hs; constructor; assumption).
  apply rank_inj in E; [|rewrite Hs; constructor; assumption|rewrite Hs; constructor; assumption]. injection E as -> ->. auto.
Qed.

Lemma sub_eq r : sub_positions c r = map (addr r) (row_indices sh').
Proof. unfold sub_positions. rewrite Hs. reflexivity. Qed.

Lemma read_sub mem F r : filled mem F -> 0 <= r < n0 -> read_all mem (sub_positions c r) = Ok (map (F r) (row_indices sh')).
Proof.
  intros (_ & HF) Hr. rewrite sub_eq. unfold read_all.
  enough (Q : forall acc, for_each (fun p acc => let* x := rdz mem p in Ok (acc ++ [x])) (map (addr r) (row_indices sh')) acc = Ok (acc ++ map (F r) (row_indices sh'))) by exact (Q []).
  assert (Hin : forall ix, In ix (row_indices sh') -> in_bounds sh' ix) by (intros ix; apply row_indices_in).
  revert Hin. induction (row_indices sh') as [|ix l IH]; intros Hin acc; cbn [map for_each]; [rewrite app_nil_r; reflexivity|].
  assert (Hix : in_bounds sh' ix) by (apply Hin; left; reflexivity). pose proof (addr_in r ix Hr Hix).
  rewrite (rdz_ok mem (addr r ix) (F r ix)) by (try lia; apply HF; assumption). cbn [bind]. rewrite IH by (intros; apply Hin; right; assumption). rewrite <- app_assoc. reflexivity.
Qed.

Lemma write_sub mem F r (f : list Z -> V) : filled mem F -> 0 <= r < n0 ->
  exists mem', write_all (sub_positions c r) (map f (row_indices sh')) mem = Ok mem' /\ filled mem' (fun s ix => if s =? r then f ix else F s ix).
Proof.
  intros (HL & HF) Hr. rewrite sub_eq.
  assert (Hin : forall ix, In ix (row_indices sh') -> in_bounds sh' ix) by (intros ix; apply row_indices_in).
  destruct (write_all_ok (map (addr r) (row_indices sh')) (map f (row_indices sh')) mem) as (mem' & E & L & H1 & H2).
  - apply nodup_map_in; [|apply row_indices_nodup]. intros i j Hi Hj E. apply Hin in Hi, Hj. apply (addr_inj r i r j Hr Hi Hr Hj E).
  - rewrite !map_length. reflexivity.
  - apply Forall_forall. intros p Hp. apply in_map_iff in Hp. destruct Hp as (ix & <- & Hix). rewrite HL. apply addr_in; [exact Hr|apply Hin; exact Hix].
  - exists mem'. split; [exact E|]. split; [congruence|]. intros s ix Hs' Hix. pose proof (addr_in s ix Hs' Hix). destruct (Z.eqb_spec s r) as [->|Hne].
    + apply row_indices_in in Hix. destruct (In_nth_error _ _ Hix) as (k & Ek). rewrite (H1 k (addr r ix)) by (rewrite nth_error_map, Ek; reflexivity). rewrite nth_error_map, Ek. reflexivity.
    + rewrite H2; [apply HF; assumption|]. rewrite Z2Nat.id by lia. intros Hp. apply in_map_iff in Hp. destruct Hp as (jx & Ej & Hj). apply Hin in Hj.
      destruct (addr_inj r jx s ix Hr Hj Hs' Hix Ej). congruence.
Qed.

Lemma shuffle_rows_ok (ev : Z -> list Z -> V) : forall i (mem : list V) (sigma : list Z) g, Z.of_nat i < n0 -> Z.of_nat (length sigma) = n0 ->
  filled mem (fun r => ev (nth (Z.to_nat r) sigma 0)) ->
  exists mem', shuffle_rows uniform i c mem g = Ok (mem', snd (shuffled uniform i sigma g)) /\ filled mem' (fun r => ev (nth (Z.to_nat r) (fst (shuffled uniform i sigma g)) 0)).
Proof.
  induction i as [|i IH]; intros mem sigma g Hi HL HF; cbn [shuffle_rows shuffled].
  - exists mem. split; [reflexivity|exact HF].
  - pose proof (Hu (Z.of_nat (S i)) g ltac:(lia)) as Hj. destruct (uniform (Z.of_nat (S i)) g) as [j g']. cbn [fst] in Hj.
    rewrite (read_sub mem _ j HF) by lia. cbn [bind]. rewrite (read_sub mem _ (Z.of_nat (S i)) HF) by lia. cbn [bind].
    destruct (write_sub mem _ j (ev (nth (Z.to_nat (Z.of_nat (S i))) sigma 0)) HF ltac:(lia)) as (mem1 & E1 & F1). rewrite E1. cbn [bind].
    destruct (write_sub mem1 _ (Z.of_nat (S i)) (ev (nth (Z.to_nat j) sigma 0)) F1 ltac:(lia)) as (mem2 & E2 & F2). rewrite E2. cbn [bind].
    destruct (IH mem2 (lswap (S i) (Z.to_nat j) sigma) g') as (mem3 & E3 & F3); [lia|rewrite lswap_length; exact HL| |exists mem3; split; [exact E3|exact F3]].
    destruct F2 as (L2 & F2). split; [exact L2|]. intros r ix Hr Hix. rewrite (F2 r ix Hr Hix). f_equal.
    rewrite Nat2Z.id. assert (Nn : forall k, (k < length sigma)%nat -> nth k (lswap (S i) (Z.to_nat j) sigma) 0 = if (k =? Z.to_nat j)%nat then nth (S i) sigma 0 else if (k =? S i)%nat then nth (Z.to_nat j) sigma 0 else nth k sigma 0).
    { intros k Hk. pose proof (lswap_nth (S i) (Z.to_nat j) sigma k ltac:(lia) ltac:(lia)) as E.
      assert (Q : forall (l : list Z) m, (m < length l)%nat -> nth_error l m = Some (nth m l 0)) by (intros l m; apply nth_error_nth').
      rewrite Q in E by (rewrite lswap_length; exact Hk). destruct (Nat.eqb_spec k (Z.to_nat j)); [rewrite Q in E by lia; congruence|]. destruct (Nat.eqb_spec k (S i)); [rewrite Q in E by lia; congruence|rewrite Q in E by lia; congruence]. }
    rewrite Nn by lia. destruct (Z.eqb_spec r (Z.of_nat (S i))) as [->|Hri].
    + rewrite Nat2Z.id. destruct (Nat.eqb_spec (S i) (Z.to_nat j)) as [Ee|]; [rewrite <- Ee; reflexivity|]. rewrite Nat.eqb_refl. reflexivity.
    + destruct (Z.eqb_spec r j) as [->|Hrj]; [rewrite Nat.eqb_refl; reflexivity|]. destruct (Nat.eqb_spec (Z.to_nat r) (Z.to_nat j)); [lia|]. destruct (Nat.eqb_spec (Z.to_nat r) (S i)); [lia|reflexivity].
Qed.

Lemma shuffle_lemma (ev : list Z -> V) g : 1 <= n0 < 2 ^ 64 -> (forall jx, in_bounds (ct_shape c) jx -> elt c jx = Ok (ev jx)) ->
  exists c' sigma g', shuffle uniform c g = Ok (c', g') /\ consistent c' /\ ct_shape c' = ct_shape c /\
    shuffle1 uniform (upto (Z.to_nat n0)) (upto (Z.to_nat n0)) g = Ok (sigma, g') /\
    Permutation sigma (upto (Z.to_nat n0)) /\
    forall i s ix, nth_error sigma (Z.to_nat i) = Some s -> 0 <= i -> in_bounds sh' ix -> elt c' (i :: ix) = Ok (ev (s :: ix)).
Proof.
  intros Hn He. set (n := Z.to_nat n0). set (sg := shuffled uniform (n - 1) (upto n) g).
  assert (S1 : shuffle1 uniform (upto n) (upto n) g = Ok (fst sg, snd sg)).
  { destruct (shuffle1_ok uniform Hu (upto n) (upto n) (upto n) g (upto_nodup n)) as (m & E & Sh & L & _); [|rewrite upto_length; lia|rewrite upto_length; lia|].
    - pose proof (shows_self (upto n)) as Q. rewrite upto_length in Q. exact Q.
    - rewrite upto_length in E, Sh. fold sg in E, Sh. rewrite E. f_equal. f_equal. apply (shows_upto n); [rewrite L; apply upto_length|exact Sh]. }
  assert (P : Permutation (fst sg) (upto n)) by apply shuffled_perm.
  assert (Lsg : length (fst sg) = n) by (rewrite (Permutation_length P); apply upto_length).
  assert (F0 : filled (ct_data c) (fun r => (fun s ix => ev (s :: ix)) (nth (Z.to_nat r) (upto n) 0))).
  { split; [reflexivity|]. intros r ix Hr Hix. rewrite (nth_error_nth (upto n) (Z.to_nat r) 0 (upto_nth n (Z.to_nat r) ltac:(lia))). rewrite Z2Nat.id by lia.
    pose proof (He (r :: ix)) as E. rewrite Hs in E. specialize (E ltac:(constructor; assumption)). unfold elt in E. fold (addr r ix) in E. pose proof (addr_in r ix Hr Hix). unfold rdz in E. destruct (Z.ltb_spec (addr r ix) 0); [lia|]. unfold rd in E. destruct (nth_error (ct_data c) (Z.to_nat (addr r ix))); [congruence|discriminate]. }
  assert (M : exists mem, (if (length (ct_shape c) =? 1)%nat then let* n := rd (ct_shape c) 0 in shuffle1 uniform (map Z.of_nat (seq 0 (Z.to_nat n))) (ct_data c) g
      else let* n := rd (ct_shape c) 0 in shuffle_rows uniform (Z.to_nat (to_size_t (n - 1))) c (ct_data c) g) = Ok (mem, snd sg) /\ filled mem (fun r ix => ev (nth (Z.to_nat r) (fst sg) 0 :: ix))).
  { destruct (Nat.eqb_spec (length (ct_shape c)) 1) as [E1|E1].
    - rewrite Hs in E1 |- *. cbn [rd nth_error bind]. assert (Hsh : sh' = []) by (destruct sh'; [reflexivity|cbn in E1; lia]).
      fold (upto n). assert (Ld : length (ct_data c) = n). { destruct Hc as (_ & _ & _ & HL & _). rewrite Hs, Hsh, prod_cons in HL. unfold prod in HL. cbn [fold_right] in HL. unfold n. lia. }
      assert (Ad : forall r, 0 <= r < n0 -> addr r [] = r).
      { intros r Hr. unfold addr. destruct Hc as (_ & _ & _ & _ & l & _ & _ & Hel). rewrite Hel by (rewrite Hs, Hsh; constructor; [exact Hr|constructor]). rewrite Hs, Hsh. destruct l; unfold rank, row_pos, col_pos, prod; cbn -[Z.mul Z.add]; lia. }
      destruct (shuffle1_ok uniform Hu (upto n) (ct_data c) (ct_data c) g (upto_nodup n)) as (m & E & Sh & L & _); [rewrite <- Ld; apply shows_self|lia|lia|].
      rewrite Ld in E, Sh. assert (Em : m = fst (shuffled uniform (n - 1) (ct_data c) g)) by (apply (shows_upto n); [lia|exact Sh]).
      assert (Ed : ct_data c = map (fun s => ev [s]) (upto n)).
      { apply nth_error_ext_len; [rewrite map_length, upto_length; exact Ld|]. intros k Hk. rewrite nth_error_map, upto_nth by lia. cbn.
        destruct F0 as (_ & F0). specialize (F0 (Z.of_nat k) [] ltac:(lia) ltac:(rewrite Hsh; constructor)). rewrite Ad in F0 by lia. rewrite Nat2Z.id in F0. rewrite (nth_error_nth (upto n) k 0 (upto_nth n k ltac:(lia))) in F0. exact F0. }
      exists m. rewrite Ed in E at 2. rewrite shuffled_map in E. fold sg in E. split; [exact E|]. split; [exact L|]. intros r ix Hr Hix. rewrite Hsh in Hix. inversion Hix; subst ix. rewrite Ad by exact Hr.
      rewrite Em, Ed, shuffled_map. fold sg. cbn [fst]. rewrite nth_error_map. rewrite (nth_error_nth' (fst sg) 0) by lia. reflexivity.
    - rewrite Hs. cbn [rd nth_error bind]. replace (Z.to_nat (to_size_t (n0 - 1))) with (n - 1)%nat by (unfold to_size_t; rewrite Z.mod_small by lia; lia).
      destruct (shuffle_rows_ok (fun s ix => ev (s :: ix)) (n - 1) (ct_data c) (upto n) g ltac:(lia) ltac:(rewrite upto_length; lia) F0) as (mem & E & F). exists mem. split; [exact E|exact F]. }
  destruct M as (mem & E & (Lm & HF)). unfold shuffle. rewrite E. cbn [bind].
  exists (mk_cont (ct_shape c) (ct_strides c) (ct_back c) (ct_layout c) mem), (fst sg), (snd sg). split; [reflexivity|]. split.
  { destruct Hc as (C1 & C2 & C3 & C4 & C5). unfold consistent. cbn [ct_shape ct_strides ct_back ct_data ct_layout]. split; [exact C1|]. split; [exact C2|]. split; [exact C3|]. split; [rewrite Lm; exact C4|exact C5]. }
  split; [reflexivity|]. split; [exact S1|]. split; [exact P|].
  intros i s ix Ei Hi Hix. assert (Hin : (Z.to_nat i < length (fst sg))%nat) by (apply nth_error_Some; congruence). assert (Hr : 0 <= i < n0) by lia.
  unfold elt. cbn [ct_data ct_strides]. pose proof (addr_in i ix Hr Hix) as A. apply rdz_ok; [unfold addr in A; lia|]. pose proof (HF i ix Hr Hix) as Q. cbv beta in Q. unfold addr in Q. rewrite Q.
  rewrite (nth_error_nth _ _ 0 Ei). reflexivity.
Qed.
End Rows.

(** permutation(n) *)
Lemma arange_upto n : arange_assign 0 1 (Z.of_nat n) = upto n.
Proof.
  unfold arange_assign, upto. rewrite Nat2Z.id. change 0 with (Z.of_nat 0) at 1. generalize 0%nat as k. induction n as [|n IH]; intros k; cbn [arange_fill_add seq map]; [reflexivity|].
  f_equal. replace (Z.of_nat k + 1) with (Z.of_nat (S k)) by lia. apply IH.
Qed.

Lemma permutation_int_lemma {G} (uniform : Z -> G -> Z * G) e g : in_range uniform -> 1 <= e < 2 ^ 63 ->
  exists l g', permutation_int uniform e g = Ok (l, g') /\ Permutation l (upto (Z.to_nat e)).
Proof.
  intros Hu He. unfold permutation_int, arange_shape_signed, cdiv. cbn [Z.eqb bind]. rewrite Z.quot_1_r.
  replace (e - 0 <=? 0) with false by (symmetry; apply Z.leb_gt; lia). replace (0 <? e) with true by (symmetry; apply Z.ltb_lt; lia). cbn [bind].
  rewrite Z.quot_1_r. replace (e - 0 + 1 - 1) with e by lia. set (n := Z.to_nat e). replace e with (Z.of_nat n) by (unfold n; lia). rewrite arange_upto. fold (upto n).
  destruct (shuffle1_lemma uniform Hu (upto n) (upto n) (upto n) g (upto_nodup n)) as (m & l & g' & E & Sh & P & L & _); [|rewrite upto_length; lia|rewrite upto_length; lia|].
  - pose proof (shows_self (upto n)) as Q. rewrite upto_length in Q. exact Q.
  - exists m, g'. split; [exact E|]. rewrite (shows_upto n m l) by (rewrite ?L; try apply upto_length; exact Sh). exact P.
Qed.

Lemma permutation_int_empty {G} (uniform : Z -> G -> Z * G) e g : e <= 0 -> permutation_int uniform e g = UB.
Proof.
  intros He. unfold permutation_int, arange_shape_signed, cdiv. cbn [Z.eqb bind]. rewrite Z.quot_1_r.
  replace (e - 0 <=? 0) with true by (symmetry; apply Z.leb_le; lia). cbn [bind]. apply shuffle_empty_lemma.
Qed.
