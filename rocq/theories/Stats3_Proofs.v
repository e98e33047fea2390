(** Weighted averages. *)
From Coq Require Import List ZArith Lia Bool QArith Qcanon Sorted.
From Verif Require Import Prelude PreludeFacts Strides_Model Strides_Spec Strides_Proofs Access_Model Broadcast_Model Broadcast_Spec Broadcast_Proofs Container_Spec
  SView_Model SView_Spec SView_Proofs Stepper_Model Stepper_Spec Stepper_Proofs Stepper4_Proofs Reshape_Model Reshape_Spec Reshape_Proofs Semantic3_Proofs
  Reduce_Model Reduce_Spec Reduce_Proofs Reduce3_Proofs Reduce4_Proofs Reduce5_Proofs Reduce7_Proofs Reduce8_Proofs Reduce9_Proofs Reduce13_Proofs Reduce14_Proofs
  Block2_Proofs Stats_Model Stats_Spec Stats_Proofs Stats2_Proofs.
Import ListNotations.
Open Scope Z_scope.

Lemma two_shapes a b : real_shape a -> real_shape b -> fits b a -> exists t, expr_shape (EFun [ELeaf a; ELeaf b]) = Ok (a, t).
Proof.
  intros Ha Hb [Hl Hk]. set (x := EFun [ELeaf a; ELeaf b]).
  assert (Hr : real_expr x) by (repeat constructor; assumption).
  assert (Hc : compatible (leaves x)).
  { intros s t k Hs Ht. cbn in Hs, Ht. specialize (Hk k). destruct Hs as [<-|[<-|[]]], Ht as [<-|[<-|[]]]; intuition. }
  destruct (proj1 (broadcast_expr_lemma x Hr) Hc) as (out & t & E & B). exists t. rewrite E. do 2 f_equal.
  apply (broadcast_of_unique (leaves x) (leaves x) out a); [tauto|exact B|].
  split; [|split].
  - intros s [<-|[<-|[]]]; [lia|exact Hl].
  - right. exists a. split; [left; reflexivity|reflexivity].
  - intros k. split; [|right; exists a; split; [left; reflexivity|reflexivity]]. intros s [<-|[<-|[]]]; [right; reflexivity|apply Hk].
Qed.

Lemma red_real keep axes : forall sh k, is_shape sh -> Forall (fun n => n < 2 ^ 64 - 1) sh -> real_shape (rsh keep axes k sh).
Proof.
  induction sh as [|d sh IH]; intros k H1 H2; [rewrite rsh_nil; constructor|]. inversion H1; inversion H2; subst. rewrite rsh_cons. specialize (IH (k + 1) ltac:(assumption) ltac:(assumption)).
  destruct (in_dec _ _ _), keep; auto; constructor; auto; lia.
Qed.

Lemma weighted_quotient {A} (l : list A) (f w : A -> Qc) :
  quotient (total (map (fun x => f x * w x)%Qc l)) (total (map w l)) = weighted_mean (map (fun x => (f x, w x)) l).
Proof. unfold weighted_mean. rewrite !map_map. reflexivity. Qed.

Lemma average_all_lemma esh e ev w wv keep : addressable esh -> finite esh e ev -> finite esh w wv ->
  reduces (average_all esh e esh w keep) keep (all_axes (length esh)) esh (fun b => weighted_mean (map (fun jx => (ev jx, wv jx)) b)).
Proof.
  intros (Hd & Hs & Hp & Hx) He Hw. unfold average_all. destruct (list_eq_dec _ _ _) as [_|]; [|congruence].
  pose proof (all_axes_valid (length esh)) as Hv. pose proof (names_self _ _ (proj2 Hv)) as Hn.
  destruct (sum_axes_lemma esh w wv _ _ false Hd Hs Hw Hn Hv) as (d & -> & _ & H1 & _). cbn [bind].
  assert (H0 : in_bounds (red_shape false (all_axes (length esh)) esh) []) by (rewrite all_shape; constructor). rewrite (H1 _ H0). cbn [bind]. rewrite (all_block _ _ _ H0).
  assert (He' : finite esh (XFun f_times [e; w]) (fun jx => ev jx * wv jx)%Qc).
  { destruct He as [Ho Hy], Hw as [Ho' Hy']. split; [unfold operands_ok in *; cbn [all_leaves fold_right]; tauto|].
    intros jx Hj. cbn [x_value map seqM bind]. rewrite (Hy jx Hj), (Hy' jx Hj). reflexivity. }
  destruct (sum_axes_lemma esh _ _ _ _ keep Hd Hs He' Hn Hv) as (s & -> & Es & H2 & _). cbn [bind].
  eexists. split; [reflexivity|]. cbn [q_shape q_at]. split; [exact Es|]. intros ix Hi. rewrite (H2 ix Hi), (all_block _ _ _ Hi). cbn [bind].
  rewrite ndiv_quotient. f_equal. apply weighted_quotient.
Qed.

Lemma average_reject_lemma esh e wsh w keep : wsh <> esh -> average_all esh e wsh w keep = Throw runtime_error.
Proof. intros H. unfold average_all. destruct (list_eq_dec _ _ _); [contradiction|reflexivity]. Qed.

(** ** Weights of the same shape *)
Lemma average_same_lemma esh e ev L w axes pos : addressable esh -> finite esh e ev -> is_order L -> names (length esh) axes pos -> valid_axes (length esh) pos ->
  length esh <> 1%nat ->
  reduces (average_axes esh e L esh (fun jx => Some (w jx)) axes false) false pos esh (fun b => weighted_mean (map (fun jx => (ev jx, w jx)) b)).
Proof.
  intros (Hd & Hs & Hp & Hx) He HL Hn Hv H1. unfold average_axes. rewrite (normalized _ _ _ Hd Hn). unfold weights_shape.
  destruct (Nat.eqb_spec (length esh) 1); [contradiction|]. destruct (list_eq_dec _ _ _) as [_|]; [|congruence]. cbn [bind].
  destruct (operand_lemma L None esh esh (fun ix => @Ok num (Some (w ix))) (fun ix => Some (w ix)) HL Hs Hs) as (v & c & b & -> & E2 & Ec & Hc & Hr); try reflexivity.
  { eapply Forall_impl; [|exact Hx]. cbn. lia. }
  cbn [bind]. rewrite E2. cbn [bind]. pose proof (names_self _ _ (proj2 Hv)) as Hn'.
  assert (Hw : finite esh (XStrided c b) w).
  { split; [split; [rewrite Ec; apply fits_self|exact Hc]|]. intros jx Hj. cbn [x_value]. rewrite Ec, bc_index_self by exact Hj. apply Hr; auto. }
  destruct (sum_axes_lemma esh _ _ pos pos false Hd Hs Hw Hn' Hv) as (d & -> & Ed & Hsc & _). cbn [bind].
  assert (He' : finite esh (XFun f_times [e; XStrided c b]) (fun jx => ev jx * w jx)%Qc).
  { destruct He as [Ho Hy], Hw as [Ho' Hy']. split; [unfold operands_ok in *; cbn [all_leaves fold_right] in *; tauto|].
    intros jx Hj. specialize (Hy' jx Hj). cbn [x_value map seqM bind] in *. rewrite (Hy jx Hj), Hy'. reflexivity. }
  destruct (sum_axes_lemma esh _ _ pos pos false Hd Hs He' Hn' Hv) as (s & -> & Es & H2 & _). cbn [bind].
  rewrite Es, Ed. destruct (two_shapes (red_shape false pos esh) (red_shape false pos esh)) as (t & ->).
  { apply (red_real false pos esh 0); assumption. }
  { apply (red_real false pos esh 0); assumption. }
  { apply fits_self. }
  cbn [bind]. eexists. split; [reflexivity|]. cbn [q_shape q_at]. split; [reflexivity|]. intros ix Hi. rewrite bc_index_self by exact Hi. rewrite (H2 ix Hi), (Hsc ix Hi). cbn [bind].
  rewrite ndiv_quotient. f_equal. apply weighted_quotient.
Qed.

(** ** Weights along one axis *)
Fixpoint only (p k v : Z) (l : list Z) : list Z :=
  match l with [] => [] | x :: l' => (if k =? p then x else v) :: only p (k + 1) v l' end.

Lemma only_length p v : forall l k, length (only p k v l) = length l.
Proof. induction l; intros; cbn; [reflexivity|]. f_equal. auto. Qed.
Lemma only_after p v : forall l k, p < k -> only p k v l = repeat v (length l).
Proof. induction l as [|x l IH]; intros k H; cbn; [reflexivity|]. destruct (Z.eqb_spec k p); [lia|]. f_equal. apply IH. lia. Qed.
Lemma only_shape p n : forall sh k, k <= p < k + Z.of_nat (length sh) -> nth (Z.to_nat (p - k)) sh 0 = n ->
  replaced [p] n k (repeat 1 (length sh)) = only p k 1 sh.
Proof.
  induction sh as [|d sh IH]; intros k Hk Hn; cbn [length] in Hk; [lia|]. cbn [length repeat replaced only].
  destruct (in_dec _ _ _) as [Hi|Hi].
  - destruct Hi as [ -> |[]]. rewrite Z.eqb_refl. rewrite Z.sub_diag in Hn. change (d = n) in Hn. subst d. f_equal.
    rewrite only_after by lia. apply replaced_none. intros j _ [E|[]]. lia.
  - assert (Hne : p <> k) by (intros ->; apply Hi; left; reflexivity). destruct (Z.eqb_spec k p); [lia|]. f_equal. apply IH; [lia|].
    replace (Z.to_nat (p - k)) with (S (Z.to_nat (p - (k + 1)))) in Hn by lia. exact Hn.
Qed.
Lemma only_is_shape p : forall sh k, is_shape sh -> is_shape (only p k 1 sh).
Proof. induction sh as [|d sh IH]; intros k H; [constructor|]. inversion H; subst. cbn. constructor; [destruct (k =? p); lia|apply IH; assumption]. Qed.
Lemma only_bound p b : 1 < b -> forall sh k, Forall (fun n => n < b) sh -> Forall (fun n => n < b) (only p k 1 sh).
Proof. intros Hb. induction sh as [|d sh IH]; intros k H; [constructor|]. inversion H; subst. cbn. constructor; [destruct (k =? p); lia|apply IH; assumption]. Qed.
Lemma only_prod p : forall sh k, k <= p < k + Z.of_nat (length sh) -> prod (only p k 1 sh) = nth (Z.to_nat (p - k)) sh 0.
Proof.
  induction sh as [|d sh IH]; intros k Hk; cbn [length] in Hk; [lia|]. cbn [only]. rewrite prod_cons. destruct (Z.eqb_spec k p) as [ -> |].
  - rewrite Z.sub_diag, only_after, ones_prod by lia. change (nth (Z.to_nat 0) (d :: sh) 0) with d. lia.
  - rewrite IH by lia. replace (Z.to_nat (p - k)) with (S (Z.to_nat (p - (k + 1)))) by lia. cbn [nth]. lia.
Qed.
Lemma zeros_pos l m : row_pos l (repeat 0 m) = 0 /\ col_pos l (repeat 0 m) = 0.
Proof. revert l. induction m as [|m IH]; intros [|d l]; cbn [repeat row_pos col_pos]; auto. destruct (IH l) as [ -> -> ]. lia. Qed.
Lemma only_rank L p : is_order L -> forall sh ix k, length ix = length sh -> k <= p < k + Z.of_nat (length sh) ->
  rank L (only p k 1 sh) (only p k 0 ix) = nth (Z.to_nat (p - k)) ix 0.
Proof.
  intros HL. induction sh as [|d sh IH]; intros [|i ix] k Hl Hk; try discriminate; cbn [length] in *; [lia|]. cbn [only]. destruct (Z.eqb_spec k p) as [ -> |].
  - rewrite Z.sub_diag, !only_after by lia. change (nth (Z.to_nat 0) (i :: ix) 0) with i. destruct (zeros_pos (repeat 1 (length sh)) (length ix)) as [Z1 Z2].
    destruct HL as [ -> | -> ]; cbn [rank row_pos col_pos]; rewrite ?Z1, ?Z2, ?ones_prod; lia.
  - specialize (IH ix (k + 1) ltac:(lia) ltac:(lia)). replace (Z.to_nat (p - k)) with (S (Z.to_nat (p - (k + 1)))) by lia. cbn [nth]. rewrite <- IH.
    destruct HL as [ -> | -> ]; cbn [rank row_pos col_pos]; lia.
Qed.
Lemma only_in p : forall sh ix k, in_bounds sh ix -> in_bounds (only p k 1 sh) (only p k 0 ix).
Proof. intros sh ix k H. revert k. induction H as [|d i sh ix Hi H IH]; intros k; [constructor|]. cbn [only]. constructor; [destruct (k =? p); lia|apply IH]. Qed.
Lemma only_bc p sh ix : in_bounds sh ix -> bc_index (only p 0 1 sh) ix = only p 0 0 ix.
Proof.
  intros H. unfold bc_index. rewrite only_length, (in_bounds_length _ _ H), Nat.sub_diag. cbn [skipn]. generalize 0 at 1 2.
  induction H as [|d i sh ix Hi H IH]; intros k; [reflexivity|]. cbn [only zero_unit]. rewrite IH. f_equal. destruct (Z.eqb_spec k p); [destruct (Z.eqb_spec d 1); lia|reflexivity].
Qed.
Lemma only_fits p sh : fits (only p 0 1 sh) sh.
Proof. apply wider_fits. generalize 0. induction sh as [|d sh IH]; intros k; [constructor|]. cbn [only]. constructor; [unfold wider; destruct (k =? p); auto|apply IH]. Qed.
Lemma only_id p sh ix : in_bounds (only p 0 1 sh) ix -> only p 0 0 ix = ix.
Proof.
  generalize 0 at 1 2. revert ix. induction sh as [|d sh IH]; intros ix k H; cbn [only] in H; inversion H; subst; [reflexivity|]. cbn [only]. f_equal; [|apply IH; assumption].
  destruct (k =? p); [reflexivity|lia].
Qed.

Lemma only_nth p v : forall l k, k <= p < k + Z.of_nat (length l) -> nth (Z.to_nat (p - k)) (only p k v l) 0 = nth (Z.to_nat (p - k)) l 0.
Proof.
  induction l as [|d l IH]; intros k Hk; cbn [length] in Hk; [lia|]. cbn [only]. destruct (Z.eqb_spec k p) as [ -> |]; [rewrite Z.sub_diag; reflexivity|].
  replace (Z.to_nat (p - k)) with (S (Z.to_nat (p - (k + 1)))) by lia. cbn [nth]. apply IH. lia.
Qed.

(** The elements of a block along one axis *)
Lemma nest_none axes : forall sh jx k, (forall a, In a axes -> a < k) -> length jx = length sh -> nest axes k sh jx = [jx].
Proof.
  induction sh as [|d sh IH]; intros [|j jx] k H L; try discriminate; [reflexivity|]. cbn [nest]. destruct (in_dec _ _ _) as [Hi|_]; [apply H in Hi; lia|].
  rewrite IH; [reflexivity| |cbn in L; lia]. intros a Ha. apply H in Ha. lia.
Qed.
Lemma flat_map_single {A B} (f : A -> B) l : flat_map (fun x => [f x]) l = map f l.
Proof. induction l as [|a l IH]; cbn; [reflexivity|]. rewrite IH. reflexivity. Qed.
Lemma nest_one p : forall sh jx k, length jx = length sh -> k <= p < k + Z.of_nat (length sh) ->
  map (fun x => nth (Z.to_nat (p - k)) x 0) (nest [p] k sh jx) = map Z.of_nat (seq 0 (Z.to_nat (nth (Z.to_nat (p - k)) sh 0))).
Proof.
  induction sh as [|d sh IH]; intros [|j jx] k L Hk; try discriminate; cbn [length] in *; [lia|]. cbn [nest].
  destruct (in_dec _ _ _) as [Hi|Hi].
  - destruct Hi as [ -> |[]]. rewrite Z.sub_diag. rewrite nest_none; [|intros a [ <- |[]]; lia|lia]. cbn [map].
    rewrite flat_map_single, map_map. apply map_ext. reflexivity.
  - assert (Hne : p <> k) by (intros ->; apply Hi; left; reflexivity). specialize (IH jx (k + 1) ltac:(lia) ltac:(lia)).
    replace (Z.to_nat (p - k)) with (S (Z.to_nat (p - (k + 1)))) by lia. cbn [nth]. rewrite map_map. exact IH.
Qed.
Lemma block_one keep p sh ix : 0 <= p < Z.of_nat (length sh) -> in_bounds (red_shape keep [p] sh) ix ->
  map (fun jx => nth (Z.to_nat p) jx 0) (block row_major keep [p] sh ix) = map Z.of_nat (seq 0 (Z.to_nat (nth (Z.to_nat p) sh 0))).
Proof.
  intros Hp Hb. pose proof (fun jx L => nest_one p sh jx 0 L ltac:(lia)) as G. rewrite Z.sub_0_r in G.
  unfold block, indices_of. destruct keep; cbn [red_shape red_index] in *.
  - change (map (fun jx => nth (Z.to_nat p) jx 0) (filter (fun jx => eqb_idx (replaced [p] 0 0 jx) ix) (row_indices sh)) = map Z.of_nat (seq 0 (Z.to_nat (nth (Z.to_nat p) sh 0)))).
    rewrite block_replaced by exact Hb. apply G. rewrite (in_bounds_length _ _ Hb). apply replaced_length.
  - change (map (fun jx => nth (Z.to_nat p) jx 0) (filter (fun jx => eqb_idx (without [p] 0 jx) ix) (row_indices sh)) = map Z.of_nat (seq 0 (Z.to_nat (nth (Z.to_nat p) sh 0)))).
    rewrite (block_without [p] sh 0 ix (repeat 0 (length sh)) Hb) by apply repeat_length. apply G.
    rewrite fillw_length; [apply repeat_length|]. rewrite (in_bounds_length _ _ Hb), without_length, repeat_length. reflexivity.
Qed.

Lemma without_ones p : forall sh k, k <= p < k + Z.of_nat (length sh) -> without [p] k (only p k 1 sh) = repeat 1 (length sh - 1).
Proof.
  induction sh as [|d sh IH]; intros k Hk; cbn [length] in Hk; [lia|]. cbn [only without].
  destruct (in_dec _ _ _) as [Hi|Hi].
  - destruct Hi as [ -> |[]]. rewrite only_after by lia. cbn [length]. rewrite Nat.sub_succ, Nat.sub_0_r.
    generalize (length sh). clear. intros n. assert (H : k < k + 1) by lia. revert H. generalize (k + 1). induction n as [|n IH]; intros m H; [reflexivity|]. cbn [repeat without].
    destruct (in_dec _ _ _) as [[E|[]]|]; [lia|]. f_equal. apply IH. lia.
  - assert (Hne : p <> k) by (intros ->; apply Hi; left; reflexivity). rewrite IH by lia. destruct (Z.eqb_spec k p); [lia|].
    cbn [length]. replace (S (length sh) - 1)%nat with (S (length sh - 1)) by lia. reflexivity.
Qed.
Lemma ones_in n m : (length m = n)%nat -> in_bounds (repeat 1 n) (zero_unit (repeat 1 n) m).
Proof. revert m. induction n as [|n IH]; intros [|x m] H; try discriminate; [constructor|]. cbn. constructor; [lia|apply IH; cbn in H; lia]. Qed.
Lemma axis_repeat n k : axis (repeat 1 n) k = 1.
Proof.
  unfold axis. rewrite Broadcast_Proofs.rev_repeat. destruct (Nat.lt_ge_cases k n) as [H|H]; [|apply nth_overflow; rewrite repeat_length; exact H].
  apply (repeat_spec n). apply nth_In. rewrite repeat_length. exact H.
Qed.
Lemma ones_fits n sh : (n <= length sh)%nat -> fits (repeat 1 n) sh.
Proof. intros H. split; [rewrite repeat_length; exact H|]. intros k. left. apply axis_repeat. Qed.

Lemma average_axis_lemma esh e ev L w a p keep : addressable esh -> finite esh e ev -> is_order L -> names (length esh) [a] [p] ->
  reduces (average_axes esh e L [nth (Z.to_nat p) esh 0] (fun jx => Some (w (hd 0 jx))) [a] keep) keep [p] esh
    (fun b => weighted_mean (map (fun jx => (ev jx, w (nth (Z.to_nat p) jx 0))) b)).
Proof.
  intros (Hd & Hs & Hpr & Hx) He HL Hn. pose proof (normalized _ _ _ Hd Hn) as En. unfold average_axes. rewrite En.
  inversion Hn as [|? ? ? ? [Hp _] _]; subst. clear Hn. set (n := nth (Z.to_nat p) esh 0).
  assert (Hv : valid_axes (length esh) [p]) by (split; repeat constructor; lia).
  unfold weights_shape. cbn [length Nat.eqb]. cbn [rd nth_error bind].
  assert (En' : rdz esh p = Ok n) by (apply rdz_ok; [lia|apply nth_error_nth'; lia]). cbn [rd bind]. rewrite En'. cbn [bind].
  assert (Es1 : compute_size [n] = n) by (rewrite compute_size_prod, prod_cons, prod_nil; lia). rewrite Es1, Z.eqb_refl. cbn [negb].
  rewrite <- (Z.sub_0_r p) at 1. rewrite wrz_replaced by (rewrite repeat_length; lia). rewrite (only_shape p n) by (rewrite ?Z.sub_0_r; auto; lia). cbn [bind].
  assert (Hn0 : 0 <= n). { unfold n. unfold is_shape in Hs. rewrite Forall_forall in Hs. apply Hs. apply nth_In. lia. }
  set (bs := only p 0 1 esh).
  assert (Hbs : is_shape bs) by (apply only_is_shape; exact Hs).
  assert (Lbs : length bs = length esh) by apply only_length.
  assert (Enb : nth (Z.to_nat p) bs 0 = n) by (pose proof (only_nth p 1 esh 0 ltac:(lia)) as G; rewrite Z.sub_0_r in G; exact G).
  destruct (operand_lemma L None [n] bs (fun ix => @Ok num (Some (w (hd 0 ix)))) (fun ix => Some (w (hd 0 ix))) HL) as (v & c & b & -> & E2 & Ec & Hc & Hr); try reflexivity.
  { constructor; [exact Hn0|constructor]. }
  { exact Hbs. }
  { apply only_bound; [lia|]. eapply Forall_impl; [|exact Hx]. cbn. lia. }
  { unfold bs. rewrite only_prod by lia. rewrite Z.sub_0_r, prod_cons, prod_nil. fold n. lia. }
  cbn [bind]. rewrite E2. cbn [bind].
  assert (Hread : forall jx, in_bounds esh jx -> rdz b (k_begin c + dot (only p 0 0 jx) (k_strides c)) = Ok (Some (w (nth (Z.to_nat p) jx 0)))).
  { intros jx Hj. assert (Hb : in_bounds [n] [nth (Z.to_nat p) jx 0]).
    { constructor; [|constructor]. apply (in_bounds_nth' _ _ _ Hj). lia. }
    rewrite (Hr (only p 0 0 jx) [nth (Z.to_nat p) jx 0]); [reflexivity|apply only_in; exact Hj|exact Hb|].
    unfold bs. rewrite only_rank by (auto; try lia; apply in_bounds_length; exact Hj). rewrite Z.sub_0_r.
    destruct HL as [ -> | -> ]; cbn [rank row_pos col_pos]; rewrite ?prod_nil; lia. }
  assert (Hw : finite bs (XStrided c b) (fun jx => w (nth (Z.to_nat p) jx 0))).
  { split; [split; [rewrite Ec; apply fits_self|exact Hc]|]. intros jx Hj. cbn [x_value]. rewrite Ec, bc_index_self by exact Hj.
    assert (Hb : in_bounds [n] [nth (Z.to_nat p) jx 0]).
    { constructor; [|constructor]. pose proof (in_bounds_nth' _ _ (Z.to_nat p) Hj ltac:(lia)) as Hq. rewrite Enb in Hq. exact Hq. }
    rewrite (Hr jx [nth (Z.to_nat p) jx 0]); [reflexivity|exact Hj|exact Hb|].
    rewrite <- (only_id p esh jx Hj) at 1. unfold bs. rewrite only_rank by (auto; try lia; rewrite <- Lbs; apply in_bounds_length; exact Hj). rewrite Z.sub_0_r.
    destruct HL as [ -> | -> ]; cbn [rank row_pos col_pos]; rewrite ?prod_nil; lia. }
  assert (Hvb : valid_axes (length bs) [p]) by (rewrite Lbs; exact Hv).
  destruct (sum_axes_lemma bs _ _ [p] [p] false ltac:(rewrite Lbs; exact Hd) Hbs Hw (names_self _ _ (proj2 Hvb)) Hvb) as (d & -> & Ed & Hsc & _). cbn [bind].
  assert (He' : finite esh (XFun f_times [e; XStrided c b]) (fun jx => ev jx * w (nth (Z.to_nat p) jx 0%Z))%Qc).
  { destruct He as [Ho Hy]. split.
    - unfold operands_ok in *. cbn [all_leaves fold_right] in *. split; [exact Ho|]. split; [|exact I]. rewrite Ec. split; [apply only_fits|exact Hc].
    - intros jx Hj. cbn [x_value map seqM bind]. rewrite (Hy jx Hj). cbn [bind]. rewrite Ec. unfold bs. rewrite only_bc by exact Hj. rewrite (Hread jx Hj). reflexivity. }
  destruct (sum_axes_lemma esh _ _ [p] [p] keep Hd Hs He' (names_self _ _ (proj2 Hv)) Hv) as (s & -> & Es & H2 & _). cbn [bind].
  assert (Esh : red_shape false [p] bs = repeat 1 (length esh - 1)) by (apply without_ones; lia).
  assert (Lr : (length esh - 1 <= length (red_shape keep [p] esh))%nat).
  { destruct keep; cbn [red_shape]; [rewrite replaced_length; lia|]. rewrite without_length, <- Lbs, <- without_length. cbn [red_shape] in Esh. rewrite Esh, repeat_length. lia. }
  rewrite Es, Ed, Esh. destruct (two_shapes (red_shape keep [p] esh) (repeat 1 (length esh - 1))) as (t & ->).
  { apply (red_real keep [p] esh 0); assumption. }
  { unfold real_shape. apply Forall_forall. intros x Hxx. apply repeat_spec in Hxx. lia. }
  { apply ones_fits. exact Lr. }
  cbn [bind]. eexists. split; [reflexivity|]. cbn [q_shape q_at]. split; [reflexivity|]. intros ix Hi. rewrite (H2 ix Hi). cbn [bind].
  rewrite Hsc.
  - cbn [bind]. rewrite ndiv_quotient. f_equal. rewrite <- weighted_quotient. f_equal.
    rewrite <- !(map_map (fun jx => nth (Z.to_nat p) jx 0) w).
    rewrite (block_one keep p esh ix Hp Hi). rewrite (block_one false p bs); [rewrite Enb; reflexivity|lia|].
    rewrite Esh. unfold bc_index. rewrite repeat_length. apply ones_in. rewrite skipn_length, (in_bounds_length _ _ Hi). lia.
  - rewrite Esh. unfold bc_index. rewrite repeat_length. apply ones_in. rewrite skipn_length, (in_bounds_length _ _ Hi). lia.
Qed.
