(** Proofs about transpositions. *)
From Coq Require Import List ZArith Bool Lia Permutation.
From Verif Require Import Prelude PreludeFacts Strides_Model Strides_Spec Strides_Proofs Slice_Model
  Container_Spec SView_Model SView_Spec SView_Proofs Manip_Model Manip_Spec.
Import ListNotations.
Open Scope Z_scope.

(** ** views given by shape and strides *)
Lemma rearranges_intro T e sh st off l (f : list Z -> list Z) v :
  wf_exp e -> T = row_major \/ T = column_major -> length st = length sh ->
  make_view T e sh st off l = Ok v ->
  (forall jx, in_bounds (x_shape e) jx -> in_bounds sh (f jx) /\ off + dot (f jx) st = get_offset e + dot jx (src_strides T e)) ->
  (forall ix, in_bounds sh ix -> exists jx, in_bounds (x_shape e) jx /\ ix = f jx) ->
  rearranges e v sh f.
Proof.
  intros He HT Hl Hv H1 H2. split; [|split; [|exact H2]].
  - rewrite make_view_ok in Hv by auto. injection Hv as <-. reflexivity.
  - intros jx Hj. destruct (H1 jx Hj) as (A & B). split; [exact A|]. eapply view_reads; eauto.
Qed.

Lemma make_view_parts T e sh st off l v : length st = length sh -> make_view T e sh st off l = Ok v ->
  w_shape v = sh /\ w_strides v = adapted sh st /\ w_offset v = off /\ w_layout v = l /\ w_base v = e.
Proof. intros Hl H. rewrite make_view_ok in H by auto. injection H as <-. repeat split. Qed.

Lemma view_layout_intro T e sh st off l v : length st = length sh -> make_view T e sh st off l = Ok v ->
  (is_order l -> forall ix, in_bounds sh ix -> dot ix st = rank l sh ix) -> view_layout_true v.
Proof.
  intros Hl H HR. destruct (make_view_parts _ _ _ _ _ _ _ Hl H) as (A & B & C & D & _).
  unfold view_layout_true. rewrite A, B, D. intros Ho ix Hi.
  rewrite element_offset_same by (rewrite adapted_length; apply in_bounds_length; auto).
  rewrite dot_adapted by auto. auto.
Qed.

Lemma layout_true_dot e : wf_exp e -> x_direct e = true -> layout_true e -> is_order (x_layout e) ->
  forall ix, in_bounds (x_shape e) ix -> dot ix (x_strides e) = rank (x_layout e) (x_shape e) ix.
Proof.
  intros (H1 & H2) Hd HL Ho ix Hi. rewrite <- HL by auto. rewrite element_offset_same; auto.
  rewrite H2 by auto. apply in_bounds_length. auto.
Qed.

Lemma get_offset_direct e : x_direct e = true -> get_offset e = x_offset e.
Proof. intros H. unfold get_offset. rewrite H. reflexivity. Qed.
Lemma src_strides_direct T e : x_direct e = true -> src_strides T e = x_strides e.
Proof. intros H. unfold src_strides. rewrite H. reflexivity. Qed.

(** ** reversal *)
Lemma in_bounds_rev sh ix : in_bounds sh ix -> in_bounds (rev sh) (rev ix).
Proof.
  induction 1; simpl; [constructor|]. apply Forall2_app; auto.
Qed.

Lemma col_pos_app s1 s2 i1 i2 : length i1 = length s1 ->
  col_pos (s1 ++ s2) (i1 ++ i2) = col_pos s1 i1 + prod s1 * col_pos s2 i2.
Proof.
  revert i1; induction s1 as [|d s1 IH]; intros [|i i1] H; simpl in *; try discriminate.
  - rewrite prod_nil. lia.
  - rewrite IH by lia. rewrite prod_cons. ring.
Qed.

Lemma col_pos_rev sh ix : length ix = length sh -> col_pos (rev sh) (rev ix) = row_pos sh ix.
Proof.
  revert ix; induction sh as [|d sh IH]; intros [|i ix] H; simpl in *; try discriminate; auto.
  rewrite col_pos_app by (rewrite !rev_length; lia). rewrite IH by lia. rewrite prod_rev. simpl. ring.
Qed.

Lemma row_pos_rev sh ix : length ix = length sh -> row_pos (rev sh) (rev ix) = col_pos sh ix.
Proof. intros H. rewrite <- col_pos_rev by (rewrite !rev_length; auto). rewrite !rev_involutive. reflexivity. Qed.

Lemma dot_rev a b : length a = length b -> dot (rev a) (rev b) = dot a b.
Proof.
  revert b; induction a as [|x a IH]; intros [|y b] H; simpl in *; try discriminate; auto.
  rewrite dot_app by (rewrite !rev_length; lia). rewrite IH by lia. simpl. ring.
Qed.

Lemma rank_transposed l sh ix : is_order l -> length ix = length sh ->
  rank (transpose_layout_noexcept l) (rev sh) (rev ix) = rank l sh ix.
Proof. intros [ -> | -> ] H; cbn; auto using col_pos_rev, row_pos_rev. Qed.

Lemma transposed_order l : is_order (transpose_layout_noexcept l) -> is_order l.
Proof. destruct l; cbn; unfold is_order; intuition congruence. Qed.

Lemma is_shape_rev sh : is_shape sh -> is_shape (rev sh).
Proof. unfold is_shape. rewrite !Forall_forall. intros H x Hx. apply H. apply in_rev. auto. Qed.

Lemma transposed_strides_ok T e : wf_exp e -> T = row_major \/ T = column_major ->
  exists st, compute_transposed_strides T e (rev (x_shape e)) = Ok st /\ length st = length (rev (x_shape e)) /\
    (x_direct e = true -> st = rev (x_strides e)) /\
    forall jx, in_bounds (x_shape e) jx -> dot (rev jx) st = dot jx (src_strides T e).
Proof.
  intros He HT. unfold compute_transposed_strides. destruct (x_direct e) eqn:Hd.
  - destruct He as (Hs & Hl). specialize (Hl Hd).
    eexists. split; [reflexivity|]. split; [rewrite !rev_length; auto|]. split; [auto|].
    intros jx Hj. rewrite src_strides_direct by auto. apply dot_rev. rewrite Hl. apply in_bounds_length; auto.
  - assert (Ht : transpose_layout T = Ok (transpose_layout_noexcept T)) by (destruct HT as [ -> | -> ]; reflexivity).
    rewrite Ht. cbn [bind].
    rewrite compute_strides_ok by (simpl; rewrite ?repeat_length; auto). cbn [bind].
    eexists. split; [reflexivity|]. split.
    { destruct HT as [ -> | -> ]; cbn; rewrite ?row_strides_length, ?col_strides_length; auto. }
    split; [congruence|]. intros jx Hj. unfold src_strides. rewrite Hd.
    destruct HT as [ -> | -> ]; cbn [transpose_layout_noexcept].
    + change (match dynamic with any => column_major | dynamic => column_major | l => l end) with column_major.
      rewrite dot_row by auto. 
      etransitivity; [apply dot_col; apply in_bounds_rev; exact Hj|].
      apply col_pos_rev. apply in_bounds_length; auto.
    + rewrite dot_col by auto.
      etransitivity; [apply dot_row; apply in_bounds_rev; exact Hj|].
      apply row_pos_rev. apply in_bounds_length; auto.
Qed.

Lemma transpose_lemma : forall (T : layout) (e : xexp), T = row_major \/ T = column_major -> wf_exp e ->
  exists v, transpose T e = Ok v /\ rearranges e v (rev (x_shape e)) (@rev Z) /\
    wf_exp (as_exp v) /\
    (x_direct e = true -> layout_true e -> view_layout_true v).
Proof.
  intros T e HT He. destruct (transposed_strides_ok T e He HT) as (st & E & Hl & Hd & Hdot).
  unfold transpose. rewrite E. cbn [bind].
  destruct He as (Hs & Hls). assert (He : wf_exp e) by (split; auto).
  pose proof (make_view_ok T e (rev (x_shape e)) st (get_offset e) (transpose_layout_noexcept (x_layout e)) Hl) as Hm.
  eexists. split; [exact Hm|]. split; [|split].
  - eapply rearranges_intro; eauto.
    + intros jx Hj. split; [apply in_bounds_rev; auto|]. rewrite Hdot by auto. reflexivity.
    + intros ix Hi. exists (rev ix). split.
      * rewrite <- (rev_involutive (x_shape e)). apply in_bounds_rev. auto.
      * rewrite rev_involutive. reflexivity.
  - apply (make_view_wf _ _ _ _ _ _ _ (is_shape_rev _ Hs) Hl Hm).
  - intros Hdir HL. eapply view_layout_intro; eauto. intros Ho ix Hi.
    apply transposed_order in Ho.
    rewrite <- (rev_involutive ix). rewrite rank_transposed; auto.
    2:{ rewrite rev_length, (in_bounds_length _ _ Hi), rev_length. auto. }
    rewrite Hd by auto.
    assert (Hi' : in_bounds (x_shape e) (rev ix)).
    { rewrite <- (rev_involutive (x_shape e)). apply in_bounds_rev. auto. }
    rewrite dot_rev. 2:{ rewrite Hls by auto. apply in_bounds_length; auto. }
    apply layout_true_dot; auto.
Qed.

(** ** permutations *)
Definition is_perm (n : nat) (perm : list nat) : Prop :=
  length perm = n /\ NoDup perm /\ Forall (fun p => (p < n)%nat) perm.

Lemma is_perm_Permutation n perm : is_perm n perm <-> Permutation perm (seq 0 n).
Proof.
  split.
  - intros (H1 & H2 & H3). apply NoDup_Permutation_bis; auto.
    + rewrite seq_length. lia.
    + intros x Hx. apply in_seq. rewrite Forall_forall in H3. specialize (H3 x Hx). lia.
  - intros H. split; [rewrite (Permutation_length H); apply seq_length|]. split.
    + apply (Permutation_NoDup (Permutation_sym H)). apply seq_NoDup.
    + apply Forall_forall. intros x Hx. apply (Permutation_in _ H) in Hx. apply in_seq in Hx. lia.
Qed.

Lemma permute_length perm l : length (permute perm l) = length perm.
Proof. apply map_length. Qed.

Lemma permute_nth perm l i : (i < length perm)%nat -> nth i (permute perm l) 0 = nth (nth i perm 0%nat) l 0.
Proof.
  intros H. unfold permute. rewrite nth_indep with (d' := nth 0 l 0) by (rewrite map_length; auto).
  rewrite (map_nth (fun p => nth p l 0)). reflexivity.
Qed.

Lemma list_eq_nth (l l' : list Z) : length l = length l' ->
  (forall i, (i < length l)%nat -> nth i l 0 = nth i l' 0) -> l = l'.
Proof. intros H1 H2. apply (nth_ext l l' 0 0); auto. Qed.

Lemma permute_seq l : permute (seq 0 (length l)) l = l.
Proof.
  apply list_eq_nth; [rewrite permute_length, seq_length; auto|].
  intros i Hi. rewrite permute_length, seq_length in Hi. rewrite permute_nth by (rewrite seq_length; auto).
  rewrite seq_nth by auto. reflexivity.
Qed.

Definition zsum (l : list Z) : Z := fold_right Z.add 0 l.
Lemma zsum_perm l l' : Permutation l l' -> zsum l = zsum l'.
Proof. induction 1; simpl; try lia. Qed.

Lemma dot_permute_sum perm a b : dot (permute perm a) (permute perm b) = zsum (map (fun p => nth p a 0 * nth p b 0) perm).
Proof. induction perm as [|p perm IH]; cbn; auto. f_equal. exact IH. Qed.

Lemma dot_permute n perm a b : is_perm n perm -> length a = n -> length b = n ->
  dot (permute perm a) (permute perm b) = dot a b.
Proof.
  intros Hp Ha Hb. apply is_perm_Permutation in Hp. rewrite dot_permute_sum.
  transitivity (dot (permute (seq 0 n) a) (permute (seq 0 n) b)).
  2:{ rewrite <- Ha at 1. rewrite permute_seq. rewrite <- Hb. rewrite permute_seq. reflexivity. }
  rewrite dot_permute_sum. apply zsum_perm. apply Permutation_map. exact Hp.
Qed.

Lemma in_bounds_permute perm sh ix : Forall (fun p => (p < length sh)%nat) perm -> in_bounds sh ix ->
  in_bounds (permute perm sh) (permute perm ix).
Proof.
  intros Hp Hi. apply in_bounds_intro; [rewrite !permute_length; auto|].
  intros k Hk. rewrite permute_length in Hk. rewrite !permute_nth by auto.
  apply in_bounds_nth; auto. rewrite Forall_forall in Hp. apply Hp. apply nth_In. auto.
Qed.

Fixpoint pos (k : nat) (l : list nat) : nat :=
  match l with [] => 0%nat | x :: l => if (x =? k)%nat then 0%nat else S (pos k l) end.
Lemma pos_in k l : In k l -> (pos k l < length l)%nat /\ nth (pos k l) l 0%nat = k.
Proof.
  induction l as [|x l IH]; simpl; [tauto|]. intros H. destruct (Nat.eqb_spec x k).
  - split; [lia|auto].
  - destruct H as [H|H]; [congruence|]. destruct (IH H). split; [lia|auto].
Qed.
Lemma pos_nth l i : NoDup l -> (i < length l)%nat -> pos (nth i l 0%nat) l = i.
Proof.
  intros H Hi. destruct (pos_in (nth i l 0%nat) l (nth_In _ _ Hi)) as (A & B).
  apply (proj1 (NoDup_nth l 0%nat) H); auto.
Qed.
Definition inv (perm : list nat) : list nat := map (fun k => pos k perm) (seq 0 (length perm)).

Lemma inv_nth n perm k : is_perm n perm -> (k < n)%nat -> nth k (inv perm) 0%nat = pos k perm.
Proof.
  intros (H & _) Hk. unfold inv. rewrite nth_indep with (d' := pos 0 perm) by (rewrite map_length, seq_length; lia).
  rewrite (map_nth (fun k => pos k perm)). rewrite seq_nth by lia. reflexivity.
Qed.
Lemma perm_in n perm k : is_perm n perm -> (k < n)%nat -> In k perm.
Proof.
  intros H Hk. apply is_perm_Permutation in H. apply (Permutation_in _ (Permutation_sym H)). apply in_seq. lia.
Qed.

Lemma permute_surj n perm sh ix : is_perm n perm -> length sh = n -> in_bounds (permute perm sh) ix ->
  exists jx, in_bounds sh jx /\ ix = permute perm jx.
Proof.
  intros Hp Hs Hi. exists (permute (inv perm) ix).
  pose proof Hp as (P1 & P2 & P3).
  pose proof (in_bounds_length _ _ Hi) as Hl. rewrite permute_length in Hl.
  assert (Hil : length (inv perm) = n) by (unfold inv; rewrite map_length, seq_length; auto).
  split.
  - apply in_bounds_intro; [rewrite permute_length; lia|]. intros k Hk.
    rewrite permute_nth by lia. rewrite (inv_nth n) by (auto; lia).
    destruct (pos_in k perm) as (A & B); [apply (perm_in n); auto; lia|].
    pose proof (in_bounds_nth _ _ (pos k perm) Hi) as Hb. rewrite permute_length in Hb. specialize (Hb A).
    rewrite permute_nth in Hb by auto. rewrite B in Hb. exact Hb.
  - apply list_eq_nth; [rewrite permute_length; auto|]. intros i Hi2.
    rewrite permute_nth by lia.
    assert (Hq : (nth i perm 0 < n)%nat).
    { rewrite Forall_forall in P3. apply P3. apply nth_In. lia. }
    rewrite permute_nth by lia. rewrite (inv_nth n) by auto. rewrite pos_nth by (auto; lia). reflexivity.
Qed.

(** ** the loop of transpose_impl *)
Lemma is_shape_permute perm sh : is_shape sh -> Forall (fun p => (p < length sh)%nat) perm -> is_shape (permute perm sh).
Proof.
  unfold is_shape. rewrite !Forall_forall. intros H Hp x Hx. unfold permute in Hx. apply in_map_iff in Hx.
  destruct Hx as (p & <- & Hin). apply H. apply nth_In. auto.
Qed.

Definition bad (n : nat) (p : Z) : bool := (p <? 0) || (Z.of_nat n <=? p).

Definition t_body (e : xexp) (perm : list Z) (n : nat) (i : nat) (s : list Z * list Z) : res (list Z * list Z) :=
  let '(sh, st) := s in
  let* p := rd perm i in
  if (p <? 0) || (Z.of_nat n <=? p) then Throw transpose_error else
  let* a := rd (x_shape e) (Z.to_nat p) in
  let* sh := wr sh i a in
  let* b := rd (x_strides e) (Z.to_nat p) in
  let* st := wr st i b in
  Ok (sh, st).

Lemma t_loop e n perm : length (x_shape e) = n -> length (x_strides e) = n -> length perm = n ->
  forall m i A C, (i + m = n)%nat -> length A = i -> length C = i ->
  for_up (t_body e perm n) i m (A ++ repeat 0 m, C ++ repeat 0 m) =
  if existsb (bad n) (skipn i perm) then Throw transpose_error
  else Ok (A ++ permute (map Z.to_nat (skipn i perm)) (x_shape e), C ++ permute (map Z.to_nat (skipn i perm)) (x_strides e)).
Proof.
  intros Hs Ht Hp. induction m; intros i A C Hi HA HC.
  - cbn [for_up repeat]. rewrite skipn_all2 by lia. reflexivity.
  - cbn [for_up]. destruct (nth_error_lt_ex perm i ltac:(lia)) as (p & Hn).
    rewrite (skipn_cons_nth _ _ _ Hn). cbn [existsb map permute]. unfold t_body at 1.
    rewrite (rd_ok _ _ _ Hn). cbn [bind]. unfold bad at 1.
    destruct ((p <? 0) || (Z.of_nat n <=? p)) eqn:Eb; cbn [orb bind]; [reflexivity|].
    apply orb_false_iff in Eb. destruct Eb as (E1 & E2). apply Z.ltb_ge in E1. apply Z.leb_gt in E2.
    destruct (nth_error_lt_ex (x_shape e) (Z.to_nat p) ltac:(lia)) as (a & Ha).
    destruct (nth_error_lt_ex (x_strides e) (Z.to_nat p) ltac:(lia)) as (b & Hb).
    rewrite (rd_ok _ _ _ Ha). cbn [bind]. cbn [repeat].
    rewrite wr_ok by (rewrite app_length; simpl; lia). cbn [bind].
    rewrite (rd_ok _ _ _ Hb). cbn [bind].
    rewrite wr_ok by (rewrite app_length; simpl; lia). cbn [bind].
    rewrite !upd_app_r by lia. rewrite HA, HC, Nat.sub_diag. cbn [upd].
    replace (A ++ a :: repeat 0 m) with ((A ++ [a]) ++ repeat 0 m) by (rewrite <- app_assoc; reflexivity).
    replace (C ++ b :: repeat 0 m) with ((C ++ [b]) ++ repeat 0 m) by (rewrite <- app_assoc; reflexivity).
    rewrite IHm by (rewrite ?app_length; simpl; lia).
    destruct (existsb (bad n) (skipn (S i) perm)); [reflexivity|].
    rewrite <- !app_assoc. cbn [app]. rewrite (nth_error_nth _ _ 0 Ha), (nth_error_nth _ _ 0 Hb). reflexivity.
Qed.

Lemma transpose_none_eq T e perm : wf_exp e -> x_direct e = true ->
  transpose_none T e perm =
  if negb (length perm =? length (x_shape e))%nat then Throw transpose_error
  else if existsb (bad (length (x_shape e))) perm then Throw transpose_error
  else make_view T e (permute (map Z.to_nat perm) (x_shape e)) (permute (map Z.to_nat perm) (x_strides e)) (x_offset e)
         (if is_sorted Z.ltb perm then x_layout e
           else if is_sorted Z.gtb perm then transpose_layout_noexcept (x_layout e) else dynamic).
Proof.
  intros (Hs & Hl) Hd. unfold transpose_none.
  destruct (Nat.eqb_spec (length perm) (length (x_shape e))) as [E|E]; cbn [negb]; [|reflexivity].
  pose proof (t_loop e (length (x_shape e)) perm eq_refl (Hl Hd) E (length (x_shape e)) 0 [] []
                ltac:(lia) eq_refl eq_refl) as L.
  cbn [app skipn] in L. unfold t_body in L. rewrite L.
  destruct (existsb (bad (length (x_shape e))) perm); cbn [bind]; [reflexivity|].
  rewrite get_offset_direct by auto. reflexivity.
Qed.

(** ** sorted permutations *)
Lemma is_sorted_cons lt a l : is_sorted lt (a :: l) = true -> is_sorted lt l = true.
Proof. destruct l; cbn; auto. intros H. apply andb_true_iff in H. tauto. Qed.

Lemma sorted_lt_all l a : is_sorted Z.ltb (a :: l) = true -> Forall (fun x => a <= x) l.
Proof.
  revert a; induction l as [|b l IH]; intros a H; [constructor|].
  cbn [is_sorted] in H. apply andb_true_iff in H. destruct H as (H1 & H2).
  assert (a <= b) by (apply negb_true_iff, Z.ltb_ge in H1; lia).
  constructor; auto. eapply Forall_impl; [|apply IH; exact H2]. intros; cbn in *; lia.
Qed.

Lemma sorted_unique l : forall l', Permutation l l' -> is_sorted Z.ltb l = true -> is_sorted Z.ltb l' = true -> l = l'.
Proof.
  induction l as [|a l IH]; intros l' HP H1 H2.
  - apply Permutation_nil in HP. auto.
  - destruct l' as [|b l']; [apply Permutation_sym, Permutation_nil in HP; discriminate|].
    pose proof (sorted_lt_all _ _ H1) as A1. pose proof (sorted_lt_all _ _ H2) as A2.
    assert (a = b).
    { assert (In a (b :: l')) as I1 by (apply (Permutation_in _ HP); left; auto).
      assert (In b (a :: l)) as I2 by (apply (Permutation_in _ (Permutation_sym HP)); left; auto).
      rewrite Forall_forall in A1, A2. destruct I1 as [I1|I1]; auto. destruct I2 as [I2|I2]; auto.
      specialize (A1 _ I2). specialize (A2 _ I1). lia. }
    subst b. f_equal. apply IH; eauto using is_sorted_cons. eapply Permutation_cons_inv; eauto.
Qed.

Lemma sorted_seq n : forall i, is_sorted Z.ltb (map Z.of_nat (seq i n)) = true.
Proof.
  induction n; intros i; cbn [seq map is_sorted]; auto. specialize (IHn (S i)). destruct n; [reflexivity|].
  cbn [seq map] in *. change (is_sorted Z.ltb (Z.of_nat i :: Z.of_nat (S i) :: map Z.of_nat (seq (S (S i)) n)))
    with (negb (Z.of_nat (S i) <? Z.of_nat i) && is_sorted Z.ltb (Z.of_nat (S i) :: map Z.of_nat (seq (S (S i)) n))).
  rewrite IHn. rewrite andb_true_r. apply negb_true_iff. apply Z.ltb_ge. lia.
Qed.

Lemma map_of_nat_inj (a b : list nat) : map Z.of_nat a = map Z.of_nat b -> a = b.
Proof.
  revert b; induction a; intros [|y b] H; simpl in H; try discriminate; auto.
  injection H as H1 H2. f_equal; [lia|auto].
Qed.

Lemma sorted_perm n perm : is_perm n perm -> is_sorted Z.ltb (map Z.of_nat perm) = true -> perm = seq 0 n.
Proof.
  intros Hp Hs. apply map_of_nat_inj. apply sorted_unique; auto using sorted_seq.
  apply Permutation_map. apply is_perm_Permutation. exact Hp.
Qed.

Lemma sorted_app lt l a b : is_sorted lt (l ++ [a]) = true -> negb (lt b a) = true -> is_sorted lt (l ++ [a; b]) = true.
Proof.
  induction l as [|x l IH]; intros H1 H2.
  - cbn. rewrite H2. reflexivity.
  - destruct l as [|y l].
    + cbn in *. rewrite H2. rewrite andb_true_r in *. rewrite H1. reflexivity.
    + cbn [app is_sorted] in *. apply andb_true_iff in H1. destruct H1 as (H1 & H3). rewrite H1.
      cbn [andb]. apply IH; auto.
Qed.

Lemma sorted_gt_rev l : is_sorted Z.gtb l = true -> is_sorted Z.ltb (rev l) = true.
Proof.
  induction l as [|a l IH]; intros H; auto. destruct l as [|b l]; auto.
  cbn [is_sorted] in H. apply andb_true_iff in H. destruct H as (H1 & H2). specialize (IH H2).
  cbn [rev] in *. rewrite <- app_assoc. cbn [app]. apply sorted_app; auto.
  apply negb_true_iff in H1. apply negb_true_iff. rewrite Z.gtb_ltb in H1. auto.
Qed.

Lemma sorted_rev_perm n perm : is_perm n perm -> is_sorted Z.gtb (map Z.of_nat perm) = true -> perm = rev (seq 0 n).
Proof.
  intros Hp Hs. apply sorted_gt_rev in Hs. rewrite <- map_rev in Hs.
  rewrite <- (rev_involutive perm). f_equal. apply sorted_perm; auto.
  apply is_perm_Permutation. apply is_perm_Permutation in Hp.
  eapply Permutation_trans; [|exact Hp]. apply Permutation_sym, Permutation_rev.
Qed.

Lemma permute_rev_seq l : permute (rev (seq 0 (length l))) l = rev l.
Proof. unfold permute. rewrite map_rev. f_equal. apply permute_seq. Qed.

Lemma map_to_of (l : list nat) : map Z.to_nat (map Z.of_nat l) = l.
Proof. rewrite map_map. rewrite <- (map_id l) at 2. apply map_ext. intros; lia. Qed.

Lemma not_bad n perm : Forall (fun p => (p < n)%nat) perm -> existsb (bad n) (map Z.of_nat perm) = false.
Proof.
  induction 1; auto. cbn [map existsb]. rewrite IHForall, orb_false_r. unfold bad.
  apply orb_false_iff. split; [apply Z.ltb_ge; lia|apply Z.leb_gt; lia].
Qed.

Lemma transpose_none_lemma T e perm : T = row_major \/ T = column_major -> wf_exp e -> x_direct e = true ->
  is_perm (length (x_shape e)) perm ->
  exists v, transpose_none T e (map Z.of_nat perm) = Ok v /\
    rearranges e v (permute perm (x_shape e)) (permute perm) /\
    wf_exp (as_exp v) /\ w_base v = e /\
    (layout_true e -> view_layout_true v).
Proof.
  intros HT He Hd Hp. pose proof Hp as (P1 & P2 & P3).
  rewrite transpose_none_eq by auto. rewrite map_length, P1, Nat.eqb_refl. cbn [negb].
  rewrite not_bad by auto. rewrite map_to_of.
  set (l := if is_sorted Z.ltb _ then _ else _).
  assert (Hl : length (permute perm (x_strides e)) = length (permute perm (x_shape e))) by (rewrite !permute_length; auto).
  pose proof (make_view_ok T e _ _ (x_offset e) l Hl) as Hm.
  destruct He as (Hs & Hls). specialize (Hls Hd).
  eexists. split; [exact Hm|]. split; [|split; [|split; [reflexivity|]]].
  - eapply rearranges_intro; eauto; try (split; auto; fail).
    + intros jx Hj. split; [apply in_bounds_permute; auto|].
      rewrite get_offset_direct, src_strides_direct by auto.
      rewrite (dot_permute (length (x_shape e))); auto. apply in_bounds_length; auto.
    + intros ix Hi. eapply permute_surj; eauto.
  - apply (make_view_wf _ _ _ _ _ _ _ (is_shape_permute _ _ Hs P3) Hl Hm).
  - intros HL. eapply view_layout_intro; eauto. intros Ho ix Hi.
    assert (He : wf_exp e) by (split; auto).
    destruct (permute_surj _ _ _ _ Hp eq_refl Hi) as (jx & Hj & ->).
    rewrite (dot_permute (length (x_shape e))) by (auto; apply in_bounds_length; auto).
    unfold l in *. destruct (is_sorted Z.ltb (map Z.of_nat perm)) eqn:E1.
    + pose proof (sorted_perm _ _ Hp E1) as ->.
      rewrite permute_seq. rewrite <- (in_bounds_length _ _ Hj) at 1. rewrite permute_seq.
      apply layout_true_dot; auto.
    + destruct (is_sorted Z.gtb (map Z.of_nat perm)) eqn:E2.
      * pose proof (sorted_rev_perm _ _ Hp E2) as ->.
        rewrite permute_rev_seq. rewrite <- (in_bounds_length _ _ Hj) at 1. rewrite permute_rev_seq.
        apply transposed_order in Ho. rewrite rank_transposed by (auto; apply in_bounds_length; auto).
        apply layout_true_dot; auto.
      * destruct Ho; discriminate.
Qed.
