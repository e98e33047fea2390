From Coq Require Import List ZArith Lia Bool Arith.
From Verif Require Import Prelude PreludeFacts Strides_Model Strides_Spec Strides_Proofs Layout_Model Broadcast_Model Broadcast_Spec Broadcast_Proofs Broadcast2_Proofs
  Slice_Model Stepper_Model Stepper_Spec Stepper_Proofs Stepper4_Proofs Container_Model Container_Spec Container_Proofs
  Assign_Model Assign_Spec Semantic_Model Semantic_Spec Semantic_Proofs Semantic2_Proofs Semantic3_Proofs Semantic4_Proofs Semantic5_Proofs
  Reduce_Spec Reduce13_Proofs Functor_Model Functor_Spec Functor_Proofs Functor2_Proofs Functor3_Proofs.
Import ListNotations.
Open Scope Z_scope.

Lemma values_lemma {T M} (a : accessor T M) (L : layout) c mem (v : Z -> T) : is_order L -> readable mem c -> contents mem v ->
  (forall ix, in_bounds (k_shape c) ix -> fv_read a c mem ix = Ok (acc_get a (v (position c ix)))) /\
  fv_values a L c mem = Ok (map (fun ix => acc_get a (v (position c ix))) (indices_of L (k_shape c))).
Proof.
  intros HL (Hs & Hr) Hv.
  assert (G : forall ix, in_bounds (k_shape c) ix -> fv_read a c mem ix = Ok (acc_get a (v (position c ix)))).
  { intros ix Hb. unfold fv_read. rewrite element_offset_own by assumption. rewrite (Hv _ (Hr ix Hb)). reflexivity. }
  split; [exact G|]. apply (seqM_each (fv_read a c mem)). intros ix Hi. apply G. apply indices_of_in in Hi; assumption.
Qed.

Lemma compound_lemma {T M} (w : Z) (L DT : layout) f (a : accessor T M) c (e : fexp T M) mem (v : Z -> T) o :
  is_order L -> is_order DT -> writable c mem -> contents mem v -> acc_off a = Some o -> 0 <= o < w -> real_shape (k_shape c) -> Forall real_shape (fx_shapes e) ->
  (forall s, In s (fx_shapes e) -> fits s (k_shape c)) -> fx_views (fun _ k => readable mem k) e ->
  exists mem', fv_assign_op w L DT f a c e mem = Ok mem' /\ assigned a c (fun ix => f (acc_get a (v (position c ix))) (fx_value v e ix)) v mem mem'.
Proof.
  intros HL HDT Hw Hv Ho Hin Hc Hr Hf He. pose proof Hw as (Hs & Hst & W3 & W4).
  set (e' := FX_fun f (FX_view a c) e).
  assert (Hf' : forall s, In s (fx_shapes e') -> fits s (k_shape c)).
  { intros s [<-|H]; [apply fits_self|]. apply Hf. cbn in H. rewrite app_nil_r in H. exact H. }
  assert (Hr' : Forall real_shape (fx_shapes e')).
  { unfold e', fx_shapes. cbn. rewrite app_nil_r. constructor; [exact Hc|exact Hr]. }
  unfold fv_assign_op. fold e'. rewrite (proj1 (assign_shape w L DT a c e' mem Hc Hr') Hf').
  assert (Hb : fx_views (fun b k => readable mem k /\ fits (k_shape k) (k_shape c)) e').
  { split; [split; [split; assumption|apply fits_self]|]. revert He. apply views_impl. intros b k Hk H. auto. }
  assert (G : exists m', fv_store w L DT a c e' mem = Ok m' /\ assigned a c (fx_value v e') v mem m').
  { unfold fv_store, fv_range. rewrite Ho. unfold part_range. destruct (Z.eq_dec (prod (k_shape c)) 0) as [H0|H0].
    - unfold dst_range. rewrite compute_size_prod, H0. cbn [Z.eqb].
      apply (direct_ok a c mem v Hw Hv); [exact HL|]. revert Hb. apply views_impl. intros b k _ [H1 H2]. split; [exact H1|]. split; [exact H2|].
      intros ix jx Hi. exfalso. pose proof (row_pos_bound _ _ Hi). lia.
    - rewrite dst_range_some by assumption. unfold e' at 1. cbn [fx_overlaps]. rewrite Ho. unfold part_range. rewrite dst_range_some by assumption.
      destruct (range_overlaps _ _ _) eqn:E; [|apply overlaps_iff in E; [lia|nia]]. cbn [orb]. apply by_copy_ok; assumption. }
  destruct G as (m' & E & A1 & A2 & A3). exists m'. split; [exact E|]. split; [exact A1|]. split; [|exact A3].
  intros ix Hi. rewrite (A2 ix Hi). unfold e'. cbn [fx_value]. rewrite bc_index_self by exact Hi. reflexivity.
Qed.

Lemma assign_lemma {T M} (w : Z) (L DT : layout) (a : accessor T M) c (e : fexp T M) mem (v : Z -> T) o :
  is_order L -> is_order DT -> writable c mem -> contents mem v -> acc_off a = Some o -> 0 <= o < w -> one_direction c ->
  real_shape (k_shape c) -> Forall real_shape (fx_shapes e) -> (forall s, In s (fx_shapes e) -> fits s (k_shape c)) ->
  fx_views (fun b k => readable mem k /\ one_direction k /\ inside w b /\ separate a b) e ->
  exists mem', fv_assign w L DT a c e mem = Ok mem' /\ assigned a c (fx_value v e) v mem mem'.
Proof.
  intros HL HDT Hw Hv Ho Hin Hd Hc Hr Hf He. rewrite (proj1 (assign_shape w L DT a c e mem Hc Hr) Hf). eapply store_ok; eassumption.
Qed.
Lemma proxy_lemma {T M} (w : Z) (L DT : layout) (a : accessor T M) c (e : fexp T M) mem (v : Z -> T) :
  is_order L -> writable c mem -> contents mem v -> acc_off a = None -> real_shape (k_shape c) -> Forall real_shape (fx_shapes e) ->
  (forall s, In s (fx_shapes e) -> fits s (k_shape c)) -> fx_views (fun _ k => aligned c mem k) e ->
  exists mem', fv_assign w L DT a c e mem = Ok mem' /\ assigned a c (fx_value v e) v mem mem'.
Proof.
  intros HL Hw Hv Ho Hc Hr Hf He. rewrite (proj1 (assign_shape w L DT a c e mem Hc Hr) Hf). eapply proxy_ok; eassumption.
Qed.

Lemma complex_lemma {M} (SL : layout) (D : option nat) (L DT : layout) (a : cont (M * M)) re im (v : Z -> M * M) acc (e : fexp (M * M) M) :
  is_order L -> is_order DT -> well_formed SL D a -> real_shape (ct_shape a) -> parts a re im -> contents (ct_data a) v ->
  In acc [real_part M; imag_part M] -> Forall real_shape (fx_shapes e) -> (forall s, In s (fx_shapes e) -> fits s (ct_shape a)) ->
  fx_views (fun b k => In b [real_part M; imag_part M] /\ readable (ct_data a) k /\ one_direction k) e ->
  exists d, fv_assign 2 L DT acc (c_strided a) e (ct_data a) = Ok d /\
    (acc = real_part M -> parts (with_data a d) (fx_value v e) im) /\ (acc = imag_part M -> parts (with_data a d) re (fx_value v e)).
Proof.
  intros HL HDT Hw Hc Hp Hv Hacc Hr Hf He.
  assert (Ho : exists o, acc_off acc = Some o /\ 0 <= o < 2) by (destruct Hacc as [<-|[<-|[]]]; eexists; (split; [reflexivity|lia])).
  destruct Ho as (o & Ho & Hin).
  assert (G : exists d, fv_assign 2 L DT acc (c_strided a) e (ct_data a) = Ok d /\ assigned acc (c_strided a) (fx_value v e) v (ct_data a) d).
  { pose proof (wf_writable SL D a Hw) as W.
    rewrite (proj1 (assign_shape 2 L DT acc (c_strided a) e (ct_data a) Hc Hr) Hf).
    assert (He' : fx_views (operand_ok 2 acc (ct_data a)) e).
    { revert He. apply views_impl. intros b k _ (H1 & H2 & H3). split; [exact H2|]. split; [exact H3|].
      split; [apply parts_inside; exact H1|apply parts_separate; assumption]. }
    destruct (Z.eq_dec (prod (ct_shape a)) 0) as [H0|H0].
    - unfold fv_store, fv_range. rewrite Ho. unfold part_range, dst_range. rewrite compute_size_prod. cbn [c_strided k_shape]. rewrite H0. cbn [Z.eqb].
      apply direct_ok; [exact W|exact Hv|exact HL|]. revert He'. apply views_impl. intros b k Hk (H1 & _). split; [exact H1|].
      split; [apply Hf; exact Hk|]. intros ix jx Hi. exfalso. cbn [c_strided k_shape] in Hi. pose proof (row_pos_bound _ _ Hi). lia.
    - eapply store_ok; try eassumption. eapply wf_direction; eassumption. }
  destruct G as (d & E & A). exists d. split; [exact E|]. eapply parts_assigned; eassumption.
Qed.

(** ** Cases *)

(** A vector of three complex numbers, and views of it: all of it, reversed *)
Definition z3 : list (Z * Z) := [(1, 10); (2, 20); (3, 30)].
Definition all3 : container := mk_container [3] [1] [2] 0.
Definition rev3 : container := mk_container [3] [-1] [-2] 2.
Definition zvec (d : list (Z * Z)) : cont (Z * Z) := mk_cont [3] [1] [2] row_major d.
Definition at3 (p : Z) : Z * Z := nth (Z.to_nat p) z3 (0, 0).

Lemma in1 n ix : in_bounds [n] ix -> exists i, ix = [i] /\ 0 <= i < n.
Proof. intros H. inversion H as [|? i ? l Hi Hl]; subst. inversion Hl; subst. exists i. auto. Qed.

Lemma z3_contents : contents z3 at3.
Proof. intros p Hp. cbn in Hp. assert (p = 0 \/ p = 1 \/ p = 2) as [ -> | [ -> | -> ] ] by lia; reflexivity. Qed.
Lemma strided1 n s b : n <> 1 -> strided_ok (mk_container [n] [s] [s * (n - 1)] b).
Proof. intros Hn. split; [reflexivity|]. split; [reflexivity|]. intros [|j] Hj; cbn in *; [|lia]. split; [intros; lia|lia]. Qed.
Lemma all3_writable : writable all3 z3.
Proof.
  split; [repeat (apply Forall_cons; [lia|]); constructor|]. split; [apply (strided1 3 1 0); lia|]. split.
  - intros ix Hb. apply in1 in Hb. destruct Hb as (i & -> & Hi). unfold position. cbn. lia.
  - intros ix jx Hi Hj. apply in1 in Hi. apply in1 in Hj. destruct Hi as (i & -> & Hi), Hj as (j & -> & Hj). unfold position. cbn. intros E. f_equal. lia.
Qed.
Lemma rev3_readable {T} (mem : list T) : length mem = 3%nat -> readable mem rev3.
Proof. intros E. split; [apply (strided1 3 (-1) 2); lia|]. intros ix Hb. apply in1 in Hb. destruct Hb as (i & -> & Hi). rewrite E. unfold position. cbn. lia. Qed.
Lemma all3_readable {T} (mem : list T) : length mem = 3%nat -> readable mem all3.
Proof. intros E. split; [apply (strided1 3 1 0); lia|]. intros ix Hb. apply in1 in Hb. destruct Hb as (i & -> & Hi). rewrite E. unfold position. cbn. lia. Qed.
Lemma real3 : real_shape [3]. Proof. repeat (apply Forall_cons; [lia|]). constructor. Qed.
Lemma zvec_wf d : length d = 3%nat -> well_formed row_major (Some 1%nat) (zvec d).
Proof.
  intros E. split; [repeat (apply Forall_cons; [lia|]); constructor|]. split; [apply (strided1 3 1 0); lia|]. split; [cbn; rewrite E; reflexivity|].
  split; [discriminate|]. split; [discriminate|]. split; [reflexivity|]. split; [reflexivity|]. exists row_major. split; [left; reflexivity|]. split; [reflexivity|].
  intros ix Hb. apply in1 in Hb. destruct Hb as (i & -> & Hi). cbn; rewrite ?prod_cons, ?prod_nil; lia.
Qed.
Lemma zvec_parts : parts (zvec z3) (fun ix => nth 0 ix 0 + 1) (fun ix => 10 * (nth 0 ix 0 + 1)).
Proof. intros ix Hb. apply in1 in Hb. destruct Hb as (i & -> & Hi). assert (i = 0 \/ i = 1 \/ i = 2) as [ -> | [ -> | -> ] ] by lia; reflexivity. Qed.

(** A functor that returns a proxy *)
Definition proxy : accessor Z Z := mk_accessor (fun t => t) (fun _ m => m) None.
Definition whole : accessor Z Z := mk_accessor (fun t => t) (fun _ m => m) (Some 0).
Definition at_list (l : list Z) (p : Z) : Z := nth (Z.to_nat p) l 0.
Lemma list_contents l : contents l (at_list l).
Proof. intros p Hp. apply rdz_ok; [lia|]. unfold at_list. apply nth_error_nth'. lia. Qed.
Lemma all3_writable_z d : length d = 3%nat -> @writable Z all3 d.
Proof.
  intros E. destruct all3_writable as (H1 & H2 & H3 & H4). split; [exact H1|]. split; [exact H2|]. split; [|exact H4].
  intros ix Hb. rewrite E. apply (H3 ix Hb).
Qed.

(** The columns of a 2 by 2 array in reverse: strides of different signs *)
Definition mixed : container := mk_container [2; 2] [2; -1] [2; -1] 1.
Definition one_elt : container := mk_container [1] [0] [0] 3.
Lemma in2 m n ix : in_bounds [m; n] ix -> exists i j, ix = [i; j] /\ 0 <= i < m /\ 0 <= j < n.
Proof. intros H. inversion H as [|? i ? l Hi Hl]; subst. apply in1 in Hl. destruct Hl as (j & -> & Hj). exists i, j. auto. Qed.
Lemma mixed_writable d : length d = 4%nat -> @writable Z mixed d.
Proof.
  intros E. split; [repeat (apply Forall_cons; [lia|]); constructor|]. split; [|split].
  - split; [reflexivity|]. split; [reflexivity|]. intros [|[|j]] Hj; cbn in *; try lia; split; lia.
  - intros ix Hb. apply in2 in Hb. destruct Hb as (i & j & -> & Hi & Hj). rewrite E. unfold position. cbn. lia.
  - intros ix jx H1 H2. apply in2 in H1. apply in2 in H2. destruct H1 as (i & j & -> & Hi & Hj), H2 as (k & l & -> & Hk & Hl). unfold position. cbn. intros X. f_equal; [|f_equal]; lia.
Qed.
Lemma one_readable d : length d = 4%nat -> @readable Z d one_elt.
Proof.
  intros E. split.
  - split; [reflexivity|]. split; [reflexivity|]. intros [|j] Hj; cbn in *; [|lia]. split; reflexivity.
  - intros ix Hb. apply in1 in Hb. destruct Hb as (i & -> & Hi). rewrite E. unfold position. cbn. lia.
Qed.
Lemma one_fits : fits [1] [2; 2].
Proof. split; [cbn; lia|]. intros k. left. unfold axis. destruct k as [|[|k]]; reflexivity. Qed.
Lemma real22 : real_shape [2; 2]. Proof. repeat (apply Forall_cons; [lia|]). constructor. Qed.
Lemma real1 : real_shape [1]. Proof. repeat (apply Forall_cons; [lia|]). constructor. Qed.

(** Containers for adaptors *)
Definition m23 (d : list Z) : cont Z := mk_cont [2; 3] [3; 1] [3; 2] row_major d.
Definition m3 (d : list Z) : cont Z := mk_cont [3] [1] [2] row_major d.
Definition d22r (d : list Z) : cont Z := mk_cont [2; 2] [2; 1] [2; 1] dynamic d.
Definition d22c (d : list Z) : cont Z := mk_cont [2; 2] [1; 2] [1; 2] dynamic d.
Definition refill (d : list Z) (n : Z) : list Z := repeat 0 (Z.to_nat n).
Lemma refill_resizes : resizes refill.
Proof. intros d n Hn. unfold refill. rewrite repeat_length. lia. Qed.
Lemma strided2 m n s t b : m <> 1 -> n <> 1 -> strided_ok (mk_container [m; n] [s; t] [s * (m - 1); t * (n - 1)] b).
Proof. intros Hm Hn. split; [reflexivity|]. split; [reflexivity|]. intros [|[|j]] Hj; cbn in *; try lia; (split; [intros; lia|lia]). Qed.
Lemma m23_wf D d : D = Some 2%nat \/ D = None -> length d = 6%nat -> well_formed row_major D (m23 d).
Proof.
  intros HD E. split; [repeat (apply Forall_cons; [lia|]); constructor|]. split; [apply (strided2 2 3 3 1 0); lia|]. split; [cbn; rewrite E; reflexivity|].
  split; [discriminate|]. split; [discriminate|]. split; [reflexivity|]. split; [destruct HD as [ -> | -> ]; cbn; auto|]. exists row_major. split; [left; reflexivity|]. split; [reflexivity|].
  intros ix Hb. apply in2 in Hb. destruct Hb as (i & j & -> & Hi & Hj). cbn; rewrite ?prod_cons, ?prod_nil; lia.
Qed.
Lemma m3_wf d : length d = 3%nat -> well_formed row_major None (m3 d).
Proof.
  intros E. split; [repeat (apply Forall_cons; [lia|]); constructor|]. split; [apply (strided1 3 1 0); lia|]. split; [cbn; rewrite E; reflexivity|].
  split; [discriminate|]. split; [discriminate|]. split; [reflexivity|]. split; [exact I|]. exists row_major. split; [left; reflexivity|]. split; [reflexivity|].
  intros ix Hb. apply in1 in Hb. destruct Hb as (i & -> & Hi). cbn; rewrite ?prod_cons, ?prod_nil; lia.
Qed.
Lemma d22_wf (col : bool) d : length d = 4%nat -> well_formed dynamic None (if col then d22c d else d22r d).
Proof.
  intros E. destruct col.
  - split; [repeat (apply Forall_cons; [lia|]); constructor|]. split; [apply (strided2 2 2 1 2 0); lia|]. split; [cbn; rewrite E; reflexivity|].
    split; [discriminate|]. split; [discriminate|]. split; [intros H; contradiction|]. split; [exact I|]. exists column_major. split; [right; reflexivity|]. split; [intros [X|X]; discriminate X|].
    intros ix Hb. apply in2 in Hb. destruct Hb as (i & j & -> & Hi & Hj). cbn; rewrite ?prod_cons, ?prod_nil; lia.
  - split; [repeat (apply Forall_cons; [lia|]); constructor|]. split; [apply (strided2 2 2 2 1 0); lia|]. split; [cbn; rewrite E; reflexivity|].
    split; [discriminate|]. split; [discriminate|]. split; [intros H; contradiction|]. split; [exact I|]. exists row_major. split; [left; reflexivity|]. split; [intros [X|X]; discriminate X|].
    intros ix Hb. apply in2 in Hb. destruct Hb as (i & j & -> & Hi & Hj). cbn; rewrite ?prod_cons, ?prod_nil; lia.
Qed.
Lemma real23 : real_shape [2; 3]. Proof. repeat (apply Forall_cons; [lia|]). constructor. Qed.
Lemma fun_value_23 (d1 d2 : list Z) : length d1 = 6%nat -> length d2 = 3%nat ->
  ad_value (AD_fun Z.add (m3 d2) (m23 d1)) [2; 3] (fun ix => nth (Z.to_nat (nth 1 ix 0)) d2 0 + nth (Z.to_nat (3 * nth 0 ix 0 + nth 1 ix 0)) d1 0).
Proof.
  intros L1 L2. split.
  - split; [intros s [<-|[<-|[]]]; cbn; lia|]. split; [right; exists [2; 3]; split; [right; left; reflexivity|reflexivity]|].
    intros k. split.
    + intros s [<-|[<-|[]]]; unfold axis; destruct k as [|[|[|k]]]; cbn; auto.
    + destruct k as [|[|k]]; [right; exists [2; 3]; split; [right; left; reflexivity|reflexivity]|right; exists [2; 3]; split; [right; left; reflexivity|reflexivity]|left; unfold axis; cbn; destruct k; reflexivity].
  - intros ix Hb. apply in2 in Hb. destruct Hb as (i & j & -> & Hi & Hj).
    exists (nth (Z.to_nat j) d2 0), (nth (Z.to_nat (3 * i + j)) d1 0). unfold elt. cbn [m3 m23 ct_data ct_shape ct_strides].
    assert (E1 : element_offset [1] (bc_index [3] [i; j]) = j) by (cbn; lia).
    assert (E2 : element_offset [3; 1] (bc_index [2; 3] [i; j]) = 3 * i + j) by (cbn; lia).
    rewrite E1, E2. split; [apply rdz_ok; [lia|]; apply nth_error_nth'; lia|]. split; [apply rdz_ok; [lia|]; apply nth_error_nth'; lia|]. reflexivity.
Qed.
