(** Proofs about reshape_view and ravel. *)
From Coq Require Import List ZArith Bool Lia.
From Verif Require Import Prelude PreludeFacts Strides_Model Strides_Spec Strides_Proofs Access_Model Builder_Model Container_Spec
  SView_Model SView_Spec SView_Proofs Stepper_Model Stepper_Spec Stepper4_Proofs Reshape_Model Reshape_Spec.
Import ListNotations.
Open Scope Z_scope.

Definition lazy (e : xexp) : xexp := mk_xexp false (x_shape e) [] 0 (x_layout e).
Definition strides_in (L : layout) (sh : list Z) : list Z :=
  match L with row_major => row_strides sh | _ => col_strides sh end.

Lemma strides_in_length L sh : length (strides_in L sh) = length sh.
Proof. destruct L; auto using row_strides_length, col_strides_length. Qed.

Lemma to_size_t_id x : 0 <= x < 2 ^ 64 -> to_size_t x = x.
Proof. intros H. apply Z.mod_small. exact H. Qed.

Lemma to_size_t_shape sh : is_shape sh -> Forall (fun n => n < 2 ^ 64) sh -> map to_size_t sh = sh.
Proof.
  intros Hs Hb. induction Hs as [|n sh Hn Hs IH]; [reflexivity|]. apply Forall_cons_iff in Hb. destruct Hb as [Hb1 Hb2].
  cbn [map]. rewrite IH by assumption. rewrite to_size_t_id by (split; assumption). reflexivity.
Qed.

Lemma reshape_ok L e shape : is_order L -> is_shape shape -> Forall (fun n => n < 2 ^ 64) shape ->
  reshape_view L None e shape =
  make_view L (lazy e) shape (strides_in L shape) 0 (x_layout e).
Proof.
  intros HL Hs Hb. unfold reshape_view, recalculate_shape. cbn [bind].
  rewrite compute_strides_ok by (cbn; rewrite ?repeat_length; auto). cbn [bind].
  rewrite to_size_t_shape by assumption. unfold strides_in. destruct HL as [-> | ->]; reflexivity.
Qed.

Lemma dot_rank L sh ix : is_order L -> in_bounds sh ix -> dot ix (strides_in L sh) = rank L sh ix.
Proof. intros [-> | ->] H; [apply dot_row|apply dot_col]; exact H. Qed.

Lemma rank_bound L sh ix : is_order L -> in_bounds sh ix -> 0 <= rank L sh ix < prod sh.
Proof. intros [-> | ->] H; [apply row_pos_bound|apply col_pos_bound]; exact H. Qed.

Lemma rank_inj L sh ix jx : is_order L -> in_bounds sh ix -> in_bounds sh jx -> rank L sh ix = rank L sh jx -> ix = jx.
Proof. intros [-> | ->]; [apply row_pos_inj|apply col_pos_inj]. Qed.

Lemma rank_onto L sh p : is_order L -> is_shape sh -> 0 <= p < prod sh -> exists ix, in_bounds sh ix /\ rank L sh ix = p.
Proof.
  intros [-> | ->] Hs Hp; [exists (row_unpos sh p); apply row_unpos_spec|exists (col_unpos sh p); apply col_unpos_spec]; assumption.
Qed.

Lemma rank_unique L sh sh' ix : is_order L -> is_shape sh' -> prod sh = prod sh' -> in_bounds sh ix ->
  exists! jx, in_bounds sh' jx /\ rank L sh ix = rank L sh' jx.
Proof.
  intros HL Hs Hp Hi. pose proof (rank_bound L sh ix HL Hi) as Hb. rewrite Hp in Hb.
  destruct (rank_onto L sh' _ HL Hs Hb) as (jx & Hj & E). exists jx. split; [split; [exact Hj|congruence]|].
  intros kx [Hk E']. eapply rank_inj; eauto. congruence.
Qed.

Lemma elements_lemma L e shape : is_order L -> is_shape (x_shape e) -> is_shape shape -> Forall (fun n => n < 2 ^ 64) shape ->
  prod shape = prod (x_shape e) ->
  exists v, reshape_view L None e shape = Ok v /\ rearranges L v shape (x_shape e).
Proof.
  intros HL He Hs Hb Hp. rewrite reshape_ok by assumption.
  pose proof (make_view_ok L (lazy e) shape (strides_in L shape) 0 (x_layout e) (strides_in_length L shape)) as Hv.
  eexists. split; [exact Hv|]. split; [reflexivity|]. split; [|split].
  - intros ix jx Hi Hj E. refine (view_reads L (lazy e) shape (strides_in L shape) 0 (x_layout e) _ ix jx _ _ _ Hv Hi Hj _).
    + split; [exact He|]. discriminate.
    + exact HL.
    + apply strides_in_length.
    + rewrite dot_rank by assumption. rewrite E. unfold get_offset, src_strides. cbn [lazy x_direct x_shape]. f_equal.
      symmetry. destruct HL as [-> | ->]; [apply dot_row|apply dot_col]; exact Hj.
  - intros ix Hi. apply rank_unique; auto.
  - intros jx Hj. destruct (rank_unique L (x_shape e) shape jx) as (ix & [Hi E] & U); auto.
    exists ix. split; [split; auto|]. intros kx [Hk E']. apply U. auto.
Qed.

(** The extent given as -1 *)
Lemma to_int_id x : - 2 ^ 31 <= x < 2 ^ 31 -> to_int x = x.
Proof. intros H. unfold to_int. rewrite Z.mod_small by lia. lia. Qed.

Lemma to_signed_id b x : 1 <= b -> - 2 ^ (b - 1) <= x < 2 ^ (b - 1) -> to_signed b x = x.
Proof.
  intros Hb H. unfold to_signed. assert (E : 2 ^ b = 2 * 2 ^ (b - 1)).
  { replace b with (Z.succ (b - 1)) at 1 by lia. rewrite Z.pow_succ_r by lia. reflexivity. }
  rewrite E, Z.mod_small by lia. lia.
Qed.

Lemma find_missing_ok pre post : Forall (fun n => 0 < n) pre -> find_missing (pre ++ -1 :: post) = Some (length pre).
Proof.
  intros H. induction H as [|n pre Hn H IH]; [reflexivity|]. cbn [app find_missing length].
  destruct (Z.eqb_spec n (-1)); [lia|]. rewrite IH. reflexivity.
Qed.

Lemma int_mul_ok a b : - 2 ^ 31 <= a < 2 ^ 31 -> - 2 ^ 31 <= b < 2 ^ 31 -> - 2 ^ 31 <= a * b < 2 ^ 31 -> int_mul a b = Ok (a * b).
Proof.
  intros Ha Hb Hp. unfold int_mul. rewrite !to_int_id by assumption.
  destruct (Z.leb_spec (- 2 ^ 31) (a * b)); [|lia]. destruct (Z.ltb_spec (a * b) (2 ^ 31)); [reflexivity|lia].
Qed.

Lemma accumulate_ok l : forall a, a = 1 \/ a = -1 \/ True -> Forall (fun n => 0 < n) l -> a <> 0 -> Z.abs a * prod l < 2 ^ 31 ->
  for_each (fun n acc => int_mul acc n) l a = Ok (a * prod l).
Proof.
  induction l as [|n l IH]; intros a _ Hl Ha Hp; cbn [for_each].
  - rewrite prod_nil. f_equal. ring.
  - apply Forall_cons_iff in Hl. destruct Hl as [Hn Hl]. rewrite prod_cons in Hp. pose proof (prod_pos l Hl) as Hpos.
    assert (B : Z.abs a * n < 2 ^ 31) by nia. assert (B1 : Z.abs a < 2 ^ 31) by nia. assert (B2 : n < 2 ^ 31) by nia.
    assert (B3 : Z.abs (a * n) < 2 ^ 31) by (rewrite Z.abs_mul, (Z.abs_eq n) by lia; exact B).
    rewrite int_mul_ok by lia. cbn [bind]. rewrite IH; [rewrite prod_cons; f_equal; ring|auto|assumption|nia|].
    rewrite Z.abs_mul, (Z.abs_eq n) by lia. nia.
Qed.

Lemma wr_mid {A} (pre : list A) x y post : wr (pre ++ x :: post) (length pre) y = Ok (pre ++ y :: post).
Proof.
  rewrite wr_ok by (rewrite app_length; cbn; lia). f_equal.
  induction pre as [|a pre IH]; [reflexivity|]. cbn. f_equal. exact IH.
Qed.

Lemma missing_lemma L b e pre post m :
  1 <= b -> Forall (fun n => 0 < n) pre -> Forall (fun n => 0 < n) post -> prod (pre ++ post) < 2 ^ 31 ->
  0 <= m < 2 ^ (b - 1) -> prod (pre ++ m :: post) = prod (x_shape e) ->
  reshape_view L (Some b) e (pre ++ -1 :: post) = reshape_view L None e (pre ++ m :: post).
Proof.
  intros Hb H1 H2 Hlim Hm Hp. unfold reshape_view, recalculate_shape, recalculate_shape_signed.
  rewrite find_missing_ok by assumption. pose proof (prod_pos pre H1) as P1. pose proof (prod_pos post H2) as P2.
  rewrite prod_app in Hlim. rewrite prod_app, prod_cons in Hp.
  rewrite for_each_app. rewrite accumulate_ok by (auto; try lia; nia). cbn [bind for_each].
  rewrite int_mul_ok by nia. cbn [bind].
  rewrite accumulate_ok by (auto; try nia). cbn [bind].
  replace (-1 * prod pre * -1 * prod post) with (prod pre * prod post) by ring.
  rewrite to_size_t_id by (split; [nia|lia]). destruct (Z.eqb_spec (prod pre * prod post) 0); [nia|].
  rewrite compute_size_prod, <- Hp. replace (prod pre * (m * prod post)) with (m * (prod pre * prod post)) by ring.
  rewrite Z.div_mul by assumption. rewrite to_signed_id by lia. rewrite wr_mid. reflexivity.
Qed.

(** Access by position *)
Lemma reshape_storage L e shape v p jx : is_order L -> is_shape (x_shape e) -> is_shape shape -> Forall (fun n => n < 2 ^ 64) shape ->
  reshape_view L None e shape = Ok v -> in_bounds (x_shape e) jx -> rank L (x_shape e) jx = p ->
  storage_at (w_flat v) (w_base v) p = Ok (Elem jx).
Proof.
  intros HL He Hs Hb E Hj <-. rewrite reshape_ok in E by assumption. rewrite make_view_ok in E by apply strides_in_length.
  injection E as <-. cbn [w_flat w_base].
  refine (storage_elem L (lazy e) jx _ (conj He _) HL Hj _); [discriminate|].
  unfold get_offset, src_strides. cbn [lazy x_direct x_shape].
  destruct HL as [-> | ->]; [rewrite dot_row by exact Hj|rewrite dot_col by exact Hj]; reflexivity.
Qed.

Lemma position_lemma L e shape v k jx : is_order L -> is_shape (x_shape e) -> is_shape shape -> Forall (fun n => n < 2 ^ 64) shape ->
  reshape_view L None e shape = Ok v -> in_bounds (x_shape e) jx -> rank L (x_shape e) jx = Z.of_nat k ->
  w_flat_at v (Z.of_nat k) = Ok (Elem jx) /\ forward v k = Ok (Elem jx).
Proof.
  intros HL He Hs Hb E Hj Hk. pose proof (reshape_storage L e shape v _ jx HL He Hs Hb E Hj Hk) as R.
  split; [exact R|]. pose proof (rank_bound L _ _ HL Hj) as B.
  rewrite reshape_ok in E by assumption. rewrite make_view_ok in E by apply strides_in_length. injection E as <-.
  unfold forward, linear_at, linear_begin. cbn [w_offset w_base lazy x_direct x_shape orb]. rewrite Z.add_0_l, compute_size_prod.
  destruct (Z.ltb_spec (Z.of_nat k) 0); [lia|]. destruct (Z.ltb_spec (Z.of_nat k) (prod (x_shape e))); [exact R|lia].
Qed.

Lemma size_lemma L e shape v : is_order L -> is_shape shape -> Forall (fun n => n < 2 ^ 64) shape ->
  reshape_view L None e shape = Ok v -> linear_end v - linear_begin v = prod shape.
Proof.
  intros HL Hs Hb E. rewrite reshape_ok in E by assumption. rewrite make_view_ok in E by apply strides_in_length. injection E as <-.
  unfold linear_end, linear_begin. cbn [w_offset w_shape]. rewrite compute_size_prod. lia.
Qed.

Lemma backward_lemma L e shape v : is_order L -> is_shape shape -> Forall (fun n => n < 2 ^ 64) shape ->
  reshape_view L None e shape = Ok v -> 0 < prod shape ->
  forall k, backward v k = UB /\ linear_rbegin v - Z.of_nat k <> linear_rend v.
Proof.
  intros HL Hs Hb E Hp k. rewrite reshape_ok in E by assumption. rewrite make_view_ok in E by apply strides_in_length. injection E as <-.
  unfold backward, reverse_at, linear_at, linear_rbegin, linear_rend, linear_begin, linear_end. cbn [w_offset w_shape].
  rewrite !compute_size_prod. split; [|lia]. destruct (Z.ltb_spec (0 - Z.of_nat k - 1) 0); [reflexivity|lia].
Qed.

(** ravel *)
Lemma ravel_stride n i : 0 <= i < n ->
  exists st, compute_strides dynamic [n] row_major [0] None = Ok (st, None, n) /\ data_offset st [i] false = Ok i.
Proof.
  intros H. rewrite compute_strides_ok by (cbn; auto). eexists. split; [cbn [some_bs]; repeat f_equal; unfold prod; cbn; lia|].
  rewrite data_offset_ok. cbn [layout_eqb orb]. unfold pad_args. rewrite row_strides_length. cbn [length Nat.leb Nat.ltb Nat.sub repeat app skipn].
  f_equal.
  change (dot [i] (row_strides [n]) = i). rewrite (dot_row [n] [i]) by (constructor; [lia|constructor]). cbn. rewrite prod_nil. ring.
Qed.

Lemma ravel_lemma {V} (L : layout) (sh : list Z) (e : sexp V) ix :
  is_order L -> operands_ok sh e -> sh = [] \/ reversible L e -> in_bounds sh ix ->
  ravel_at sh L e (rank L sh ix) = x_value ix e.
Proof.
  intros HL Ho Hr Hi. pose proof (rank_bound L sh ix HL Hi) as B. unfold ravel_at. rewrite compute_size_prod.
  destruct (ravel_stride (prod sh) (rank L sh ix) B) as (st & E1 & E2). rewrite E1. cbn [bind]. rewrite E2. cbn [bind].
  destruct (random_access_lemma L sh e HL (in_bounds_pos _ _ Hi) Ho Hr) as (b & en & Eb & _ & H). rewrite Eb. cbn [bind].
  destruct (H false false [MAdd (rank L sh ix)] []) as (it1 & it2 & M1 & _ & D & _).
  - cbn [stays moved]. split; [lia|exact I].
  - exact I.
  - cbn [do_moves do_move] in M1. destruct (it_add (x_ops sh e) sh L b (rank L sh ix)) as [it| |] eqn:Ei; cbn [bind] in M1; try discriminate.
    injection M1 as ->. cbn [bind]. apply D; [exact Hi|]. reflexivity.
Qed.

Lemma missing_twice_lemma : forall (L : layout) (e : xexp), is_order L -> 0 <= compute_size (x_shape e) < 2 ^ 64 - 1 ->
  exists v, reshape_view L (Some 64) e [-1; -1] = Ok v /\ w_shape v = [0; 2 ^ 64 - 1].
Proof.
  intros L e HL Hs. unfold reshape_view.
  assert (E : recalculate_shape (Some 64) [-1; -1] (compute_size (x_shape e)) = Ok [0; -1]).
  { unfold recalculate_shape, recalculate_shape_signed. cbn [find_missing Z.eqb]. change (for_each (fun n acc => int_mul acc n) [-1; -1] (-1)) with (Ok (-1)). cbn [bind].
    change (to_size_t (-1)) with (2 ^ 64 - 1). change (2 ^ 64 - 1 =? 0) with false. cbn iota. rewrite Z.div_small by exact Hs. reflexivity. }
  rewrite E. cbn [bind]. destruct HL as [ -> | -> ]; eexists; (split; [vm_compute; reflexivity|reflexivity]).
Qed.
