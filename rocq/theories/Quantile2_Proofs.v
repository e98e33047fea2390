(** Proofs about quantile: operands and evaluation. *)
From Coq Require Import List ZArith Bool Lia QArith Qcanon Qround Permutation Sorted.
From Verif Require Import Prelude PreludeFacts Strides_Model Strides_Spec Strides_Proofs Access_Model Broadcast_Model Broadcast_Spec Container_Model Container_Spec Container_Proofs
  SView_Model SView_Spec Stepper_Model Stepper_Spec Stepper_Proofs Semantic3_Proofs Reshape_Model Reduce_Model Reduce_Spec Reduce4_Proofs Reduce5_Proofs Reduce9_Proofs Reduce13_Proofs
  Manip_Model Sort_Model Sort_Spec Stats_Model Stats_Spec Stats_Proofs Quantile_Model Quantile_Proofs.
Import ListNotations.
Open Scope Z_scope.

Lemma shape_mid a m b : is_shape a -> 0 <= m -> is_shape b -> is_shape (a ++ m :: b).
Proof. intros. apply Forall_app. split; [assumption|]. constructor; assumption. Qed.
Lemma seqM_map {A B} (f : A -> res B) (g : A -> B) l : (forall x, In x l -> f x = Ok (g x)) -> seqM (map f l) = Ok (map g l).
Proof.
  intros H. rewrite <- seqM_ok, map_map. f_equal. apply map_ext_in. exact H.
Qed.

(** ** eval *)
Lemma evaluated_lemma T r w : is_order T -> is_shape (q_shape r) -> q_shape r <> [] -> (forall ix, in_bounds (q_shape r) ix -> q_at r ix = Ok (w ix)) ->
  exists c, evaluated T r = Ok c /\ consistent c /\ ct_shape c = q_shape r /\ ct_layout c = T /\ forall ix, in_bounds (q_shape r) ix -> elt c ix = Ok (w ix).
Proof.
  intros HT Hs Hne Hw. unfold evaluated. set (sh := q_shape r) in *.
  rewrite (seqM_map _ w).
  2:{ intros ix Hi. apply Hw. apply In_nth_error in Hi as (p & Hp). destruct HT as [ -> | -> ]; cbn [indices_of] in Hp.
      - apply row_indices_in. apply (nth_error_In _ _ Hp).
      - apply nth_error_In, in_map_iff in Hp as (jx & <- & Hj). apply row_indices_in, in_bounds_rev in Hj. rewrite rev_involutive in Hj. exact Hj. }
  cbn [bind]. set (vals := map w (indices_of T sh)).
  set (rs := fun (_ : list num) m => firstn (Z.to_nat m) (vals ++ repeat None (Z.to_nat m))).
  assert (Hrs : forall d n, 0 <= n -> Z.of_nat (length (rs d n)) = n).
  { intros d n Hn. unfold rs. rewrite firstn_length, app_length, repeat_length. lia. }
  assert (El : layout_eqb T dynamic = false) by (destruct HT as [ -> | -> ]; reflexivity).
  destruct (resize_lemma num T T rs (c_default T 0 None) sh true Hrs) as (c & E & Hc & Es & _ & Hl).
  { unfold consistent. cbn. split; [constructor|]. split; [reflexivity|]. split; [reflexivity|]. split; [reflexivity|]. exists T. split; [exact HT|]. split; [reflexivity|]. intros ix Hi. inversion Hi. destruct HT as [ -> | -> ]; reflexivity. }
  { intros _. reflexivity. }
  { exact Hs. }
  assert (Ef : c_resize T T rs (c_default T 0 None) sh false = Ok c).
  { unfold c_resize in *. rewrite orb_true_r in E. cbn [ct_shape c_default repeat] in *. destruct (Slice_Model.zlist_eqb sh []) eqn:Z; [|exact E]. exfalso. destruct sh; [congruence|discriminate Z]. }
  exists c. split; [exact Ef|]. split; [exact Hc|]. split; [exact Es|]. assert (El' : ct_layout c = T) by exact (Hl HT). split; [exact El'|].
  pose proof (indices_of_length T sh HT Hs) as Hlen. destruct Hc as (_ & _ & _ & Hd & l & _ & Hll & Ho). rewrite El' in Hll. specialize (Hll HT). subst l.
  assert (Ed : ct_data c = vals).
  { unfold c_resize in E. rewrite orb_true_r in E. destruct (compute_strides _ _ _ _ _) as [[[st bs] ds]| |]; try discriminate. cbn [bind] in E. destruct bs as [bs|]; [|discriminate].
    injection E as <-. cbn [ct_data ct_shape] in *. unfold rs in *. rewrite firstn_length, app_length, repeat_length in Hd. cbn [c_default ct_data].
    assert (Lv : Z.of_nat (length vals) = prod sh) by (unfold vals; rewrite map_length; exact Hlen).
    replace (Z.to_nat ds) with (length vals) by lia. rewrite firstn_app, Nat.sub_diag, firstn_O, app_nil_r. apply firstn_all. }
  intros ix Hi. unfold elt. rewrite Ho by (rewrite Es; exact Hi). rewrite Es, Ed. apply rdz_ok.
  - destruct HT as [ -> | -> ]; [apply row_pos_bound|apply col_pos_bound]; exact Hi.
  - unfold vals. rewrite nth_error_map. pose proof (indices_of_nth T sh ix HT Hi) as G. replace (rank T sh ix) with (order_pos T sh ix) by (destruct HT as [ -> | -> ]; reflexivity).
    rewrite G. reflexivity.
Qed.

(** ** fancy_indexing *)
Section Fancy.
Variables (pre post : list Z) (n : Z) (ks : list Z) (part : cont Qc) (ev : list Z -> Qc).
Hypothesis (Hpre : is_shape pre) (Hpost : is_shape post) (Hn : 0 <= n) (Hb1 : Forall (fun d => d < 2 ^ 64) pre) (Hb2 : Forall (fun d => d < 2 ^ 64) post).
Hypothesis Hpart : array part (pre ++ n :: post) ev.
Hypothesis Hks : Forall (fun k => 0 <= k < n) ks.
Hypothesis Hlk : Z.of_nat (length ks) < 2 ^ 64.
Let ax := length pre.
Let m := Z.of_nat (length ks).
Let kshape := pre ++ m :: post.

Lemma pick_bounds ix : in_bounds kshape ix -> in_bounds (pre ++ n :: post) (pick ks ax ix).
Proof.
  intros H. destruct (split_bounds _ _ _ _ H) as (x & i & y & -> & Lx & _ & Hx & Hi & Hy). unfold pick, ax. rewrite <- Lx, nth_mid, upd_mid.
  apply join_bounds; [exact Hx| |exact Hy]. rewrite Forall_forall in Hks. apply Hks, nth_In. unfold m in Hi. lia.
Qed.

Lemma fancy_lemma : exists c b, fancy_indexing row_major part ks (Z.of_nat ax) = Ok (kshape, XStrided c b) /\ k_shape c = kshape /\ strided_ok c /\
  forall ix, in_bounds kshape ix -> x_value ix (XStrided c b) = Ok (Some (ev (pick ks ax ix))).
Proof.
  destruct Hpart as (Hc & Es & He). unfold fancy_indexing. rewrite Es. unfold ax. rewrite wrz_mid. cbn [bind]. rewrite Nat2Z.id, select_indices_ok. cbn [bind].
  fold m kshape ax. set (sel := map (pick ks ax) (row_indices kshape)).
  assert (Hk : is_shape kshape) by (apply shape_mid; [assumption|unfold m; lia|assumption]).
  assert (Hl : Z.of_nat (length sel) = prod kshape) by (unfold sel; rewrite map_length; apply row_indices_length; exact Hk).
  set (w := fun jx : list Z => Some (ev (nth (Z.to_nat (hd 0 jx)) sel [])) : num).
  destruct (operand_lemma row_major (Some 64) [Z.of_nat (length sel)] kshape
    (at_one (fun i => let* ix := rdz sel i in let* x := elt part ix in Ok (Some x))) w) as (v & c & b & E & E2 & Ec & Hok & Hr).
  { left; reflexivity. }
  { constructor; [lia|constructor]. }
  { exact Hk. }
  { apply Forall_app. split; [assumption|]. constructor; [exact Hlk|assumption]. }
  { rewrite prod_cons, prod_nil. lia. }
  { intros jx Hj. inversion Hj as [|? i ? t Hi Ht]; subst. inversion Ht; subst. cbn [at_one].
    assert (Hs : nth_error sel (Z.to_nat i) = Some (nth (Z.to_nat i) sel [])) by (apply nth_error_nth'; lia).
    assert (E0 : 0 <= i) by lia. rewrite (rdz_ok _ _ _ E0 Hs). cbn [bind].
    assert (Hin : In (nth (Z.to_nat i) sel []) sel) by (apply nth_In; lia). unfold sel in Hin at 2. apply in_map_iff in Hin as (jx & Ej & Hin).
    apply row_indices_in, pick_bounds in Hin. rewrite Ej in Hin. rewrite (He _ Hin). reflexivity. }
  rewrite E. cbn [bind]. rewrite E2. cbn [bind]. exists c, b. split; [reflexivity|]. split; [exact Ec|]. split; [exact Hok|].
  intros ix Hi. cbn [x_value]. rewrite Ec, bc_index_self by exact Hi. pose proof (row_pos_bound _ _ Hi) as Hp.
  rewrite (Hr ix [row_pos kshape ix]); [|exact Hi|constructor; [rewrite Hl; exact Hp|constructor]|cbn [rank row_pos]; rewrite prod_nil; ring]. f_equal. unfold w. cbn [hd]. f_equal. f_equal.
  unfold sel. apply nth_error_nth. rewrite nth_error_map, row_indices_nth by exact Hi. reflexivity.
Qed.

(** The coefficients *)
Variable gs : list Qc.
Hypothesis Hg : length gs = length ks.
Let gshape := repeat 1 (length pre) ++ m :: repeat 1 (length post).

Lemma zero_unit_mid x i y : length x = length pre -> length y = length post -> 0 <= i < m -> zero_unit gshape (x ++ i :: y) = repeat 0 (length pre) ++ i :: repeat 0 (length post).
Proof.
  unfold gshape. intros Hx Hy Hi. rewrite <- Hx, <- Hy. clear - Hi. induction x as [|d x IH]; cbn [length repeat app zero_unit].
  - destruct (Z.eqb_spec m 1); f_equal; try lia; clear; (induction y as [|d y IH]; [reflexivity|]; cbn; f_equal; exact IH).
  - cbn. f_equal. exact IH.
Qed.
Lemma unit_shape k : is_shape (repeat 1 k).
Proof. induction k; constructor; [lia|assumption]. Qed.
Lemma unit_prod k : prod (repeat 1 k) = 1.
Proof. induction k; cbn [repeat]; [reflexivity|]. rewrite prod_cons, IHk. reflexivity. Qed.
Lemma unit_bounds k : in_bounds (repeat 1 k) (repeat 0 k).
Proof. induction k; cbn; constructor; [lia|assumption]. Qed.

Lemma coefficients_lemma : exists v c b, reshape_view row_major (Some 64) (mk_xexp false [Z.of_nat (length gs)] [] 0 row_major) gshape = Ok v /\
  view_operand v (at_one (rdz (map Some gs))) = Ok (XStrided c b) /\ fits (k_shape c) kshape /\ strided_ok c /\
  forall ix, in_bounds kshape ix -> x_value ix (XStrided c b) = Ok (Some (nth (Z.to_nat (nth ax ix 0)) gs 0%Qc)).
Proof.
  rewrite Hg. fold m.
  destruct (operand_lemma row_major (Some 64) [m] gshape (at_one (rdz (map Some gs))) (fun jx => Some (nth (Z.to_nat (hd 0 jx)) gs 0%Qc) : num)) as (v & c & b & E & E2 & Ec & Hok & Hr).
  { left; reflexivity. }
  { constructor; [unfold m; lia|constructor]. }
  { apply shape_mid; [apply unit_shape|unfold m; lia|apply unit_shape]. }
  { assert (U : forall k, Forall (fun d => d < 2 ^ 64) (repeat 1 k)) by (induction k; constructor; [lia|assumption]). apply Forall_app. split; [apply U|]. constructor; [exact Hlk|apply U]. }
  { unfold gshape. rewrite prod_app, !prod_cons, !unit_prod, prod_nil. lia. }
  { intros jx Hj. inversion Hj as [|? i ? t Hi Ht]; subst. inversion Ht; subst. cbn [at_one hd]. apply rdz_ok; [lia|]. rewrite nth_error_map.
    rewrite (nth_error_nth' _ 0%Qc) by (unfold m in Hi; lia). reflexivity. }
  exists v, c, b. split; [exact E|]. split; [exact E2|]. split; [|split; [exact Hok|]].
  - rewrite Ec. apply wider_fits. unfold gshape, kshape. apply Forall2_app.
    + clear. induction pre; constructor; [left; reflexivity|assumption].
    + constructor; [right; reflexivity|]. clear. induction post; constructor; [left; reflexivity|assumption].
  - intros ix Hi. destruct (split_bounds _ _ _ _ Hi) as (x & i & y & -> & Lx & Ly & Hx & Hi' & Hy). cbn [x_value]. rewrite Ec. unfold bc_index.
    replace (length (x ++ i :: y) - length gshape)%nat with 0%nat by (unfold gshape; rewrite !app_length; cbn [length]; rewrite !repeat_length; lia). cbn [skipn].
    rewrite zero_unit_mid by assumption. rewrite (Hr _ [i]).
    + unfold ax. rewrite <- Lx, nth_mid. reflexivity.
    + apply join_bounds; [apply unit_bounds|exact Hi'|apply unit_bounds].
    + constructor; [exact Hi'|constructor].
    + cbn [rank]. unfold gshape. rewrite row_pos_app by (rewrite !repeat_length; reflexivity). cbn [row_pos].
      rewrite !unit_pos by (intros d Hd; apply repeat_spec in Hd; exact Hd). rewrite unit_prod, prod_nil. lia.
Qed.
End Fancy.
