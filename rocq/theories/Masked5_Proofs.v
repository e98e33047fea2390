From Coq Require Import List ZArith Lia Bool Arith.
From Verif Require Import Prelude PreludeFacts Strides_Model Strides_Spec Broadcast_Model Broadcast_Spec Broadcast2_Proofs Slice_Model Stepper_Model Stepper_Spec Stepper4_Proofs Container_Model Container_Spec
  Assign_Model Assign_Spec Semantic_Model Semantic_Spec Semantic3_Proofs Semantic5_Proofs Reduce_Spec Functor_Model Functor_Spec Functor_Proofs Functor2_Proofs Functor4_Proofs
  Masked_Model Masked_Spec Masked_Proofs Masked2_Proofs Masked3_Proofs Masked4_Proofs.
Import ListNotations.
Open Scope Z_scope.

(** ** Compound assignments *)
Section Compound.
  Context {V : Type} (hide : V -> V -> V * bool) (d : V) (k : mview V) (mem : list V) (mm : list bool) (v : Z -> V) (u : Z -> bool).
  Hypothesis Hk : assignable mem mm k.
  Hypothesis Hv : contents mem v.
  Hypothesis Hu : contents mm u.

  Lemma self_in_step e f : in_step mem mm k e -> in_step mem mm k (MX_fun f (MX_view k) e).
  Proof.
    intros He. split; [|exact He]. cbn. destruct Hk as (H1 & H2 & H3). split; [exact H1|]. split; [apply (own_aligned k mem mm Hk)|exact H3].
  Qed.
  Lemma self_flags e f : flags_in_step k e -> flags_in_step k (MX_fun f (MX_view k) e).
  Proof.
    intros He. split; [|exact He]. cbn. destruct (mv_mask k) as [c|p c] eqn:E; [|exact I]. intros ix Hb. left. unfold flag_place. rewrite E. reflexivity.
  Qed.
  Lemma self_value e f ix : in_bounds (mv_shape k) ix -> visible v u k ix = true ->
    mx_value v u (MX_fun f (MX_view k) e) ix = match mx_value v u e ix with Some y => Some (f (v (position (mv_data k) ix)) y) | None => None end.
  Proof. intros Hb Hvx. cbn [mx_value]. rewrite (bc_index_self (mv_shape k) ix Hb), Hvx. reflexivity. Qed.

  Lemma compound_ok L f e : is_order L -> real_shape (mv_shape k) -> Forall real_shape (mx_shapes e) ->
    (forall t, In t (mx_shapes e) -> fits t (mv_shape k)) -> in_step mem mm k e ->
    (forall ix, in_bounds (mv_shape k) ix -> visible v u k ix = true -> mx_value v u e ix <> None) \/ (own_flags k /\ flags_in_step k e) ->
    exists mem' mm', mv_assign_op hide d L f k e (mem, mm) = Ok (mem', mm') /\
      mv_assigned k v u (fun ix => match mx_value v u e ix with Some y => Some (f (v (position (mv_data k) ix)) y) | None => None end) mem mm mem' mm'.
  Proof.
    intros HL Hsh Hr Hf He Hp. unfold mv_assign_op.
    assert (Hshapes : mx_shapes (MX_fun f (MX_view k) e) = mv_shape k :: mx_shapes e) by (unfold mx_shapes; cbn [mx_expr leaves flat_map]; rewrite app_nil_r; reflexivity).
    assert (Hf' : forall t, In t (mx_shapes (MX_fun f (MX_view k) e)) -> fits t (mv_shape k)).
    { rewrite Hshapes. intros t [<-|Ht]; [apply fits_self|apply Hf; exact Ht]. }
    rewrite (proj1 (mv_assign_shape hide d L k _ (mem, mm) Hsh ltac:(rewrite Hshapes; constructor; assumption)) Hf').
    destruct (mv_store_ok hide d k mem mm v u Hk Hv Hu L _ HL Hf' (self_in_step e f He)) as (mem' & mm' & E & A).
    { destruct Hp as [Hp|[Hp1 Hp2]]; [left|right; split; [exact Hp1|apply self_flags; exact Hp2]].
      intros ix Hb Hvx. rewrite self_value by assumption. specialize (Hp ix Hb Hvx). destruct (mx_value v u e ix); congruence. }
    exists mem', mm'. split; [exact E|]. destruct A as (A1 & A2 & A3 & A4 & A5). split; [exact A1|]. split; [exact A2|]. split; [|split; [exact A4|]].
    - intros ix x Hb Hvx Ex. apply A3; auto. rewrite self_value by assumption. exact Ex.
    - intros q Hq. apply A5. intros ix Hw Hb Hvx Ex. apply Hq; auto. rewrite self_value in Ex by assumption. exact Ex.
  Qed.
End Compound.

Lemma no_flag_change {V} (k : mview V) v u g mem mm mem' mm' :
  (forall ix, in_bounds (mv_shape k) ix -> visible v u k ix = true -> g ix <> None) -> mv_assigned k v u g mem mm mem' mm' -> mm' = mm.
Proof.
  intros Hg (_ & A2 & _ & _ & A5). apply list_ext_rdz; [exact A2|]. intros q. apply A5. intros ix _ Hb Hvx E. exfalso. exact (Hg ix Hb Hvx E).
Qed.

(** ** Cases *)

Definition hid (_ x : Z) : Z * bool := (x, false).
Definition at_flags (l : list bool) (p : Z) : bool := nth (Z.to_nat p) l false.
Lemma flags_contents l : contents l (at_flags l).
Proof. intros p Hp. apply rdz_ok; [lia|]. unfold at_flags. apply nth_error_nth'. lia. Qed.

(** A vector with a mask of its own *)
Definition mv3 : mview Z := mk_mview all3 (Stored all3).
Lemma shape3 : is_shape [3]. Proof. repeat (apply Forall_cons; [lia|]). constructor. Qed.
Lemma mv3_usable (mem : list Z) mm : length mem = 3%nat -> length mm = 3%nat -> usable mem mm mv3.
Proof. intros E1 E2. split; [exact shape3|]. split; [apply all3_readable; exact E1|]. split; [apply fits_self|]. apply all3_readable. exact E2. Qed.
Lemma mv3_assignable (mem : list Z) mm : length mem = 3%nat -> length mm = 3%nat -> assignable mem mm mv3.
Proof. intros E1 E2. split; [apply mv3_usable; assumption|]. split; [apply all3_writable_z; exact E1|exact I]. Qed.
Lemma mv3_own : own_flags mv3.
Proof.
  intros ix jx Hi Hj E. unfold flag_place in E. cbn [mv_mask mv3 mask_cont] in E. rewrite !bc_index_self in E by assumption.
  destruct all3_writable as (_ & _ & _ & W). apply W in E; assumption.
Qed.
(** A vector whose positive elements are visible: masked_view(x, x > 0); with a mask that reads the reversed vector *)
Definition pos3 : mview Z := mk_mview all3 (Lazy (Z.ltb 0) all3).
Definition odd3 : mview Z := mk_mview all3 (Lazy (Z.ltb 0) rev3).
Lemma all3_aligned (mem : list Z) : length mem = 3%nat -> aligned all3 mem all3.
Proof. intros E. split; [apply all3_readable; exact E|]. intros ix Hb. left. rewrite bc_index_self by exact Hb. reflexivity. Qed.
Lemma pos3_assignable (mem : list Z) mm : length mem = 3%nat -> assignable mem mm pos3.
Proof.
  intros E. split; [|split; [apply all3_writable_z; exact E|apply all3_aligned; exact E]].
  split; [exact shape3|]. split; [apply all3_readable; exact E|]. split; [apply fits_self|]. apply all3_readable. exact E.
Qed.
Lemma odd3_usable (mem : list Z) mm : length mem = 3%nat -> usable mem mm odd3.
Proof. intros E. split; [exact shape3|]. split; [apply all3_readable; exact E|]. split; [apply fits_self|]. apply rev3_readable. exact E. Qed.
(** The reversed vector behind the mask *)
Definition rmv3 : mview Z := mk_mview rev3 (Stored all3).
Lemma rmv3_usable (mem : list Z) mm : length mem = 3%nat -> length mm = 3%nat -> usable mem mm rmv3.
Proof. intros E1 E2. split; [exact shape3|]. split; [apply rev3_readable; exact E1|]. split; [apply fits_self|]. apply all3_readable. exact E2. Qed.

(** Two rows of three, with one mask for both rows *)
Definition two3 : container := mk_container [2; 3] [3; 1] [3; 2] 0.
Definition rows : mview Z := mk_mview two3 (Stored all3).
Lemma two3_writable (mem : list Z) : length mem = 6%nat -> writable two3 mem.
Proof.
  intros E. split; [repeat (apply Forall_cons; [lia|]); constructor|]. split; [|split].
  - split; [reflexivity|]. split; [reflexivity|]. intros [|[|j]] Hj; cbn in *; try lia; split; lia.
  - intros ix Hb. apply in2 in Hb. destruct Hb as (i & j & -> & Hi & Hj). rewrite E. unfold position. cbn. lia.
  - intros ix jx H1 H2. apply in2 in H1. apply in2 in H2. destruct H1 as (i & j & -> & Hi & Hj), H2 as (k & l & -> & Hk & Hl). unfold position. cbn. intros X. f_equal; [|f_equal]; lia.
Qed.
Lemma fits_row : fits [3] [2; 3].
Proof. split; [cbn; lia|]. intros [|[|k]]; [right|left|left]; reflexivity. Qed.
Lemma rows_assignable (mem : list Z) mm : length mem = 6%nat -> length mm = 3%nat -> assignable mem mm rows.
Proof.
  intros E1 E2. pose proof (two3_writable mem E1) as W. split; [|split; [exact W|exact I]].
  split; [apply W|]. split; [split; apply W|]. split; [exact fits_row|]. apply all3_readable. exact E2.
Qed.
(** A mask with more columns than the data *)
Definition two2 : container := mk_container [2; 2] [2; 1] [2; 1] 0.
Definition wide : mview Z := mk_mview two2 (Stored two3).
Lemma two2_writable (mem : list Z) : length mem = 4%nat -> writable two2 mem.
Proof.
  intros E. split; [repeat (apply Forall_cons; [lia|]); constructor|]. split; [|split].
  - split; [reflexivity|]. split; [reflexivity|]. intros [|[|j]] Hj; cbn in *; try lia; split; lia.
  - intros ix Hb. apply in2 in Hb. destruct Hb as (i & j & -> & Hi & Hj). rewrite E. unfold position. cbn. lia.
  - intros ix jx H1 H2. apply in2 in H1. apply in2 in H2. destruct H1 as (i & j & -> & Hi & Hj), H2 as (k & l & -> & Hk & Hl). unfold position. cbn. intros X. f_equal; [|f_equal]; lia.
Qed.
(** A masked vector of another length *)
Definition all1 : container := mk_container [1] [0] [0] 2.
Definition mv1 : mview Z := mk_mview all1 (Stored all1).
Lemma mv1_usable (mem : list Z) mm : length mem = 3%nat -> length mm = 3%nat -> usable mem mm mv1.
Proof.
  intros E1 E2. assert (R : forall T (l : list T), length l = 3%nat -> readable l all1).
  { intros T l E. split.
    - split; [reflexivity|]. split; [reflexivity|]. intros [|j] Hj; cbn in *; [|lia]. split; reflexivity.
    - intros ix Hb. apply in1 in Hb. destruct Hb as (i & -> & Hi). rewrite E. unfold position. cbn. lia. }
  split; [repeat (apply Forall_cons; [lia|]); constructor|]. split; [apply R; exact E1|]. split; [apply fits_self|]. apply R. exact E2.
Qed.
Lemma mv1_assignable (mem : list Z) mm : length mem = 3%nat -> length mm = 3%nat -> assignable mem mm mv1.
Proof.
  intros E1 E2. pose proof (mv1_usable mem mm E1 E2) as U. split; [exact U|]. split; [|exact I]. destruct U as (U1 & (U2 & U3) & _).
  split; [exact U1|]. split; [exact U2|]. split; [exact U3|]. intros ix jx Hi Hj _. apply in1 in Hi. apply in1 in Hj.
  destruct Hi as (i & -> & Hi), Hj as (j & -> & Hj). f_equal. lia.
Qed.
(** A vector repeated in two rows *)
Definition rep3 : container := mk_container [2; 3] [0; 1] [0; 2] 0.
Definition mrep3 : mview Z := mk_mview rep3 (Stored all3).
Lemma mrep3_usable (mem : list Z) mm : length mem = 3%nat -> length mm = 3%nat -> usable mem mm mrep3.
Proof.
  intros E1 E2. split; [repeat (apply Forall_cons; [lia|]); constructor|]. split; [|split; [exact fits_row|apply all3_readable; exact E2]]. split.
  - split; [reflexivity|]. split; [reflexivity|]. intros [|[|j]] Hj; cbn in *; [| |lia]; split; (reflexivity || lia).
  - intros ix Hb. apply in2 in Hb. destruct Hb as (i & j & -> & Hi & Hj). rewrite E1. unfold position. cbn. lia.
Qed.
