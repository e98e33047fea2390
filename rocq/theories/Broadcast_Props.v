(** Properties C07-C09, C32, C33: broadcasting. *)
From Coq Require Import List ZArith.
From Verif Require Import Prelude Strides_Model Strides_Spec Broadcast_Model Broadcast_Spec
  Broadcast_Proofs Broadcast2_Proofs.
Import ListNotations.
Open Scope Z_scope.

(** C07. The shape of an expression with any number of operands, nested in any
    way, is the common shape of its leaves; it throws exactly when they are
    incompatible. *)
Theorem C07_broadcast_shape :
  forall e : expr, real_expr e ->
  (compatible (leaves e) ->
     exists out t, expr_shape e = Ok (out, t) /\ broadcast_of (leaves e) out) /\
  (~ compatible (leaves e) -> expr_shape e = Throw broadcast_error).
Proof. exact broadcast_expr_lemma. Qed.
Print Assumptions C07_broadcast_shape.

(** C07. The specification determines the shape, from the set of shapes alone. *)
Theorem C07_common_shape_unique :
  forall ss ss' o o', (forall s, In s ss <-> In s ss') ->
  broadcast_of ss o -> broadcast_of ss' o' -> o = o'.
Proof. exact broadcast_of_unique. Qed.
Print Assumptions C07_common_shape_unique.

(** C07. Neither order, nesting nor repetition of the operands matters. *)
Theorem C07_order_independent :
  forall e1 e2 : expr, real_expr e1 -> real_expr e2 ->
  (forall s, In s (leaves e1) <-> In s (leaves e2)) ->
  expr_shape e1 = expr_shape e2.
Proof. exact order_lemma. Qed.
Print Assumptions C07_order_independent.

Example C07_case :
  expr_shape (EFun [ELeaf [3;1]; EFun [EScalar; ELeaf [1;4]]; ELeaf [4]]) = Ok ([3;4], false)
  /\ expr_shape (EFun [ELeaf [3;1]; ELeaf [2;4]]) = Throw broadcast_error
  /\ real_expr (EFun [ELeaf [3;1]; ELeaf [2;4]]).
Proof. repeat split; try reflexivity. repeat constructor; discriminate. Qed.

(** C08. The "trivial broadcast" flag, which enables flat-index assignment, is
    set exactly when every non-scalar leaf already has the result shape. *)
Theorem C08_trivial_broadcast_exact :
  forall (e : expr) (out : list Z) (t : bool),
  real_expr e -> expr_shape e = Ok (out, t) ->
  (t = true <-> forall s, In s (leaves e) -> s = out).
Proof. exact trivial_lemma. Qed.
Print Assumptions C08_trivial_broadcast_exact.

Example C08_case :
  expr_shape (EFun [ELeaf [1;1]; ELeaf [2;2]]) = Ok ([2;2], false)
  /\ expr_shape (EFun [ELeaf [2;2]; EScalar; ELeaf [2;2]]) = Ok ([2;2], true)
  /\ expr_shape (EFun [ELeaf [2;2]; ELeaf [2]]) = Ok ([2;2], false).
Proof. repeat split. Qed.

(** C09. broadcastable(src, dst) is total and decides right-aligned
    compatibility of src with dst. *)
Theorem C09_broadcastable_decides :
  forall src dst : list Z,
  exists b, broadcastable src dst = Ok b /\
  (b = true <-> (length src <= length dst)%nat /\ forall k, axis src k = 1 \/ axis src k = axis dst k).
Proof. exact broadcastable_lemma. Qed.
Print Assumptions C09_broadcastable_decides.

(** C09. It agrees with broadcast_shape: true exactly when broadcasting src into
    dst succeeds and leaves dst unchanged. *)
Theorem C09_broadcastable_agrees :
  forall src dst : list Z, real_shape src -> real_shape dst ->
  (broadcastable src dst = Ok true <-> exists t, broadcast_shape src dst = Ok (dst, t)).
Proof. exact broadcastable_iff_keeps. Qed.
Print Assumptions C09_broadcastable_agrees.

Example C09_case :
  broadcastable [3;1] [2;3;4] = Ok true /\ broadcastable [2;3;4] [3;4] = Ok false
  /\ broadcastable [3] [1] = Ok false.
Proof. repeat split. Qed.

(** C07. Compile-time (fixed) shapes broadcast like run-time ones when all
    extents are positive. *)
Theorem C07_fixed_shapes_partial :
  forall (rest : list (list Z)) (s0 : list Z),
  Forall (fun s => Forall (fun d => 0 < d) s) (s0 :: rest) ->
  (compatible (s0 :: rest) ->
     exists out t, promote_fixed s0 rest = Ok (out, t) /\ broadcast_of (s0 :: rest) out /\
                   (t = true <-> forall s, In s (s0 :: rest) -> s = out)) /\
  (~ compatible (s0 :: rest) -> promote_fixed s0 rest = Throw broadcast_error).
Proof. exact promote_fixed_lemma. Qed.
Print Assumptions C07_fixed_shapes_partial.

Example C07_fixed_case : promote_fixed [3;1] [[4]; [2;3;4]] = Ok ([2;3;4], false)
  /\ promote_fixed [3;2] [[4]] = Throw broadcast_error.
Proof. split; reflexivity. Qed.

(** C07. Fixed shapes with an extent 0: (0) with (3) is accepted, and (1) with
    (0) gives (1) instead of (0). *)
Theorem C07_fixed_zero_refuted :
  (exists a b, ~ compatible [a; b] /\ exists out t, promote_fixed a [b] = Ok (out, t)) /\
  (exists a b out t, compatible [a; b] /\ promote_fixed a [b] = Ok (out, t) /\ ~ broadcast_of [a; b] out).
Proof. exact fixed_refuted_lemma. Qed.
Print Assumptions C07_fixed_zero_refuted.

(** C32. Whatever the history of queries, dimension(), shape() and the shape
    used by an assignment reflect the operands, as long as no operand is resized
    after shape() was first called. *)
Theorem C32_expression_shape_current_partial :
  forall (e : expr) (ops1 ops2 : list fop),
  ~ In Q_shape ops1 -> (forall e', ~ In (Resize e') ops2) ->
  f_run (f_new e) (ops1 ++ ops2) = ideal e (ops1 ++ ops2).
Proof. exact cache_lemma. Qed.
Print Assumptions C32_expression_shape_current_partial.

Example C32_case :
  f_run (f_new (EFun [ELeaf [2]; EScalar])) [Q_dim; Resize (EFun [ELeaf [3]; EScalar]); Q_assign; Q_shape; Q_assign]
  = [O_dim 1; O_none; O_assign (Ok ([3], true)); O_shape (Ok [3]); O_assign (Ok ([3], true))].
Proof. reflexivity. Qed.

(** C32. Otherwise the cached shape is stale: shape() and assignments keep using
    the old extents. *)
Theorem C32_stale_cache_refuted :
  exists e e', real_expr e /\ real_expr e' /\
    f_run (f_new e) [Q_shape; Resize e'; Q_shape; Q_assign] <>
    ideal e [Q_shape; Resize e'; Q_shape; Q_assign].
Proof. exact cache_refuted_lemma. Qed.
Print Assumptions C32_stale_cache_refuted.

(** C33. xt::broadcast(e, s): throws unless the shapes are compatible and s is
    long enough; has shape s when e is broadcastable to s. *)
Theorem C33_broadcast_view_shape :
  forall e s : list Z, real_shape e -> real_shape s ->
  ((length e <= length s)%nat /\ compatible [e; s] ->
     exists out, xbroadcast_shape e s = Ok out /\ broadcast_of [e; s] out) /\
  (~ ((length e <= length s)%nat /\ compatible [e; s]) -> xbroadcast_shape e s = Throw broadcast_error) /\
  (broadcastable e s = Ok true -> xbroadcast_shape e s = Ok s).
Proof. exact xbroadcast_lemma. Qed.
Print Assumptions C33_broadcast_view_shape.

(** C33. Its elements are the expected elements of e, always inside e. *)
Theorem C33_broadcast_view_elements :
  forall (L l : layout) (e st0 st : list Z) bs ds (s out ix : list Z),
  is_shape e -> length st0 = length e -> compute_strides L e l st0 None = Ok (st, bs, ds) ->
  (length e <= length s)%nat -> broadcast_of [e; s] out -> in_bounds out ix ->
  in_bounds e (bc_index e ix) /\
  data_offset st ix false = Ok (element_offset st (bc_index e ix)).
Proof. exact xbroadcast_element_lemma. Qed.
Print Assumptions C33_broadcast_view_elements.

Example C33_case :
  xbroadcast_shape [3;1] [2;3;4] = Ok [2;3;4] /\
  bc_index [3;1] [1;2;3] = [2;0] /\ data_offset [1;0] [1;2;3] false = Ok 2.
Proof. repeat split. Qed.

(** C33. When s has extent 1 where e is larger the result silently has another
    shape than the one asked for. *)
Theorem C33_requested_shape_refuted :
  exists e s out, broadcastable e s = Ok false /\ xbroadcast_shape e s = Ok out /\ out <> s.
Proof. exact xbroadcast_refuted_lemma. Qed.
Print Assumptions C33_requested_shape_refuted.
