(** Model of broadcasting: core/xstrides.hpp 725-790, core/xfunction.hpp
    566-600 and 715-735, core/xshape.hpp 299-465, views/xbroadcast.hpp 288-430,
    containers/xscalar.hpp 609-614. *)
From Coq Require Import List ZArith Bool.
From Verif Require Import Prelude.
Import ListNotations.
Open Scope Z_scope.

(** std::numeric_limits<std::size_t>::max(), the "not yet set" sentinel of
    core/xstrides.hpp 725-731. *)
Definition max_extent : Z := 2 ^ 64 - 1.

(** core/xstrides.hpp 725-731: uninitialized_shape *)
Definition uninitialized_shape (n : nat) : list Z := repeat max_extent n.

(** core/xstrides.hpp 747-773: body of the loop; [i] is input_index - 1 and
    [o] is output_index - 1. *)
Definition broadcast_shape_body (input : list Z) (shift : nat) (i : nat) (s : list Z * bool)
  : res (list Z * bool) :=
  let '(output, trivial) := s in
  let o := (i + shift)%nat in
  let* ov := rd output o in
  let* iv := rd input i in
  if ov =? max_extent then
    let* output := wr output o iv in Ok (output, trivial)
  else if ov =? 1 then
    let* output := wr output o iv in Ok (output, trivial && (iv =? 1))
  else if iv =? 1 then Ok (output, false)
  else if negb (iv =? ov) then Throw broadcast_error
  else Ok (output, trivial).

(** core/xstrides.hpp 733-776: broadcast_shape(input, output); returns the
    updated output and the "trivial" flag. *)
Definition broadcast_shape (input output : list Z) : res (list Z * bool) :=
  if (length output <? length input)%nat then Throw broadcast_error
  else for_down (broadcast_shape_body input (length output - length input))
         (length input) (output, (length input =? length output)%nat).

(** core/xstrides.hpp 778-790: broadcastable(src_shape, dst_shape); the two
    reverse iterators are the heads of the reversed lists. *)
Fixpoint broadcastable_loop (src dst : list Z) (r : bool) : res bool :=
  match src with
  | [] => Ok r
  | s :: src' =>
      if r then
        match dst with
        | [] => UB
        | d :: dst' => broadcastable_loop src' dst' ((s =? d) || (s =? 1))
        end
      else Ok r
  end.
Definition broadcastable (src dst : list Z) : res bool :=
  broadcastable_loop (rev src) (rev dst) (length src <=? length dst)%nat.

(** An expression, as far as broadcasting can tell: scalars (xscalar), leaves
    with a shape (containers, views, generators, ...: all forward to
    xt::broadcast_shape) and xfunction nodes with their operands. *)
Inductive expr : Type :=
| EScalar
| ELeaf (shape : list Z)
| EFun (args : list expr).

(** core/xfunction.hpp 927-936: compute_dimension (xscalar has dimension 0). *)
Fixpoint dimension (e : expr) : nat :=
  match e with
  | EScalar => 0
  | ELeaf s => length s
  | EFun es => fold_left (fun d e => Nat.max d (dimension e)) es 0%nat
  end.

(** core/xfunction.hpp 715-735 without cache reuse: every operand is broadcast
    into [shape] in order, "e.broadcast_shape(shape) && b". xscalar.hpp 609-614
    returns true and leaves the shape alone. *)
Fixpoint broadcast_expr (e : expr) (shape : list Z) : res (list Z * bool) :=
  match e with
  | EScalar => Ok (shape, true)
  | ELeaf s => broadcast_shape s shape
  | EFun es =>
      (fix go (es : list expr) (shape : list Z) (b : bool) : res (list Z * bool) :=
         match es with
         | [] => Ok (shape, b)
         | e :: es' =>
             let* '(shape', t) := broadcast_expr e shape in go es' shape' (t && b)
         end) es shape true
  end.

(** core/xfunction.hpp 576-584: the shape and triviality of an expression. *)
Definition expr_shape (e : expr) : res (list Z * bool) :=
  broadcast_expr e (uninitialized_shape (dimension e)).

(** ** The cache of xfunction (core/xfunction.hpp 48-60, 569-600, 717-735) *)
Record fcache : Type := mk_cache { c_shape : list Z; c_trivial : bool; c_init : bool }.

(** An xfunction holding references to operands that can be resized: the
    current expression together with the cache. *)
Record fstate : Type := mk_fstate { f_expr : expr; f_cache : fcache }.

(** core/xfunction.hpp 54-59 *)
Definition f_new (e : expr) : fstate := mk_fstate e (mk_cache [] false false).

(** core/xfunction.hpp 569-574 *)
Definition f_dimension (s : fstate) : nat :=
  if c_init (f_cache s) then length (c_shape (f_cache s)) else dimension (f_expr s).

(** core/xfunction.hpp 576-600: shape(), filling the cache on first use. *)
Definition f_shape (s : fstate) : res (fstate * list Z) :=
  if c_init (f_cache s) then Ok (s, c_shape (f_cache s))
  else
    let* '(sh, t) := broadcast_expr (f_expr s) (uninitialized_shape (dimension (f_expr s))) in
    Ok (mk_fstate (f_expr s) (mk_cache sh t true), sh).

(** core/xfunction.hpp 715-735: broadcast_shape(shape, reuse_cache). *)
Definition f_broadcast (s : fstate) (shape : list Z) (reuse : bool) : res (list Z * bool) :=
  if c_init (f_cache s) && reuse then
    if (length (c_shape (f_cache s)) <=? length shape)%nat then
      Ok (c_shape (f_cache s) ++ skipn (length (c_shape (f_cache s))) shape, c_trivial (f_cache s))
    else UB
  else broadcast_expr (f_expr s) shape.

(** What a program can do with the expression and its operands. [Q_assign] is
    core/xassign.hpp 594-607: the shape given to the destination. *)
Inductive fop : Type :=
| Q_dim
| Q_shape
| Q_assign
| Resize (e : expr).  (* the operands now have other shapes *)

Inductive fobs : Type :=
| O_dim (n : nat)
| O_shape (s : res (list Z))
| O_assign (s : res (list Z * bool))
| O_none.

Definition f_step (s : fstate) (o : fop) : fstate * fobs :=
  match o with
  | Q_dim => (s, O_dim (f_dimension s))
  | Q_shape =>
      match f_shape s with
      | Ok (s', sh) => (s', O_shape (Ok sh))
      | Throw e => (s, O_shape (Throw e))
      | UB => (s, O_shape UB)
      end
  | Q_assign => (s, O_assign (f_broadcast s (uninitialized_shape (f_dimension s)) true))
  | Resize e => (mk_fstate e (f_cache s), O_none)
  end.

Fixpoint f_run (s : fstate) (ops : list fop) : list fobs :=
  match ops with
  | [] => []
  | o :: ops' => let '(s', ob) := f_step s o in ob :: f_run s' ops'
  end.

(** ** Fixed shapes (compile-time broadcasting). *)

(** core/xshape.hpp 300-305: at<IDX, X...>; an index that underflowed is out of
    range as well. *)
Definition fixed_at (idx : Z) (l : list Z) : Z :=
  if idx <? 0 then 0 else nth (Z.to_nat idx) l 0.

(** core/xshape.hpp 316-332: one axis; a failing static_assert is rendered as
    broadcast_error. *)
Definition fixed_axis (I J : list Z) (jx : nat) : res Z :=
  let ix := Z.of_nat jx - (Z.of_nat (length J) - Z.of_nat (length I)) in
  let iv := fixed_at ix I in
  let jv := fixed_at (Z.of_nat jx) J in
  if (iv =? 0) || (iv =? 1) || (jv =? 1) || (jv =? iv)
  then Ok (if jv <? iv then iv else jv) else Throw broadcast_error.
Definition fixed_axis_trivial (I J : list Z) (jx : nat) : bool :=
  let ix := Z.of_nat jx - (Z.of_nat (length J) - Z.of_nat (length I)) in
  fixed_at ix I =? fixed_at (Z.of_nat jx) J.

Fixpoint mapM {A B} (f : A -> res B) (l : list A) : res (list B) :=
  match l with
  | [] => Ok []
  | x :: l' => let* y := f x in let* ys := mapM f l' in Ok (y :: ys)
  end.

(** core/xshape.hpp 334-355: broadcast_fixed_shape<I, J> *)
Definition broadcast_fixed (I J : list Z) : res (list Z * bool) :=
  if (length J <? length I)%nat then Throw broadcast_error
  else
    let* sh := mapM (fixed_axis I J) (seq 0 (length J)) in
    Ok (sh, forallb (fixed_axis_trivial I J) (seq 0 (length J))).

(** core/xshape.hpp 438-465: promote_fixed<S...> (non-empty pack). *)
Fixpoint promote_fixed (I : list Z) (rest : list (list Z)) : res (list Z * bool) :=
  match rest with
  | [] => Ok (I, true)
  | J :: rest' =>
      let* '(m, t) := if (length J <? length I)%nat then broadcast_fixed J I else broadcast_fixed I J in
      let* '(r, t') := promote_fixed m rest' in
      Ok (r, t && t')
  end.

(** ** xt::broadcast *)

(** views/xbroadcast.hpp 288-314: the shape of broadcast(e, s). *)
Definition xbroadcast_shape (e_shape s : list Z) : res (list Z) :=
  if (length s <? length e_shape)%nat then Throw broadcast_error
  else let* '(sh, _) := broadcast_shape e_shape s in Ok sh.
