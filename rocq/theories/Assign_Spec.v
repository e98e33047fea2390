(** What an assignment should do. *)
From Coq Require Import List ZArith Bool.
From Verif Require Import Prelude Strides_Model Strides_Spec Broadcast_Spec Stepper_Model Stepper_Spec Assign_Model.
Import ListNotations.
Open Scope Z_scope.

(** Where element [ix] of a strided object is stored. *)
Definition position (c : container) (ix : list Z) : Z := k_begin c + dot ix (k_strides c).

(** The result of assigning [e], evaluated on [mem0], to the elements of [c] in
    memory [mem]: element ix gets the value of e at ix, everything else in memory
    keeps its value. *)
Definition pointwise {V} (c : container) (e : aexp V) (mem0 mem mem' : list V) : Prop :=
  length mem' = length mem /\
  (forall ix, in_bounds (k_shape c) ix ->
     exists v, x_value ix (inst mem0 e) = Ok v /\ rdz mem' (position c ix) = Ok v) /\
  (forall p, (forall ix, in_bounds (k_shape c) ix -> p <> position c ix) -> rdz mem' p = rdz mem p).

(** Elements of the destination are stored at distinct places inside the memory. *)
Definition writable {V} (c : container) (mem : list V) : Prop :=
  is_shape (k_shape c) /\ strided_ok c /\
  (forall ix, in_bounds (k_shape c) ix -> 0 <= position c ix < Z.of_nat (length mem)) /\
  (forall ix jx, in_bounds (k_shape c) ix -> in_bounds (k_shape c) jx -> position c ix = position c jx -> ix = jx).

(** The value of the right-hand side at an index does not depend on any other
    element of the destination. *)
Definition elementwise {V} (c : container) (e : aexp V) : Prop :=
  forall ix mem1 mem2, in_bounds (k_shape c) ix -> length mem1 = length mem2 ->
    (forall p, (forall jx, in_bounds (k_shape c) jx -> jx <> ix -> p <> position c jx) -> rdz mem1 p = rdz mem2 p) ->
    x_value ix (inst mem1 e) = x_value ix (inst mem2 e).

(** A layout tells the truth about shape and strides: elements are stored in that
    order without gaps. *)
Definition stored_as (l : layout) (c : container) : Prop :=
  forall ix, in_bounds (k_shape c) ix ->
    match l with
    | row_major => dot ix (k_strides c) = row_pos (k_shape c) ix
    | column_major => dot ix (k_strides c) = col_pos (k_shape c) ix
    | any => dot ix (k_strides c) = row_pos (k_shape c) ix /\ dot ix (k_strides c) = col_pos (k_shape c) ix
    | dynamic => True
    end.
Definition truthful (m : meta) (c : container) : Prop :=
  stored_as (m_static m) c /\ stored_as (m_layout m) c /\
  match m_dim m with Some n => length (k_shape c) = n | None => True end.

(** The restriction behind the finding on offset strided views: with SIMD, an
    xstrided_view with a static layout starts at the beginning of its storage. *)
Definition simd_offset_ok (g : setup) (m : meta) (c : container) : Prop :=
  g_types g = true -> m_kind m = KStridedView -> m_static m <> dynamic -> k_begin c = 0.

(** Conditions on the strided leaves. *)
Fixpoint leaves_ok {V} (P : meta -> container -> Prop) (e : aexp V) : Prop :=
  match e with
  | ALeaf m c _ => P m c
  | AFun _ args => fold_right (fun a acc => leaves_ok P a /\ acc) True args
  | _ => True
  end.

(** What the build and the run-time system may choose. *)
Definition setup_ok (g : setup) (size : Z) : Prop :=
  (exists k, 0 <= k /\ g_width g = 2 ^ k) /\ 0 <= g_align g <= size /\
  (g_default g = row_major \/ g_default g = column_major).

(** The situations in which the library calls assign_data: destination and
    operands are consistent, the operands fit the shape of the destination, all
    their elements are in their storage, and the flag "trivial" is only set when
    all operands have exactly the destination's shape. *)
Definition assignable {V} (g : setup) (m : meta) (c : container) (e : aexp V) (trivial : bool) (mem : list V) : Prop :=
  setup_ok g (prod (k_shape c)) /\ writable c mem /\ truthful m c /\ simd_offset_ok g m c /\
  operands_ok (k_shape c) (inst mem e) /\ storage_ok (inst mem e) /\ leaves_ok truthful e /\
  leaves_ok (simd_offset_ok g) e /\
  (trivial = true -> leaves_ok (fun _ k => k_shape k = k_shape c) e).

(** A sufficient condition for [elementwise]: leaves on the destination's own
    memory read, for element ix, only the place of element ix itself or places
    outside the destination, and generators do not read that memory. *)
Fixpoint independent {V} (c : container) (e : aexp V) : Prop :=
  match e with
  | AScalar _ | ALeaf _ _ (Some _) => True
  | ALeaf _ k None => forall ix, in_bounds (k_shape c) ix ->
      position k (bc_index (k_shape k) ix) = position c ix \/
      (forall jx, in_bounds (k_shape c) jx -> position k (bc_index (k_shape k) ix) <> position c jx)
  | AIndexed _ f => forall mem1 mem2 ix, f mem1 ix = f mem2 ix
  | AFun _ args => fold_right (fun a acc => independent c a /\ acc) True args
  end.

(** The same operands and the same functions; the static knowledge the compiler
    has about them may differ. *)
Definition same_expression {V} (e1 e2 : aexp V) : Prop := forall mem, inst mem e1 = inst mem e2.
