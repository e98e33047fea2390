(** What a consistent container is. *)
From Coq Require Import List ZArith Bool.
From Verif Require Import Prelude Strides_Model Strides_Spec Container_Model.
Import ListNotations.
Open Scope Z_scope.

Definition is_order (l : layout) : Prop := l = row_major \/ l = column_major.

(** Rank of an index in the storage order of a dense layout. *)
Definition rank (l : layout) (sh ix : list Z) : Z :=
  match l with row_major => row_pos sh ix | _ => col_pos sh ix end.

(** A consistent container: one stride and one backstride per axis, as many
    stored values as elements, and a dense storage order that is the reported
    layout when that is row or column major. Consequently every in-bounds index
    addresses its own position inside the storage. *)
Definition consistent {V} (c : cont V) : Prop :=
  is_shape (ct_shape c) /\
  length (ct_strides c) = length (ct_shape c) /\ length (ct_back c) = length (ct_shape c) /\
  Z.of_nat (length (ct_data c)) = prod (ct_shape c) /\
  exists l, is_order l /\ (is_order (ct_layout c) -> l = ct_layout c) /\
    forall ix, in_bounds (ct_shape c) ix -> element_offset (ct_strides c) ix = rank l (ct_shape c) ix.

(** Every in-bounds access stays inside the storage. *)
Definition accesses_inside {V} (c : cont V) : Prop :=
  forall ix, in_bounds (ct_shape c) ix ->
    0 <= element_offset (ct_strides c) ix < Z.of_nat (length (ct_data c)).

(** The shape requested by a signed reshape: at most one -1, the other extents
    positive. [inferred size s] is the same shape with the -1 replaced. *)
Definition one_unknown (s : list Z) : Prop :=
  exists a b, s = a ++ (-1) :: b /\ Forall (fun d => 0 < d) a /\ Forall (fun d => 0 < d) b.
Definition all_known (s : list Z) : Prop := Forall (fun d => 0 < d) s.

(** Number of elements asked for, not counting the -1. *)
Definition known_prod (s : list Z) : Z := prod (filter (fun d => 0 <? d) s).
Definition inferred (size : Z) (s : list Z) : list Z :=
  map (fun d => if d =? -1 then size / known_prod s else d) s.

(** The layout argument reshape is documented to take: that of the type, or row or
    column major for a type with dynamic layout. *)
Definition layout_arg (SL l : layout) : Prop :=
  match SL with dynamic => is_order l | _ => l = SL end.

(** Arguments covered by the history theorem: non-negative representable extents,
    no user-given strides, signed shapes as above, the layout of the type if it is
    static, another consistent container, an in-bounds index. *)
Definition op_ok {V} (SL : layout) (c : cont V) (o : @cop V) : Prop :=
  match o with
  | C_resize s _ => is_shape s
  | C_resize_layout s _ => is_shape s
  | C_resize_strides _ _ => False
  | C_reshape_unsigned s _ => Forall (fun d => 0 <= d < 2 ^ 64) s
  | C_reshape_signed s l =>
      (all_known s \/ one_unknown s) /\ Forall (fun d => d < 2 ^ 63) s /\
      prod (ct_shape c) < 2 ^ 64 /\ (SL <> dynamic -> l = SL)
  | C_assign c' => consistent c' /\ (SL <> dynamic -> ct_layout c' = SL)
  | C_write ix _ => in_bounds (ct_shape c) ix
  end.

Fixpoint history_ok {V} (SL DL : layout) (rs : list V -> Z -> list V) (c : cont V) (os : list cop) : Prop :=
  match os with
  | [] => True
  | o :: os' => op_ok SL c o /\ forall c', c_step SL DL rs c o = Ok c' -> history_ok SL DL rs c' os'
  end.

(** Reading an element. *)
Definition elt {V} (c : cont V) (ix : list Z) : res V :=
  rdz (ct_data c) (element_offset (ct_strides c) ix).

(** Two containers of the same layout hold the same elements in storage order:
    equal ranks hold equal elements, whatever the shapes. *)
Definition same_sequence {V} (c c' : cont V) : Prop :=
  ct_data c' = ct_data c /\
  forall ix ix', ct_layout c' = ct_layout c -> is_order (ct_layout c) ->
    in_bounds (ct_shape c) ix -> in_bounds (ct_shape c') ix' ->
    rank (ct_layout c) (ct_shape c) ix = rank (ct_layout c) (ct_shape c') ix' ->
    elt c' ix' = elt c ix.
