(** What strides and positions should be, independently of the model. *)
From Coq Require Import List ZArith.
Import ListNotations.
Open Scope Z_scope.

(** Number of elements of a shape. *)
Definition prod (l : list Z) : Z := fold_right Z.mul 1 l.

(** A shape: a list of non-negative extents. *)
Definition is_shape (sh : list Z) : Prop := Forall (fun d => 0 <= d) sh.

(** [ix] is a full, in-bounds index of [sh]. *)
Definition in_bounds (sh ix : list Z) : Prop := Forall2 (fun d i => 0 <= i < d) sh ix.

(** Position of an index in lexicographic order (last index fastest). *)
Fixpoint row_pos (sh ix : list Z) : Z :=
  match sh, ix with
  | _ :: sh', i :: ix' => i * prod sh' + row_pos sh' ix'
  | _, _ => 0
  end.

(** Position of an index in colexicographic order (first index fastest). *)
Fixpoint col_pos (sh ix : list Z) : Z :=
  match sh, ix with
  | d :: sh', i :: ix' => i + d * col_pos sh' ix'
  | _, _ => 0
  end.

(** Documented stride of axis [k]: number of elements skipped by one step along
    axis k, 0 on axes of extent 1. *)
Definition row_stride (sh : list Z) (k : nat) : Z :=
  if nth k sh 0 =? 1 then 0 else prod (skipn (S k) sh).
Definition col_stride (sh : list Z) (k : nat) : Z :=
  if nth k sh 0 =? 1 then 0 else prod (firstn k sh).

(** Scalar product of an index with strides. *)
Fixpoint dot (ix st : list Z) : Z :=
  match ix, st with
  | i :: ix', s :: st' => i * s + dot ix' st'
  | _, _ => 0
  end.
