(** When sizes fit in 64 bits. *)
From Coq Require Import List ZArith.
From Verif Require Import Strides_Spec.
Import ListNotations.
Open Scope Z_scope.

(** The product of the extents, empty axes counting as 1, fits in ptrdiff_t. *)
Definition fits64 (sh : list Z) : Prop := prod (map (Z.max 1) sh) < 2 ^ 63.
