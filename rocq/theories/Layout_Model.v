(** Model of core/xlayout.hpp. *)
From Coq Require Import List ZArith.
From Verif Require Import Prelude Strides_Model.
Import ListNotations.
Open Scope Z_scope.

(** core/xlayout.hpp 23-33: underlying values of the enumerators. *)
Definition layout_code (l : layout) : Z :=
  match l with dynamic => 0 | any => 255 | row_major => 1 | column_major => 2 end.

(** layout_type(value): [None] when the value is not an enumerator. *)
Definition layout_decode (z : Z) : option layout :=
  if z =? 0 then Some dynamic else if z =? 255 then Some any
  else if z =? 1 then Some row_major else if z =? 2 then Some column_major else None.

(** core/xlayout.hpp 74-78: compute_layout_impl(lhs, rhs) *)
Definition compute_layout2 (l r : layout) : option layout :=
  layout_decode (Z.land (layout_code l) (layout_code r)).

(** core/xlayout.hpp 64-90: compute_layout(args...), a right fold. *)
Fixpoint compute_layout (ls : list layout) : option layout :=
  match ls with
  | [] => Some any
  | [l] => Some l
  | l :: ls' =>
      match compute_layout ls' with Some r => compute_layout2 l r | None => None end
  end.

(** core/xlayout.hpp 92-100; XTENSOR_DEFAULT_LAYOUT is row_major or column_major. *)
Definition default_assignable_layout (def l : layout) : layout :=
  match l with row_major | column_major => l | _ => def end.
Definition layout_remove_any (def l : layout) : layout :=
  match l with any => def | _ => l end.
