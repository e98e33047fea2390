(** What is asked of the slices of a dynamic view, and what it is to read an element of it. *)
From Coq Require Import List ZArith.
From Verif Require Import Prelude Slice_Model SView_Model DView_Model.
Import ListNotations.
Open Scope Z_scope.

(** The integers among the slices are not negative. *)
Definition plain_ints (us : list user_slice) : Prop :=
  Forall (fun u => match u with UInt i => 0 <= i | _ => True end) us.

(** v(extra..., ix...) and v.element(extra ++ ix) give the element that lives at [c], with any
    leading arguments beyond the dimension; v() is not asked about. *)
Definition d_reads (v : dview) (ix : list Z) (c : cell) : Prop :=
  forall extra, d_element v (extra ++ ix) = Ok c /\ (extra ++ ix <> [] -> d_call v (extra ++ ix) = Ok c).
