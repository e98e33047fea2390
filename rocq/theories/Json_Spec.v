(** The JSON text of an array: nested lists. *)
From Coq Require Import List ZArith Bool.
From Verif Require Import Prelude Strides_Model Strides_Spec Container_Model SView_Model Json_Model.
Import ListNotations.
Open Scope Z_scope.

(** An array of shape [sh] with the element [f ix] at [ix]: a scalar if there is no axis,
    else the list of the arrays at 0, 1, ... of the first axis. *)
Fixpoint nested {V} (f : list Z -> V) (sh : list Z) : json V :=
  match sh with
  | [] => JVal (f [])
  | n :: sh => JArr (map (fun i => nested (fun ix => f (Z.of_nat i :: ix)) sh) (seq 0 (Z.to_nat n)))
  end.

(** The elements of the expression [e] live at different positions of the storage of [c] *)
Definition writable {V} (e : xexp) (c : cont V) : Prop :=
  x_direct e = true /\
  (forall ix, in_bounds (x_shape e) ix -> exists p, x_elem e ix = Slot p /\ 0 <= p < Z.of_nat (length (ct_data c))) /\
  (forall ix jx, in_bounds (x_shape e) ix -> in_bounds (x_shape e) jx -> x_elem e ix = x_elem e jx -> ix = jx).

(** The value at a position of the storage *)
Definition stored {V} (c : cont V) (k : cell) : res V :=
  match k with Slot p => rdz (ct_data c) p | Elem _ => UB end.

(** [contains f sh j]: the value found by following [ix] in the nested lists is [f ix], for
    every [ix] within [sh]. The lists may be longer than that. *)
Inductive contains {V} : (list Z -> V) -> list Z -> json V -> Prop :=
| contains_scalar f : contains f [] (JVal (f []))
| contains_rows f n sh l :
    (forall i, (Z.of_nat i < n)%Z -> exists k, nth_error l i = Some k /\ contains (fun ix => f (Z.of_nat i :: ix)) sh k) ->
    contains f (n :: sh) (JArr l).

(** The lengths of the list, of its first element, and so on down to a scalar *)
Inductive leading {V} : list Z -> json V -> Prop :=
| leading_scalar x : leading [] (JVal x)
| leading_row k l sh : leading sh k -> leading (Z.of_nat (S (length l)) :: sh) (JArr (k :: l)).

(** Nothing but the stored values differs *)
Definition same_frame {V} (c c' : cont V) : Prop :=
  ct_shape c' = ct_shape c /\ ct_strides c' = ct_strides c /\ ct_back c' = ct_back c /\ ct_layout c' = ct_layout c /\
  length (ct_data c') = length (ct_data c).
