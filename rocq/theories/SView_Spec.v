(** The ellipsis of a strided view. *)
From Coq Require Import List ZArith.
From Verif Require Import Prelude Strides_Model Strides_Spec Slice_Model Container_Model SView_Model.
Import ListNotations.

(** Number of axes the slices consume, the ellipsis apart. *)
Definition consumed (ss : list item) : nat :=
  length (filter (fun it => match it with Pick UNewaxis | Ellipsis => false | Pick _ => true end) ss).

(** An ellipsis stands for as many all() as are needed to consume the [d] axes. *)
Definition expand (d : nat) (ss : list item) : list user_slice :=
  flat_map (fun it => match it with
                      | Pick u => [u]
                      | Ellipsis => repeat UAll (d - consumed ss)
                      end) ss.

Definition ellipses (ss : list item) : nat :=
  length (filter (fun it => match it with Ellipsis => true | _ => false end) ss).

(** An expression with extents that are not negative and, if it has a data
    interface, one stride per axis. *)
Definition wf_exp (e : xexp) : Prop :=
  is_shape (x_shape e) /\ (x_direct e = true -> length (x_strides e) = length (x_shape e)).

(** [reads v ix c]: v(ix...), v.element(ix) and v.unchecked(ix...) all give the
    element that lives at [c]. *)
Definition reads (v : sview) (ix : list Z) (c : cell) : Prop :=
  w_call v ix = Ok c /\ w_element v ix = Ok c /\ w_unchecked v ix = Ok c.

(** A container as an expression. *)
Definition of_cont {V} (c : cont V) : xexp := mk_xexp true (ct_shape c) (ct_strides c) 0 (ct_layout c).

(** v(ix...) = x, where [v] is a view of the container [c] or a view of such a view. *)
Definition w_assign {V} (v : sview) (ix : list Z) (x : V) (c : cont V) : res (cont V) :=
  let* k := w_call v ix in
  match k with
  | Slot p => let* d := wrz (ct_data c) p x in
              Ok (mk_cont (ct_shape c) (ct_strides c) (ct_back c) (ct_layout c) d)
  | Elem _ => UB
  end.
