(** Conditions on the slices under which xview computes the right element. *)
From Coq Require Import List ZArith.
From Verif Require Import Prelude Slice_Model Container_Model SView_Model XView_Model.
Import ListNotations.

(** No integer after a newaxis. *)
Fixpoint no_int_after_newaxis (us : list user_slice) : Prop :=
  match us with
  | [] => True
  | UNewaxis :: t => Forall (fun u => match u with UInt _ => False | _ => True end) t
  | _ :: t => no_int_after_newaxis t
  end.

(** At most one newaxis, and no integer after it. *)
Fixpoint one_newaxis (us : list user_slice) : Prop :=
  match us with
  | [] => True
  | UNewaxis :: t => Forall (fun u => match u with UInt _ | UNewaxis => False | _ => True end) t
  | _ :: t => one_newaxis t
  end.

(** Only integers, ranges, all and newaxis. *)
Definition no_list (u : user_slice) : Prop := match u with UKeep _ | UDrop _ => False | _ => True end.

(** v(ix...) = x for a view of the container [c]. *)
Definition v_assign {V} (v : xview) (ix : list Z) (x : V) (c : cont V) : res (cont V) :=
  let* k := v_call v ix in
  match k with
  | Slot p => let* d := wrz (ct_data c) p x in
              Ok (mk_cont (ct_shape c) (ct_strides c) (ct_back c) (ct_layout c) d)
  | Elem _ => UB
  end.
