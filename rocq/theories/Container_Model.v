(** Model of xstrided_container (containers/xcontainer.hpp 845-1193): the state
    of an xarray or xtensor and the operations that change its shape. Every
    exception is thrown before the first assignment to a member, so a throwing
    operation is modelled as leaving the state alone (see [c_step]). The number
    of dimensions of an xtensor is part of its type; that restriction is not
    modelled. *)
From Coq Require Import List ZArith Bool.
From Verif Require Import Prelude Strides_Model Access_Model Slice_Model.
Import ListNotations.
Open Scope Z_scope.

(** The members m_shape, m_strides, m_backstrides, m_layout (xcontainer.hpp
    325-330) and m_storage of the derived class. *)
Record cont (V : Type) : Type := mk_cont {
  ct_shape : list Z; ct_strides : list Z; ct_back : list Z; ct_layout : layout; ct_data : list V
}.
Arguments mk_cont {V}. Arguments ct_shape {V}. Arguments ct_strides {V}. Arguments ct_back {V}.
Arguments ct_layout {V}. Arguments ct_data {V}.

Section Container.
Context {V : Type}.
(** [SL]: the static layout of the type; [DL]: XTENSOR_DEFAULT_LAYOUT; [rs]: what
    resizing the storage does to its contents (uvector discards them, std::vector
    keeps a prefix; xt::resize_container, containers/xstorage.hpp and utils/xutils.hpp). *)
Context (SL DL : layout) (rs : list V -> Z -> list V).

(** xcontainer.hpp 850-857 with xarray.hpp 281-285 (n = 0) and xtensor.hpp
    416-420: [n] zeros and a storage of one value if n = 0, none otherwise. *)
Definition c_default (n : nat) (v : V) : cont V :=
  mk_cont (repeat 0 n) (repeat 0 n) (repeat 0 n) SL (if (n =? 0)%nat then [v] else []).

(** xcontainer.hpp 368-372: size() *)
Definition c_size (c : cont V) : Z :=
  if negb (layout_eqb SL dynamic) then Z.of_nat (length (ct_data c)) else compute_size (ct_shape c).

(** xcontainer.hpp 1003-1027: resize(shape, force). resize_container leaves values
    in m_strides and m_backstrides that compute_strides overwrites; they are 0 here. *)
Definition c_resize (c : cont V) (shape : list Z) (force : bool) : res (cont V) :=
  if negb (zlist_eqb shape (ct_shape c)) || force then
    let lay := if layout_eqb SL dynamic && layout_eqb (ct_layout c) dynamic then DL else ct_layout c in
    let n := length shape in
    let* '(st, bs, data_size) := compute_strides SL shape lay (repeat 0 n) (Some (repeat 0 n)) in
    match bs with
    | Some bs => Ok (mk_cont shape st bs lay (rs (ct_data c) data_size))
    | None => UB
    end
  else Ok c.

(** xcontainer.hpp 1036-1053: resize(shape, layout) *)
Definition c_resize_layout (c : cont V) (shape : list Z) (l : layout) : res (cont V) :=
  if negb (layout_eqb SL dynamic) && negb (layout_eqb l SL) then Throw runtime_error
  else c_resize (mk_cont (ct_shape c) (ct_strides c) (ct_back c) l (ct_data c)) shape true.

(** xcontainer.hpp 1062-1083: resize(shape, strides) *)
Definition c_resize_strides (c : cont V) (shape strides : list Z) : res (cont V) :=
  if negb (layout_eqb SL dynamic) then Throw runtime_error
  else
    let* '(st, bs) := adapt_strides shape strides (Some (repeat 0 (length strides))) in
    match bs with
    | Some bs => Ok (mk_cont shape st bs dynamic (rs (ct_data c) (compute_size shape)))
    | None => UB
    end.

(** The end of both reshape_impl: m_layout, m_shape and the strides; the storage is
    not touched. A signed shape is converted to std::size_t. *)
Definition c_set_shape (c : cont V) (shape : list Z) (lay : layout) : res (cont V) :=
  let shape := map to_size_t shape in
  let n := length shape in
  let* '(st, bs, _) := compute_strides SL shape lay (repeat 0 n) (Some (repeat 0 n)) in
  match bs with
  | Some bs => Ok (mk_cont shape st bs lay (ct_data c))
  | None => UB
  end.

(** xcontainer.hpp 1118-1144: reshape_impl, unsigned shape. *)
Definition c_reshape_unsigned (c : cont V) (shape : list Z) (lay : layout) : res (cont V) :=
  if negb (compute_size shape =? c_size c) then Throw runtime_error
  else
    let lay := if layout_eqb SL dynamic && layout_eqb lay dynamic then DL else lay in
    if negb (layout_eqb SL dynamic) && negb (layout_eqb lay SL) then Throw runtime_error
    else c_set_shape c shape lay.

(** xcontainer.hpp 1156-1170: the loop finding the negative extent; state:
    accumulator, neg_idx, i. XTENSOR_ASSERT is compiled out by default. *)
Definition neg_loop (shape : list Z) : Z * nat * nat :=
  fold_left (fun '(acc, neg, i) d => (acc * d, if d <? 0 then i else neg, S i)) shape (1, 0%nat, 0%nat).

(** xcontainer.hpp 1146-1190: reshape_impl, signed shape. *)
Definition c_reshape_signed (c : cont V) (shape : list Z) (lay : layout) : res (cont V) :=
  let new_size := compute_size_signed shape in
  let* r := crem (c_size c) new_size in
  if negb (r =? 0) then Throw runtime_error
  else
    let '(acc, neg, _) := neg_loop shape in
    if acc <? 0 then
      let* q := cdiv (c_size c) (Z.abs acc) in
      let* shape := wr shape neg q in
      c_set_shape c shape lay
    else if negb (c_size c =? new_size) then Throw runtime_error
    else c_set_shape c shape lay.

(** Histories. The constructors are c_default followed by a resize (xarray.hpp
    294-331); [C_assign] is copy or move assignment (defaulted, memberwise) from
    another container, which is also how a temporary is assigned
    (core/xsemantic.hpp 654-658); [C_write] is a write through an element
    reference. *)
Inductive cop : Type :=
| C_resize (shape : list Z) (force : bool)
| C_resize_layout (shape : list Z) (l : layout)
| C_resize_strides (shape strides : list Z)
| C_reshape_unsigned (shape : list Z) (l : layout)
| C_reshape_signed (shape : list Z) (l : layout)
| C_assign (other : cont V)
| C_write (ix : list Z) (v : V).

Definition c_do (c : cont V) (o : cop) : res (cont V) :=
  match o with
  | C_resize s f => c_resize c s f
  | C_resize_layout s l => c_resize_layout c s l
  | C_resize_strides s st => c_resize_strides c s st
  | C_reshape_unsigned s l => c_reshape_unsigned c s l
  | C_reshape_signed s l => c_reshape_signed c s l
  | C_assign o => Ok o
  | C_write ix v =>
      let* d := wrz (ct_data c) (element_offset (ct_strides c) ix) v in
      Ok (mk_cont (ct_shape c) (ct_strides c) (ct_back c) (ct_layout c) d)
  end.

(** One operation of a history: an exception leaves the container as it was. *)
Definition c_step (c : cont V) (o : cop) : res (cont V) :=
  match c_do c o with Throw _ => Ok c | r => r end.
Fixpoint c_run (c : cont V) (os : list cop) : res (cont V) :=
  match os with
  | [] => Ok c
  | o :: os' => let* c' := c_step c o in c_run c' os'
  end.
End Container.
