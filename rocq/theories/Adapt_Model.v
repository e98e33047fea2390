(** Model of adaptors: xarray_adaptor (containers/xarray.hpp 540-665) and xtensor_adaptor (containers/xtensor.hpp 590-726) built by adapt
    (containers/xadapt.hpp 70-420). The state of an adaptor is that of a container (Container_Model); its data is the adapted buffer, which belongs to the client. *)
From Coq Require Import List ZArith Bool.
From Verif Require Import Prelude Strides_Model Access_Model Broadcast_Model Slice_Model Stepper_Model Container_Model Assign_Model Semantic_Model.
Import ListNotations.
Open Scope Z_scope.

Section Adapt.
Context {V : Type}.
(** [fixed]: the buffer has a fixed size (a pointer without ownership: xbuffer_adaptor.hpp 615-660; an array on the stack); otherwise it is a vector,
    owned or referred to, resized by [rs]. The other parameters are those of Semantic_Model. *)
Context (fixed : bool) (g : Z -> setup) (SL : layout) (D : option nat) (DL : layout) (rs : list V -> Z -> list V) (v : V).

(** xbuffer_adaptor.hpp 638-645: xbuffer_storage::resize throws when the size changes. The members of the adaptor were changed before. [a]: the adaptor
    with the buffer as it is; [n]: the size. *)
Definition buffer_resize (a : cont V) (n : Z) : fin (cont V) :=
  if fixed then (if Z.of_nat (length (ct_data a)) =? n then Done a else Threw runtime_error a) else Done (with_data a (rs (ct_data a) n)).
(** xcontainer.hpp 997-1021: resize(shape, force). compute_strides returns compute_size(shape). *)
Definition b_resize (a : cont V) (shape : list Z) (force : bool) : fin (cont V) :=
  if negb (zlist_eqb shape (ct_shape a)) || force then
    match c_resize SL DL (fun d _ => d) a shape true with
    | Ok a' => buffer_resize a' (compute_size shape)
    | Throw x => Threw x a
    | UB => Undefined
    end
  else Done a.
(** xcontainer.hpp 1030-1048 and 1057-1077: resize(shape, layout) and resize(shape, strides) *)
Definition b_resize_layout (a : cont V) (shape : list Z) (l : layout) : fin (cont V) :=
  if negb (layout_eqb SL dynamic) && negb (layout_eqb l SL) then Threw runtime_error a
  else b_resize (mk_cont (ct_shape a) (ct_strides a) (ct_back a) l (ct_data a)) shape true.
Definition b_resize_strides (a : cont V) (shape strides : list Z) : fin (cont V) :=
  match c_resize_strides SL (fun d _ => d) a shape strides with
  | Ok a' => buffer_resize a' (compute_size shape)
  | Throw x => Threw x a
  | UB => Undefined
  end.
(** xarray.hpp 573-602, xtensor.hpp 620-650: the constructors, called by adapt(buffer, shape, layout) and adapt(buffer, shape, strides). base_type(): all extents and
    strides 0. *)
Definition unshaped (buffer : list V) : cont V :=
  let n := match D with Some n => n | None => 0%nat end in mk_cont (repeat 0 n) (repeat 0 n) (repeat 0 n) SL buffer.
Definition adapt (buffer : list V) (shape : list Z) (l : layout) : fin (cont V) := b_resize_layout (unshaped buffer) shape l.
Definition adapt_with_strides (buffer : list V) (shape strides : list Z) : fin (cont V) := b_resize_strides (unshaped buffer) shape strides.

(** xarray.hpp 622-630, xtensor.hpp 683-691: operator=(temporary_type&&). The layout is not assigned. The assignment of the storage:
    a vector takes that of the temporary; a buffer is resized and copied to (xbuffer_adaptor.hpp 1058-1064). *)
Definition b_move_temporary (a : cont V) (t : fin (cont V)) : fin (cont V) :=
  match t with
  | Done t =>
      let a' := mk_cont (ct_shape t) (ct_strides t) (ct_back t) (ct_layout a) in
      if fixed then
        match buffer_resize (a' (ct_data a)) (Z.of_nat (length (ct_data t))) with
        | Done _ => Done (a' (ct_data t))
        | r => r
        end
      else Done (a' (ct_data t))
  | Threw x _ => Threw x a
  | Undefined => Undefined
  end.
(** xassign.hpp 480-486 with resize 570-607; see c_assign_xexpression. *)
Definition b_assign_xexpression (a : cont V) (e : aexp V) (r : fin (cont V)) : Prop :=
  match rhs_shape e with
  | Throw x => r = Threw x a
  | UB => r = Undefined
  | Ok (sh, trivial) =>
      match b_resize a sh false with
      | Threw x a' => r = Threw x a'
      | Undefined => r = Undefined
      | Done a' => c_assign_data g SL D a' (rebind SL D a a' e) trivial r
      end
  end.
(** operator= of an expression, xsemantic.hpp 620-639; see c_operator_assign. *)
Definition b_operator_assign (a : cont V) (e : aexp V) (r : fin (cont V)) : Prop :=
  match check_overlap (c_strided a) e with
  | Throw x => r = Threw x a
  | UB => r = Undefined
  | Ok true => exists t, c_construct g SL D DL rs v (frozen (ct_data a) e) t /\ r = b_move_temporary a t
  | Ok false => b_assign_xexpression a e r
  end.
End Adapt.

(** Adaptors of buffers without ownership: [p_buffer] says which of the buffers of the program is referred to. *)
Record pointer_adaptor := mk_padaptor { p_shape : list Z; p_strides : list Z; p_back : list Z; p_layout : layout; p_buffer : nat }.
Definition p_cont {V} (memory : list (list V)) (a : pointer_adaptor) : cont V :=
  mk_cont (p_shape a) (p_strides a) (p_back a) (p_layout a) (nth (p_buffer a) memory []).
(** xarray.hpp 606-620, xtensor.hpp 667-681: operator=(const xarray_adaptor&). The storage is assigned member by member (xbuffer_adaptor.hpp 394-398): pointer and
    size. The memory is not changed. The adaptor afterwards, and the memory. *)
Definition p_assign {V} (memory : list (list V)) (a b : pointer_adaptor) : pointer_adaptor * list (list V) := (b, memory).
