(** Model of xtensor_fixed and of expressions whose shape is part of their type:
    containers/xfixed.hpp, core/xshape.hpp 421-497, core/xassign.hpp 552-607. *)
From Coq Require Import List ZArith Bool.
From Verif Require Import Prelude Strides_Model Broadcast_Model Stepper_Model Container_Model Assign_Model Semantic_Model.
Import ListNotations.
Open Scope Z_scope.

(** ** Strides and size, computed by the compiler *)

(** calculate_stride_row_major<I, X...>, xfixed.hpp 112-123: recursion on I; [at] is
    [fixed_at] of Broadcast_Model. *)
Fixpoint calculate_stride_row_major (i : nat) (X : list Z) : Z :=
  match i with
  | O => 1
  | S i' => fixed_at (Z.of_nat (length X) - Z.of_nat i) X * calculate_stride_row_major i' X
  end.
(** calculate_stride<column_major, I, Y, X...>, xfixed.hpp 99-110; no specialisation
    matches an empty pack (the value 0 is never used). *)
Fixpoint calculate_stride_column_major (i : nat) (X : list Z) : Z :=
  match X with
  | [] => 0
  | Y :: X' => match i with O => 1 | S i' => Y * calculate_stride_column_major i' X' end
  end.
(** calculate_stride<L, I, X...>, xfixed.hpp 96-129 *)
Definition calculate_stride (L : layout) (i : nat) (X : list Z) : Z :=
  match L with
  | row_major => calculate_stride_row_major (length X - i - 1) X
  | _ => calculate_stride_column_major i X
  end.
(** get_strides_impl, xfixed.hpp 149-162 and 225-229 *)
Definition fixed_strides (L : layout) (X : list Z) : list Z :=
  map (fun i => if nth i X 0 =? 1 then 0 else calculate_stride L i X) (seq 0 (length X)).
(** get_backstrides_impl, xfixed.hpp 164-168 and 231-235 *)
Definition fixed_backstrides (X st : list Z) : list Z :=
  map (fun i => nth i st 0 * (nth i X 0 - 1)) (seq 0 (length st)).
(** fixed_compute_size, xfixed.hpp 170-200 *)
Fixpoint fixed_compute_size (X : list Z) : Z :=
  match X with
  | [] => 1
  | [Y] => Y
  | Y :: X' => Y * fixed_compute_size X'
  end.

Section Fixed.
Context {V : Type}.

(** xfixed_container, members m_storage, m_shape, m_strides, m_backstrides (xfixed.hpp
    365-372): the last three are constants of the type; layout() is 747-751. *)
Definition fixed (L : layout) (X : list Z) (d : list V) : cont V :=
  let st := fixed_strides L X in mk_cont X st (fixed_backstrides X st) L d.
(** The storage, an array of fixed_compute_size values (xfixed.hpp 259-265). *)
Definition fixed_storage (X : list Z) (d : list V) : Prop := Z.of_nat (length d) = fixed_compute_size X.

(** Construction from a value, xfixed.hpp 562-570; [d] is what the storage holds before. *)
Definition fixed_from_value (L : layout) (X : list Z) (d : list V) (v : V) : res (cont V) :=
  if negb (Z.of_nat (length d) =? 1) then Throw runtime_error
  else let* d := wr d 0 v in Ok (fixed L X d).
(** Construction from a shape, a value and a layout, xfixed.hpp 581-593: the shape and the
    layout are only looked at by XTENSOR_ASSERT, compiled out by default. *)
Definition fixed_filled (L : layout) (X : list Z) (d : list V) (shape : list Z) (v : V) (l : layout) : res (cont V) :=
  Ok (fixed L X (map (fun _ => v) d)).

(** std::equal(first1, last1, first2) *)
Fixpoint std_equal (a b : list Z) : res bool :=
  match a, b with
  | [], _ => Ok true
  | _ :: _, [] => UB
  | x :: a', y :: b' => if x =? y then std_equal a' b' else Ok false
  end.
(** reshape, xfixed.hpp 728-738 *)
Definition fixed_reshape (a : cont V) (shape : list Z) (l : layout) : res (cont V) :=
  let* same := std_equal shape (ct_shape a) in
  if negb (same && (length shape =? length (ct_shape a))%nat && layout_eqb l (ct_layout a)) then Throw runtime_error
  else Ok a.
(** is_contiguous, xfixed.hpp 753-759 *)
Definition fixed_is_contiguous (a : cont V) : bool :=
  match ct_strides a with
  | [] => true
  | s :: st => (layout_eqb (ct_layout a) row_major && (last (s :: st) 0 =? 1)) ||
               (layout_eqb (ct_layout a) column_major && (s =? 1))
  end.

(** ** The shape of an expression whose operands all have a shape in their type *)

(** The type shape_type and promote_index::value. A shape type std::array<T, 0> (scalars
    and functions of scalars only) is None. filter_scalar turns it into fixed_shape<1>
    (core/xshape.hpp 423-436); promote_fixed is in Broadcast_Model; promote_index,
    core/xshape.hpp 395-401 and 467-496, core/xfunction.hpp 62-68. A static_assert that fails is
    rendered as the exception broadcasting throws. *)
Fixpoint static_type (e : aexp V) : res (option (list Z) * bool) :=
  match e with
  | AScalar _ => Ok (None, true)
  | ALeaf _ c _ => Ok (Some (k_shape c), true)
  | AIndexed s _ => Ok (Some s, true)
  | AFun _ args =>
      let* ts := seqM (map static_type args) in
      if forallb (fun t => match fst t with None => true | Some _ => false end) ts then Ok (None, true)
      else
        match map (fun t => match fst t with Some s => s | None => [1] end) ts with
        | [] => Ok (None, true)
        | s0 :: rest => let* '(s, b) := promote_fixed s0 rest in Ok (Some s, b)
        end
  end.
(** The shape and the flag "trivial" of a right-hand side, core/xassign.hpp 552-607: those
    of the type when the outermost expression is a function with a fixed shape. *)
Definition static_rhs (e : aexp V) : res (list Z * bool) :=
  match e with
  | AFun _ _ =>
      let* '(ty, b) := static_type e in
      match ty with Some s => Ok (s, b) | None => rhs_shape e end
  | _ => rhs_shape e
  end.

(** ** Assignment *)

(** [FD]: the destination is an xtensor_fixed, whose resize does nothing (xfixed.hpp
    682-692; XTENSOR_ASSERT is compiled out by default); [FR]: all operands have fixed
    shapes. The other parameters are those of Semantic_Model. Simplified: is_contiguous of
    an xtensor_fixed (above) may answer false where that of Assign_Model answers true, and
    then another loop is chosen. *)
Context (g : Z -> setup) (SL : layout) (D : option nat) (DL : layout) (rs : list V -> Z -> list V) (FD FR : bool).

(** core/xassign.hpp 480-486 and 570-607 *)
Definition s_assign_xexpression (a : cont V) (e : aexp V) (r : fin (cont V)) : Prop :=
  match (if FR then static_rhs e else rhs_shape e) with
  | Throw x => r = Threw x a
  | UB => r = Undefined
  | Ok (sh, trivial) =>
      if FD then c_assign_data g SL D a e trivial r
      else
        match c_resize SL DL rs a sh false with
        | Throw x => r = Threw x a
        | UB => r = Undefined
        | Ok a' => c_assign_data g SL D a' (rebind SL D a a' e) trivial r
        end
  end.
(** operator=, core/xsemantic.hpp 617-640 and 684-690 (xfixed.hpp 670-678); [fresh] is the
    temporary before it is assigned to. The overlap check looks at the size of the
    expression, taken here from rhs_shape. *)
Definition s_operator_assign (fresh a : cont V) (e : aexp V) (r : fin (cont V)) : Prop :=
  match check_overlap (c_strided a) e with
  | Throw x => r = Threw x a
  | UB => r = Undefined
  | Ok true => exists t, s_assign_xexpression fresh (frozen (ct_data a) e) t /\ r = move_temporary a t
  | Ok false => s_assign_xexpression a e r
  end.
End Fixed.
