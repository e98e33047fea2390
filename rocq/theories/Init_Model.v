(** Model of construction from nested initializer lists: utils/xutils.hpp 331-348,
    core/xshape.hpp 150-215, containers/xarray.hpp 350-450, containers/xtensor.hpp 422-432,
    containers/xfixed.hpp 641-652. *)
From Coq Require Import List ZArith Bool.
From Verif Require Import Prelude Strides_Model Broadcast_Model Stepper_Model Container_Model Assign_Model Semantic_Model Fixed_Model.
Import ListNotations.
Open Scope Z_scope.

(** nested_initializer_list_t<T, n>, utils/xutils.hpp 315-329: a value or a list; that all
    values are at depth n, which the type ensures, is part of the specification. *)
Inductive nest (V : Type) : Type :=
| NVal (v : V)
| NList (l : list (nest V)).
Arguments NVal {V}. Arguments NList {V}.

Section Init.
Context {V : Type}.

(** initializer_shape_impl<I>::value, core/xshape.hpp 178-198; values have no size() (0). *)
Fixpoint initializer_shape_impl (i : nat) (t : nest V) : Z :=
  match t with
  | NVal _ => 0
  | NList l =>
      match i with
      | O => Z.of_nat (length l)
      | S i' => match l with [] => 0 | x :: _ => initializer_shape_impl i' x end
      end
  end.
(** shape<R>(t), core/xshape.hpp 200-215; [n] is initializer_dimension. *)
Definition nested_shape (n : nat) (t : nest V) : list Z :=
  map (fun i => initializer_shape_impl i t) (seq 0 n).

(** nested_copy, utils/xutils.hpp 335-348, for an iterator of type I; [put it d v] is
    *it++ = v, with [d] the storage. *)
Section Copy.
Context {I : Type} (put : I -> list V -> V -> res (I * list V)).
Fixpoint nested_copy (t : nest V) (s : I * list V) : res (I * list V) :=
  match t with
  | NVal v => put (fst s) (snd s) v
  | NList l =>
      (fix go (l : list (nest V)) (s : I * list V) : res (I * list V) :=
         match l with
         | [] => Ok s
         | x :: l' => let* s := nested_copy x s in go l' s
         end) l s
  end.
End Copy.

(** *it++ = v for m_storage.begin() *)
Definition ptr_put (p : Z) (d : list V) (v : V) : res (Z * list V) :=
  let* d := wrz d p v in Ok (p + 1, d).
(** *it++ = v for begin<row_major>() of a container that is not row major: an xiterator,
    core/xiterable.hpp 949-959, core/xiterator.hpp 1084-1196. *)
Definition iter_put (c : container) (it : @iter sstate) (d : list V) (v : V) : res (@iter sstate * list V) :=
  match it with
  | (TPtr p, _, _) =>
      let* d := wrz d p v in
      let* it := it_inc (x_ops (k_shape c) (XStrided c d)) (k_shape c) row_major it in Ok (it, d)
  | _ => UB
  end.
(** L == row_major ? nested_copy(m_storage.begin(), t) : nested_copy(begin<row_major>(), t),
    containers/xarray.hpp 396-397, xtensor.hpp 430-431, xfixed.hpp 650-651 *)
Definition fill_nested (SL : layout) (a : cont V) (t : nest V) : res (cont V) :=
  if layout_eqb SL row_major then
    let* '(_, d) := nested_copy ptr_put t (0, ct_data a) in Ok (with_data a d)
  else
    let* it := it_make (ct_shape a) row_major (TPtr (xs_begin (c_strided a))) false in
    let* '(_, d) := nested_copy (iter_put (c_strided a)) t (it, ct_data a) in Ok (with_data a d).

(** The constructors of xarray (D = None; n > 0: xarray.hpp 391-398 and 404-450, n = 0:
    355-361) and of xtensor (D = Some N; xtensor.hpp 425-432). base_type(): xcontainer.hpp
    850-857; the storage is empty before the resize. *)
Definition c_init (SL : layout) (D : option nat) (DL : layout) (rs : list V -> Z -> list V) (n : nat) (t : nest V) : res (cont V) :=
  let k := match D with Some N => N | None => 0%nat end in
  let force := match D with Some _ => true | None => (n =? 0)%nat end in
  let* a := c_resize SL DL rs (mk_cont (repeat 0 k) (repeat 0 k) (repeat 0 k) SL []) (nested_shape n t) force in
  if (n =? 0)%nat && match D with None => true | _ => false end
  then let* '(_, d) := nested_copy ptr_put t (0, ct_data a) in Ok (with_data a d)
  else fill_nested SL a t.
(** xfixed.hpp 641-652 (the shape is only checked by XTENSOR_ASSERT) *)
Definition fixed_init (L : layout) (X : list Z) (d : list V) (t : nest V) : res (cont V) := fill_nested L (fixed L X d) t.
End Init.
