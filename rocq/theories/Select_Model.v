(** Selecting elements: argwhere, nonzero, index views, filters and filtrations
    (core/xoperation.hpp, views/xindex_view.hpp, containers/xtensor.hpp). *)
From Coq Require Import List ZArith Bool.
From Verif Require Import Prelude Strides_Model Access_Model Slice_Model Container_Model Reduce_Spec.
Import ListNotations.
Open Scope Z_scope.

(** core/xoperation.hpp 792-814: next_idx_impl<row_major>, the loop from axis j - 1
    down. The index is changed in place, the returned value is not used. *)
Fixpoint next_row (shape : list Z) (j : nat) (idx : list Z) : res (list Z) :=
  match j with
  | O => Ok idx
  | S i =>
      let* x := rd idx i in
      let* s := rd shape i in
      if to_size_t (s - 1) <=? x then
        let* idx' := wr idx i 0 in next_row shape i idx'
      else wr idx i (x + 1)
  end.

(** core/xoperation.hpp 816-837: next_idx_impl<column_major>, the loop from axis i up;
    [n] axes remain. *)
Fixpoint next_col (shape : list Z) (i n : nat) (idx : list Z) : res (list Z) :=
  match n with
  | O => Ok idx
  | S n' =>
      let* x := rd idx i in
      let* s := rd shape i in
      if to_size_t (s - 1) <=? x then
        let* idx' := wr idx i 0 in next_col shape (S i) n' idx'
      else wr idx i (x + 1)
  end.

(** core/xoperation.hpp 839-844: next_idx<L> (row or column major) *)
Definition next_idx (L : layout) (shape idx : list Z) : res (list Z) :=
  match L with
  | row_major => next_row shape (length shape) idx
  | _ => next_col shape 0 (length shape) idx
  end.

(** The loop of argwhere (918-924) and nonzero (865-875): [step] at each of the
    compute_size(shape) indices, the first one being zero. *)
Definition scan {S} (L : layout) (shape : list Z) (step : list Z -> S -> res S) (s0 : S) : res S :=
  let* '(_, s) :=
    for_up (fun _ '(idx, s) =>
              let* s' := step idx s in
              let* idx' := next_idx L shape idx in
              Ok (idx', s'))
      0 (Z.to_nat (compute_size shape)) (repeat 0 (length shape), s0) in
  Ok s.

(** core/xoperation.hpp 904-924: argwhere<L>(arr). The expression is its shape and
    [arr.element(...)] converted to bool. *)
Definition argwhere (L : layout) (shape : list Z) (arr : list Z -> res bool) : res (list (list Z)) :=
  scan L shape (fun idx indices => let* b := arr idx in Ok (if b : bool then indices ++ [idx] else indices)) [].

(** core/xoperation.hpp 870-873: push_back in each of the vectors *)
Fixpoint push_all (indices : list (list Z)) (n : nat) (idx : list Z) : res (list (list Z)) :=
  match indices with
  | [] => Ok []
  | v :: indices' =>
      let* x := rd idx n in
      let* r := push_all indices' (S n) idx in
      Ok ((v ++ [x]) :: r)
  end.

(** core/xoperation.hpp 855-878, 888-892: nonzero(arr) and where(condition), with the
    default traversal TL *)
Definition nonzero (TL : layout) (shape : list Z) (arr : list Z -> res bool) : res (list (list Z)) :=
  scan TL shape (fun idx indices => let* b := arr idx in if b : bool then push_all indices 0 idx else Ok indices)
    (repeat [] (length shape)).

(** misc/xmanipulation.hpp 457-461: flatnonzero<L>(arr): nonzero of ravel<L>(arr),
    whose element i is the i-th of arr in traversal L. *)
Definition flatnonzero (TL L : layout) (shape : list Z) (arr : list Z -> res bool) : res (list Z) :=
  let* v := nonzero TL [compute_size shape]
              (fun i => let* k := rd i 0 in let* ix := rdz (indices_of L shape) k in arr ix) in
  rd v 0.

(** misc/xmanipulation.hpp 475-499: trim_zeros(e, direction): the range (begin, end) of
    the view, for the values [v] of e compared to zero ([nz]) and the two flags of the
    direction. *)
Fixpoint find_if {V} (p : V -> bool) (v : list V) : nat :=
  match v with [] => 0 | x :: v' => if p x then 0 else S (find_if p v') end.
Definition trim_zeros {V} (nz : V -> bool) (front back : bool) (v : list V) : Z * Z :=
  let begin_ := if front then Z.of_nat (find_if nz v) else 0 in
  let end_ := Z.of_nat (length v) in
  (begin_, if back && negb (begin_ =? end_) then end_ - Z.of_nat (find_if nz (rev v)) else end_).

(** core/xoperation.hpp 628-647: operator==(e1, e2) of two expressions, each its shape
    and its element access; both are iterated in the default traversal TL. *)
Fixpoint eq_loop {V} (eqb : V -> V -> bool) (e1 e2 : list Z -> res V) (ixs : list (list Z)) : res bool :=
  match ixs with
  | [] => Ok true
  | ix :: r =>
      let* x := e1 ix in
      let* y := e2 ix in
      if eqb x y then eq_loop eqb e1 e2 r else Ok false
  end.
Definition expr_eq {V} (TL : layout) (eqb : V -> V -> bool) (s1 : list Z) (e1 : list Z -> res V) (s2 : list Z) (e2 : list Z -> res V) : res bool :=
  if (length s1 =? length s2)%nat && zlist_eqb s1 s2 then eq_loop eqb e1 e2 (indices_of TL s1) else Ok false.
(** core/xoperation.hpp 660-664: operator!= *)
Definition expr_ne {V} (TL : layout) (eqb : V -> V -> bool) (s1 : list Z) (e1 : list Z -> res V) (s2 : list Z) (e2 : list Z -> res V) : res bool :=
  let* b := expr_eq TL eqb s1 e1 s2 e2 in Ok (negb b).

(** containers/xtensor.hpp 889-911: flatten_indices, the values of the result *)
Definition flatten_indices (idx : list (list Z)) : list Z := concat idx.

(** containers/xtensor.hpp 963-980: ravel_indices(idx, shape, l) *)
Fixpoint ravel_all (strides : list Z) (idx : list (list Z)) : list Z :=
  match idx with [] => [] | ix :: r => element_offset strides ix :: ravel_all strides r end.
Definition ravel_indices (idx : list (list Z)) (shape : list Z) (l : layout) : res (list Z) :=
  let* '(st, _, _) := compute_strides dynamic shape l (repeat 0 (length shape)) None in
  Ok (ravel_all st idx).

Section View.
  Context {V : Type}.

  (** Container element access through an index list (xcontainer.hpp, Container_Model) *)
  Definition c_read (c : cont V) (ix : list Z) : res V := rdz (ct_data c) (element_offset (ct_strides c) ix).
  Definition c_write (c : cont V) (ix : list Z) (v : V) : res (cont V) :=
    let* d := wrz (ct_data c) (element_offset (ct_strides c) ix) v in
    Ok (mk_cont (ct_shape c) (ct_strides c) (ct_back c) (ct_layout c) d).

  (** views/xindex_view.hpp 286-293, 398-534: index_view(c, indices): shape
      {indices.size()}, element i is c[indices[i]]; with several arguments operator()
      uses the last one, element and operator[] the first one. *)
  Definition iv_shape (indices : list (list Z)) : list Z := [Z.of_nat (length indices)].
  Definition iv_get (c : cont V) (indices : list (list Z)) (i : Z) : res V :=
    let* ix := rdz indices i in c_read c ix.
  Definition iv_call (c : cont V) (indices : list (list Z)) (args : list Z) : res V := iv_get c indices (last args 0).
  Definition iv_element (c : cont V) (indices : list (list Z)) (args : list Z) : res V := iv_get c indices (hd 0 args).
  Definition iv_set (c : cont V) (indices : list (list Z)) (i : Z) (v : V) : res (cont V) :=
    let* ix := rdz indices i in c_write c ix v.

  (** The right-hand side of an assignment to an index view on [c]: an expression
      that does not read [c] (stored in memory or not), another index view on [c], the element-wise combination
      of two such expressions. All have the length of the destination (others are
      broadcast or rejected, xsemantic.hpp 777-791). *)
  Inductive ivx :=
  | X_ext (stored : bool) (f : Z -> V)
  | X_view (indices : list (list Z))
  | X_fun (f : V -> V -> V) (a b : ivx).
  Fixpoint ivx_eval (c : cont V) (e : ivx) (i : Z) : res V :=
    match e with
    | X_ext _ f => Ok (f i)
    | X_view l => iv_get c l i
    | X_fun f a b => let* x := ivx_eval c a i in let* y := ivx_eval c b i in Ok (f x y)
    end.

  (** utils/xutils.hpp 827-857, 869-938, core/xfunction.hpp 170-200: the overlap check
      between memory ranges. The range of an index view goes from the address of its
      first to that of its last element; addresses are offsets in the storage of [c]
      (the storage of [c] is not at address 0). An empty view overlaps nothing; an
      expression without memory addresses is assumed to overlap. *)
  Definition iv_range (c : cont V) (l : list (list Z)) : option (Z * Z) :=
    match l with
    | [] => None
    | ix :: _ =>
        let a := element_offset (ct_strides c) ix in
        let b := element_offset (ct_strides c) (last l []) in
        Some (Z.min a b, Z.max a b)
    end.
  Fixpoint overlaps (c : cont V) (dst : Z * Z) (e : ivx) : bool :=
    match e with
    | X_ext stored _ => negb stored
    | X_view l => match iv_range c l with None => false | Some (a, b) => (a <=? snd dst) && (fst dst <=? b) end
    | X_fun _ a b => overlaps c dst a || overlaps c dst b
    end.

  (** Element by element, on the current contents (assign_xexpression) *)
  Definition iv_assign_direct (c : cont V) (indices : list (list Z)) (e : ivx) : res (cont V) :=
    for_up (fun i c => let* v := ivx_eval c e (Z.of_nat i) in iv_set c indices (Z.of_nat i) v) 0 (length indices) c.
  (** Through a temporary (xindex_view.hpp 321-325: assign_temporary_impl) *)
  Definition iv_assign_temp (c : cont V) (indices : list (list Z)) (e : ivx) : res (cont V) :=
    let* tmp := for_up (fun i t => let* v := ivx_eval c e (Z.of_nat i) in Ok (t ++ [v])) 0 (length indices) [] in
    for_up (fun i c => let* v := rd tmp i in iv_set c indices (Z.of_nat i) v) 0 (length indices) c.

  (** views/xindex_view.hpp 304-309, core/xsemantic.hpp 620-640, 773-793:
      index_view(c, indices) = e *)
  Definition iv_assign (c : cont V) (indices : list (list Z)) (e : ivx) : res (cont V) :=
    match iv_range c indices with
    | Some r => if overlaps c r e then iv_assign_temp c indices e else iv_assign_direct c indices e
    | None => iv_assign_direct c indices e
    end.
  (** core/xsemantic.hpp 406-411 and the like: index_view(c, indices) op= e *)
  Definition iv_assign_op (f : V -> V -> V) (c : cont V) (indices : list (list Z)) (e : ivx) : res (cont V) :=
    iv_assign c indices (X_fun f (X_view indices) e).

  (** views/xindex_view.hpp 313-319: index_view(c, indices) = scalar, and
      core/xsemantic.hpp 757-771: index_view(c, indices) op= scalar *)
  Definition iv_fill (c : cont V) (indices : list (list Z)) (v : V) : res (cont V) :=
    for_up (fun i c => iv_set c indices (Z.of_nat i) v) 0 (length indices) c.
  Definition iv_scalar (f : V -> V) (c : cont V) (indices : list (list Z)) : res (cont V) :=
    for_up (fun i c => let* v := iv_get c indices (Z.of_nat i) in iv_set c indices (Z.of_nat i) (f v)) 0 (length indices) c.

  (** views/xindex_view.hpp 819-825: the indices of filter<L>(c, condition) *)
  Definition filter_indices (L : layout) (shape : list Z) (cond : list Z -> res bool) : res (list (list Z)) :=
    argwhere L shape cond.

  (** views/xindex_view.hpp 761-767: xfiltration::apply, std::transform over [c] and the
      condition in the default traversal TL; the condition, of the shape of [c], may
      read [c]. *)
  Definition filtration (TL : layout) (c : cont V) (cond : cont V -> list Z -> res bool) (f : V -> V) : res (cont V) :=
    for_each (fun ix c =>
                let* v := c_read c ix in
                let* b := cond c ix in
                c_write c ix (if b : bool then f v else v)) (indices_of TL (ct_shape c)) c.
End View.
Arguments ivx : clear implicits.
