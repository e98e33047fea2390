(** Views that hide elements behind a mask: views/xmasked_view.hpp. *)
From Coq Require Import List ZArith Bool.
From Verif Require Import Prelude Strides_Model Layout_Model Broadcast_Model Broadcast_Spec Slice_Model Stepper_Model Container_Model Assign_Model Semantic_Model Functor_Model.
Import ListNotations.
Open Scope Z_scope.

Section Masked.
  Context {V : Type}.

  (** xtl::xmasked_value (not part of /repo): a value and the flag telling that it is visible. *)
  Record masked : Type := mk_masked { m_value : V; m_visible : bool }.

  (** views/xmasked_view.hpp 240-241: m_mask is an array of flags, or an expression such as data > 0, which is evaluated
      each time it is read; here a predicate on the elements of a strided object in the memory of the data. *)
  Inductive mask : Type := Stored (c : container) | Lazy (p : V -> bool) (c : container).
  Definition mask_cont (k : mask) : container := match k with Stored c => c | Lazy _ c => c end.
  (** m_data: a strided object (container or view) in the memory [mem]; stored masks are in the memory [mm]. Assemblies of optional
      values, which have two memories, are left out. *)
  Record mview : Type := mk_mview { mv_data : container; mv_mask : mask }.
  (** views/xmasked_view.hpp 331-335 *)
  Definition mv_shape (k : mview) : list Z := k_shape (mv_data k).

  (** Two pointers: the reference to an element, 670-673 *)
  Definition mask_get (k : mask) (mem : list V) (mm : list bool) (q : Z) : res bool :=
    match k with Stored _ => rdz mm q | Lazy f _ => let* t := rdz mem q in Ok (f t) end.
  Definition mv_get (k : mview) (mem : list V) (mm : list bool) (p q : Z) : res masked :=
    let* v := rdz mem p in let* b := mask_get (mv_mask k) mem mm q in Ok (mk_masked v b).
  (** views/xmasked_view.hpp 394-412, 433-464, 473-492: operator(), unchecked and element: the same index for the data and for the
      mask, which drops leading indices and has strides 0 on its axes of extent 1. *)
  Definition mv_at (k : mview) (mem : list V) (mm : list bool) (ix : list Z) : res masked :=
    mv_get k mem mm (fv_pos (mv_data k) ix) (fv_pos (mask_cont (mv_mask k)) ix).

  (** xtl (not part of /repo): assigning to a masked value does nothing when it is hidden; when it is
      visible, a visible (or plain) value replaces the value. [hide old x]: value and flag after
      the assignment of a hidden value x to a visible one; nothing is assumed about it. *)
  Context (hide : V -> V -> V * bool).
  (** An assignment to the reference; the flag of a mask that is an expression is a temporary. *)
  Definition mv_put (k : mview) (p q : Z) (x : masked) (s : list V * list bool) : res (list V * list bool) :=
    let '(mem, mm) := s in
    let* o := mv_get k mem mm p q in
    if m_visible o then
      if m_visible x then let* mem := wrz mem p (m_value x) in Ok (mem, mm)
      else
        let '(v, b) := hide (m_value o) (m_value x) in
        let* mem := wrz mem p v in
        match mv_mask k with Stored _ => let* mm := wrz mm q b in Ok (mem, mm) | Lazy _ _ => Ok (mem, mm) end
    else Ok (mem, mm).

  (** views/xmasked_view.hpp 539-566, 607-667: the stepper does everything on a stepper of the data and on one of the mask, as
      the stepper of a function of both does. Masks with more axes than the data are not modelled here. *)
  Definition mv_pair (k : mview) : sexp unit :=
    XFun (fun _ => tt) [XStrided (mv_data k) []; XStrided (mask_cont (mv_mask k)) []].
  (** [n] times: [f] at the current index and pointers, then the next element of the traversal of the shape (core/xiterator.hpp
      1084-1176, core/xassign.hpp 654-667). *)
  Fixpoint mv_loop {A} (k : mview) (L : layout) (f : list Z -> Z -> Z -> A -> res A) (n : nat) (ix : list Z) (st : sstate) (s : A) : res A :=
    match n with
    | O => Ok s
    | S n' =>
        match st with
        | TNode [TPtr p; TPtr q] =>
            let* s := f ix p q s in
            let* '(ix, st) := (match L with row_major => row_increment (x_ops (mv_shape k) (mv_pair k)) (mv_shape k) ix st
                                          | _ => col_increment (x_ops (mv_shape k) (mv_pair k)) (mv_shape k) ix st end) in
            mv_loop k L f n' ix st s
        | _ => UB
        end
    end.
  Definition mv_iterate {A} (k : mview) (L : layout) (f : list Z -> Z -> Z -> A -> res A) (n : nat) (s : A) : res A :=
    mv_loop k L f n (repeat 0 (length (mv_shape k))) (x_begin (mv_pair k)) s.
  (** views/xmasked_view.hpp 323-326 *)
  Definition mv_size (k : mview) : nat := Z.to_nat (compute_size (mv_shape k)).

  (** begin<L>() to end<L>() *)
  Definition mv_values (L : layout) (k : mview) (mem : list V) (mm : list bool) : res (list masked) :=
    mv_iterate k L (fun _ p q acc => let* x := mv_get k mem mm p q in Ok (acc ++ [x])) (mv_size k) [].

  (** views/xmasked_view.hpp 379-382 (fill), 584-588 (view = scalar): std::fill; DT: the default traversal *)
  Definition mv_fill (DT : layout) (k : mview) (x : V) (s : list V * list bool) : res (list V * list bool) :=
    mv_iterate k DT (fun _ p q s => mv_put k p q (mk_masked x true) s) (mv_size k) s.

  (** xtl (not part of /repo): operations on masked values: hidden as soon as an operand is. [d]: a default value. *)
  Context (d : V).
  Definition m_apply (f : V -> V -> V) (a b : masked) : masked :=
    if m_visible a && m_visible b then mk_masked (f (m_value a) (m_value b)) true else mk_masked d false.

  (** core/xsemantic.hpp 757-771: view op= scalar; contiguous_layout is false (views/xmasked_view.hpp 124) *)
  Definition mv_scalar (DT : layout) (f : V -> V -> V) (k : mview) (x : V) (s : list V * list bool) : res (list V * list bool) :=
    mv_iterate k DT (fun _ p q s => let* o := mv_get k (fst s) (snd s) p q in mv_put k p q (m_apply f o (mk_masked x true)) s) (mv_size k) s.

  (** The right-hand side of an assignment: a scalar, an expression that reads neither memory, a strided object in [mem], a masked
      view, an element-wise combination. *)
  Inductive mexp : Type :=
  | MX_scalar (x : V)
  | MX_ext (sh : list Z) (f : list Z -> masked)
  | MX_array (c : container)
  | MX_view (k : mview)
  | MX_fun (f : V -> V -> V) (x y : mexp).
  Fixpoint mx_eval (mem : list V) (mm : list bool) (e : mexp) (ix : list Z) : res masked :=
    match e with
    | MX_scalar x => Ok (mk_masked x true)
    | MX_ext sh f => Ok (f (bc_index sh ix))
    | MX_array c => let* v := rdz mem (fv_pos c ix) in Ok (mk_masked v true)
    | MX_view k => mv_at k mem mm ix
    | MX_fun f x y => let* a := mx_eval mem mm x ix in let* b := mx_eval mem mm y ix in Ok (m_apply f a b)
    end.
  Fixpoint mx_expr (e : mexp) : expr :=
    match e with
    | MX_scalar _ => EScalar
    | MX_ext sh _ => ELeaf sh
    | MX_array c => ELeaf (k_shape c)
    | MX_view k => ELeaf (mv_shape k)
    | MX_fun _ x y => EFun [mx_expr x; mx_expr y]
    end.
  Definition mx_shape (e : mexp) : res (list Z) :=
    match e with
    | MX_scalar _ => Ok []
    | MX_ext sh _ => Ok sh
    | MX_array c => Ok (k_shape c)
    | MX_view k => Ok (mv_shape k)
    | MX_fun _ x y => let* '(sh, _) := expr_shape (EFun [mx_expr x; mx_expr y]) in Ok sh
    end.

  (** core/xsemantic.hpp 617-640, 726-731. A reference to an element of the view is an object that holds two references, so it has no address
      (utils/xutils.hpp 812-820) and no overlap is ever found (895-915): always in place. The data of the view is not
      contiguous (views/xmasked_view.hpp 124, 368-371): the loop of core/xassign.hpp 654-667, in the order [L]. *)
  Definition mv_store (L : layout) (k : mview) (e : mexp) (s : list V * list bool) : res (list V * list bool) :=
    mv_iterate k L (fun ix p q s => let* x := mx_eval (fst s) (snd s) e ix in mv_put k p q x s) (mv_size k) s.
  (** views/xmasked_view.hpp 577-580, core/xsemantic.hpp 773-793: view = expression *)
  Definition mv_assign (L : layout) (k : mview) (e : mexp) (s : list V * list bool) : res (list V * list bool) :=
    let* esh := mx_shape e in
    if zlist_eqb esh (mv_shape k) then mv_store L k e s
    else
      let* bsh := xbroadcast_shape esh (mv_shape k) in
      let* ok := broadcastable bsh (mv_shape k) in
      if ok : bool then mv_store L k e s else Throw broadcast_error.
  (** core/xsemantic.hpp 404-489: view op= expression *)
  Definition mv_assign_op (L : layout) (f : V -> V -> V) (k : mview) (e : mexp) (s : list V * list bool) : res (list V * list bool) :=
    mv_assign L k (MX_fun f (MX_view k) e) s.

  (** The elements of a new array of masked values are visible and get the values by assignment. *)
  Definition tmp_of (x : masked) : masked := if m_visible x then x else let '(v, b) := hide d (m_value x) in mk_masked v b.
  (** views/xmasked_view.hpp 568-573, 590-594: the copy assignment: a temporary, whose elements are then copied in the default
      traversal, as many as the temporary has *)
  Definition mv_copy (DT : layout) (k : mview) (tmp : list masked) (s : list V * list bool) : res (list V * list bool) :=
    let* '(_, s) := mv_iterate k DT (fun _ p q '(l, s) =>
        match l with [] => UB | x :: l' => let* s := mv_put k p q x s in Ok (l', s) end) (length tmp) (tmp, s) in Ok s.
  Definition mv_assign_view (DT : layout) (k r : mview) (s : list V * list bool) : res (list V * list bool) :=
    let* tmp := mv_values DT r (fst s) (snd s) in mv_copy DT k (map tmp_of tmp) s.
End Masked.
Arguments masked : clear implicits. Arguments mask : clear implicits. Arguments mview : clear implicits. Arguments mexp : clear implicits.
