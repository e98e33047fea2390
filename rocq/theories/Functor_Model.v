(** Views and adaptors that apply a functor to every element: xfunctor_view and
    xfunctor_adaptor (views/xfunctor_view.hpp), the parts of an element at an offset
    (views/xoffset_view.hpp), real and imag (misc/xcomplex.hpp). *)
From Coq Require Import List ZArith Bool.
From Verif Require Import Prelude Strides_Model Layout_Model Broadcast_Model Slice_Model Stepper_Model Container_Model Assign_Model Semantic_Model Reduce_Spec.
Import ListNotations.
Open Scope Z_scope.

Section Functor.
  (** T: the elements of the underlying expression; M: the values of the view. *)
  Context {T M : Type}.

  (** A functor: the value it gives for an element, the effect on the element of an
      assignment to the reference it returns, and, when this is a genuine reference
      to a part of the element (and not a proxy), the offset of that part. *)
  Record accessor := mk_accessor { acc_get : T -> M; acc_put : T -> M -> T; acc_off : option Z }.

  (** The underlying expression is a strided object (container or view) [c] in the
      memory [mem]. Element access drops leading indices and uses strides 0 on axes
      of extent 1, so it is also the access by steppers for a larger shape. *)
  Definition fv_pos (c : container) (ix : list Z) : Z := k_begin c + element_offset (k_strides c) ix.
  (** views/xfunctor_view.hpp 769-775 (operator()), 796-801 (unchecked), 810-816 (element): the
      functor applied to the element of the underlying expression. The checks of the
      debug mode are left out. *)
  Definition fv_read (a : accessor) (c : container) (mem : list T) (ix : list Z) : res M :=
    let* t := rdz mem (fv_pos c ix) in Ok (acc_get a t).
  (** An assignment to that reference. *)
  Definition fv_write (a : accessor) (c : container) (mem : list T) (ix : list Z) (v : M) : res (list T) :=
    let* t := rdz mem (fv_pos c ix) in wrz mem (fv_pos c ix) (acc_put a t v).

  (** views/xfunctor_view.hpp 932-1020: begin<L>() to end<L>(): iterators of the
      underlying expression, dereferenced through the functor (1549-1552). *)
  Definition fv_values (a : accessor) (L : layout) (c : container) (mem : list T) : res (list M) :=
    seqM (map (fv_read a c mem) (indices_of L (k_shape c))).

  (** Iterators, as positions in the traversal. views/xfunctor_view.hpp 1560-1570:
      equal, less_than, then 1572-1582: operator== and operator<. *)
  Definition fi_equal (p q : Z) : bool := p =? q.
  Definition fi_less_than (p q : Z) : bool := p <? q.
  Definition fi_eq (p q : Z) : bool := fi_equal p q.
  Definition fi_lt (p q : Z) : bool := negb (fi_less_than p q).

  (** The right-hand side of an assignment: a scalar, an expression that does not
      read [mem] (stored in memory or not), a functor view of a strided object in [mem],
      an element-wise combination. *)
  Inductive fexp :=
  | FX_scalar (v : M)
  | FX_ext (stored : bool) (sh : list Z) (f : list Z -> M)
  | FX_view (a : accessor) (c : container)
  | FX_fun (f : M -> M -> M) (x y : fexp).
  (** Its value seen at the index [ix] of a shape it is broadcast to *)
  Fixpoint fx_eval (mem : list T) (e : fexp) (ix : list Z) : res M :=
    match e with
    | FX_scalar v => Ok v
    | FX_ext _ sh f => Ok (f (Broadcast_Spec.bc_index sh ix))
    | FX_view a c => fv_read a c mem ix
    | FX_fun f x y => let* u := fx_eval mem x ix in let* v := fx_eval mem y ix in Ok (f u v)
    end.
  Fixpoint fx_expr (e : fexp) : expr :=
    match e with
    | FX_scalar _ => EScalar
    | FX_ext _ sh _ => ELeaf sh
    | FX_view _ c => ELeaf (k_shape c)
    | FX_fun _ x y => EFun [fx_expr x; fx_expr y]
    end.
  Definition fx_shape (e : fexp) : res (list Z) :=
    match e with
    | FX_scalar _ => Ok []
    | FX_ext _ sh _ => Ok sh
    | FX_view _ c => Ok (k_shape c)
    | FX_fun _ x y => let* '(sh, _) := expr_shape (EFun [fx_expr x; fx_expr y]) in Ok sh
    end.

  (** utils/xutils.hpp 808-944, core/xfunction.hpp 166-200: the overlap check. The
      address of a part: [w] parts per element. A destination without addresses gives
      the empty range, which nothing overlaps; an operand without addresses is assumed
      to overlap. (The test that an operand is empty is made for the operand itself and
      not for the functions around it.) *)
  Context (w : Z).
  Definition part_range (o : Z) (c : container) : option (Z * Z) :=
    match dst_range c with None => None | Some (f, l) => Some (w * f + o, w * l + o) end.
  Definition fv_range (a : accessor) (c : container) : option (Z * Z) :=
    match acc_off a with None => None | Some o => part_range o c end.
  Fixpoint fx_overlaps (r : Z * Z) (e : fexp) : bool :=
    match e with
    | FX_scalar _ => false
    | FX_ext stored sh _ => if compute_size sh =? 0 then false else negb stored
    | FX_view a c =>
        match acc_off a with
        | None => true
        | Some o => match part_range o c with None => false | Some (f, l) => range_overlaps r f l end
        end
    | FX_fun _ x y => fx_overlaps r x || fx_overlaps r y
    end.

  (** core/xsemantic.hpp 726-731: assign_xexpression of the view, element by element on
      the current memory; [L]: the order of the loop, which depends on the layouts of
      both sides. *)
  Definition fv_direct (L : layout) (a : accessor) (c : container) (e : fexp) (mem : list T) : res (list T) :=
    for_each (fun ix mem => let* v := fx_eval mem e ix in fv_write a c mem ix v) (indices_of L (k_shape c)) mem.
  (** views/xfunctor_view.hpp 1428-1432: assign_temporary_impl: the temporary is
      copied in the order DT (XTENSOR_DEFAULT_TRAVERSAL). *)
  Fixpoint fv_copy (a : accessor) (c : container) (ixs : list (list Z)) (vs : list M) (mem : list T) : res (list T) :=
    match ixs, vs with
    | _, [] => Ok mem
    | ix :: ixs', v :: vs' => let* mem := fv_write a c mem ix v in fv_copy a c ixs' vs' mem
    | [], _ :: _ => UB
    end.
  Definition fv_by_copy (DT : layout) (a : accessor) (c : container) (e : fexp) (mem : list T) : res (list T) :=
    let* tmp := seqM (map (fx_eval mem e) (indices_of DT (k_shape c))) in
    fv_copy a c (indices_of DT (k_shape c)) tmp mem.

  (** core/xsemantic.hpp 617-640: xsemantic_base::operator= *)
  Definition fv_store (L DT : layout) (a : accessor) (c : container) (e : fexp) (mem : list T) : res (list T) :=
    match fv_range a c with
    | Some r => if fx_overlaps r e then fv_by_copy DT a c e mem else fv_direct L a c e mem
    | None => fv_direct L a c e mem
    end.
  (** views/xfunctor_view.hpp 1402-1416: operator=(xexpression) *)
  Definition fv_assign (L DT : layout) (a : accessor) (c : container) (e : fexp) (mem : list T) : res (list T) :=
    let* esh := fx_shape e in
    if zlist_eqb esh (k_shape c) then fv_store L DT a c e mem
    else
      let* bsh := xbroadcast_shape esh (k_shape c) in
      let* ok := broadcastable bsh (k_shape c) in
      if ok : bool then fv_store L DT a c e mem else Throw broadcast_error.
  (** core/xsemantic.hpp 404-489: view op= expression *)
  Definition fv_assign_op (L DT : layout) (f : M -> M -> M) (a : accessor) (c : container) (e : fexp) (mem : list T) : res (list T) :=
    fv_assign L DT a c (FX_fun f (FX_view a c) e) mem.
  (** views/xfunctor_view.hpp 1420-1426: view = scalar *)
  Definition fv_fill (DT : layout) (a : accessor) (c : container) (v : M) (mem : list T) : res (list T) :=
    for_each (fun ix mem => fv_write a c mem ix v) (indices_of DT (k_shape c)) mem.
  (** core/xsemantic.hpp 757-771: view op= scalar; L: the order of the storage or the
      default traversal *)
  Definition fv_scalar (L : layout) (f : M -> M) (a : accessor) (c : container) (mem : list T) : res (list T) :=
    for_each (fun ix mem => let* x := fv_read a c mem ix in fv_write a c mem ix (f x)) (indices_of L (k_shape c)) mem.

  (** ** xfunctor_adaptor *)

  (** The right-hand side: a container, or a function of two. *)
  Inductive adx := AD_cont (b : cont M) | AD_fun (f : M -> M -> M) (b1 b2 : cont M).
  Definition ad_shape (e : adx) : res (list Z) :=
    match e with
    | AD_cont b => Ok (ct_shape b)
    | AD_fun _ b1 b2 => let* '(sh, _) := expr_shape (EFun [ELeaf (ct_shape b1); ELeaf (ct_shape b2)]) in Ok sh
    end.
  (** core/xfunction.hpp 605-609, 864-868 *)
  Definition ad_layout (e : adx) : layout :=
    match e with AD_cont b => ct_layout b | AD_fun _ b1 b2 => lay (compute_layout [ct_layout b1; ct_layout b2]) end.
  (** linear_begin() advanced by k (core/xfunction.hpp 753-783: the linear iterators of
      the operands), and the distance to linear_end(): functions compare the iterators of
      the first operand only (core/xfunction.hpp 1005-1013). *)
  Definition ad_linear (e : adx) (k : nat) : res M :=
    match e with
    | AD_cont b => rd (ct_data b) k
    | AD_fun f b1 b2 => let* u := rd (ct_data b1) k in let* v := rd (ct_data b2) k in Ok (f u v)
    end.
  Definition ad_count (e : adx) : nat :=
    match e with AD_cont b => length (ct_data b) | AD_fun _ b1 _ => length (ct_data b1) end.
  (** The value at an index of the shape *)
  Definition ad_at (e : adx) (ix : list Z) : res M :=
    match e with
    | AD_cont b => rdz (ct_data b) (element_offset (ct_strides b) ix)
    | AD_fun f b1 b2 =>
        let* u := rdz (ct_data b1) (element_offset (ct_strides b1) ix) in
        let* v := rdz (ct_data b2) (element_offset (ct_strides b2) ix) in Ok (f u v)
    end.
  (** views/xfunctor_view.hpp 1452-1471: operator=(xexpression) of an adaptor of the
      container [c]; the right-hand side does not read [c]. *)
  Definition fa_assign (SL DL DT : layout) (rs : list T -> Z -> list T) (a : accessor) (c : cont T) (e : adx) : res (cont T) :=
    let* sh := ad_shape e in
    let* c := c_resize SL DL rs c sh false in
    let* d :=
      (if layout_eqb (ct_layout c) (ad_layout e) then
         for_up (fun k d => let* v := ad_linear e k in let* t := rd d k in wr d k (acc_put a t v)) 0 (ad_count e) (ct_data c)
       else
         let* vs := seqM (map (ad_at e) (indices_of DT sh)) in
         fv_copy a (c_strided c) (indices_of DT (ct_shape c)) vs (ct_data c)) in
    Ok (with_data c d).
End Functor.
Arguments accessor : clear implicits. Arguments fexp : clear implicits. Arguments adx : clear implicits.

(** views/xoffset_view.hpp 36-40, misc/xcomplex.hpp 49-62: real and imag of an expression
    of complex numbers: the parts at offsets 0 and sizeof(real_type). *)
Definition real_part (M : Type) : accessor (M * M) M := mk_accessor fst (fun t m => (m, snd t)) (Some 0).
Definition imag_part (M : Type) : accessor (M * M) M := mk_accessor snd (fun t m => (fst t, m)) (Some 1).
