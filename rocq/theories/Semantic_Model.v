(** Model of the assignment operators: core/xsemantic.hpp 500-790,
    core/xassign.hpp 480-607, the overlap check of utils/xutils.hpp 808-945, and
    the temporaries of containers/xarray.hpp and views/xview.hpp. The loops that
    move the values are those of Assign_Model. *)
From Coq Require Import List ZArith Bool.
From Verif Require Import Prelude Strides_Model Broadcast_Model Slice_Model Stepper_Model Container_Model Assign_Model.
Import ListNotations.
Open Scope Z_scope.

(** How a statement ends: normally, with an exception (and the state at that
    time), or in undefined behaviour. *)
Inductive fin (T : Type) : Type := Done (t : T) | Threw (x : exn) (t : T) | Undefined.
Arguments Done {T}. Arguments Threw {T}. Arguments Undefined {T}.

(** The shape of an expression, as far as broadcasting can tell. *)
Fixpoint a_expr {V} (e : aexp V) : expr :=
  match e with
  | AScalar _ => EScalar
  | ALeaf _ c _ => ELeaf (k_shape c)
  | AIndexed esh _ => ELeaf esh
  | AFun _ args => EFun (map a_expr args)
  end.

(** shape() and the triviality flag of a right-hand side: xassign.hpp 570-607 and
    xsemantic.hpp 716-735 (get_rhs_triviality): only a function is broadcast, any
    other expression counts as trivial. *)
Definition rhs_shape {V} (e : aexp V) : res (list Z * bool) :=
  match e with
  | AScalar _ => Ok ([], true)
  | ALeaf _ c _ => Ok (k_shape c, true)
  | AIndexed esh _ => Ok (esh, true)
  | AFun _ args => expr_shape (EFun (map a_expr args))
  end.

(** The expression once the memory it reads is no longer the one that is assigned
    to (a temporary is). *)
Fixpoint frozen {V} (mem : list V) (e : aexp V) : aexp V :=
  match e with
  | AScalar v => AScalar v
  | ALeaf m c src => ALeaf m c (Some (match src with Some b => b | None => mem end))
  | AIndexed esh f => AIndexed esh (fun _ => f mem)
  | AFun f args => AFun f (map (frozen mem) args)
  end.

(** ** Overlap check, utils/xutils.hpp 826-944 *)

(** Addresses of *begin() and *rbegin(), as positions in the memory: the first
    element and the last one (strided_data_end minus one step: the sum of the
    backstrides, core/xstrides.hpp 690-723). *)
Definition addr_first (c : container) : Z := k_begin c.
Definition addr_last (c : container) : Z := k_begin c + fold_right Z.add 0 (k_backstrides c).
(** memory_range of the destination, utils/xutils.hpp 836-841 and 918-938; None for an empty one. *)
Definition dst_range (c : container) : option (Z * Z) :=
  if compute_size (k_shape c) =? 0 then None
  else let f := addr_first c in let l := addr_last c in
       Some (if l <? f then l else f, if l <? f then f else l).
(** memory_range::overlaps, utils/xutils.hpp 843-856 *)
Definition range_overlaps (r : Z * Z) (f l : Z) : bool :=
  if f <=? l then (f <=? snd r) && (fst r <=? l) else (l <=? snd r) && (fst r <=? f).

(** check_overlap of an expression: utils/xutils.hpp 868-881 (leaves), core/xfunction.hpp 166-200,
    generators/xgenerator.hpp 83-96. size() of a function computes its shape and
    may throw. Scalars and leaves with other storage have addresses outside the
    destination's memory. *)
Fixpoint expr_overlaps {V} (r : Z * Z) (e : aexp V) {struct e} : res bool :=
  match e with
  | AScalar _ => Ok false
  | ALeaf _ c None =>
      Ok (if compute_size (k_shape c) =? 0 then false else range_overlaps r (addr_first c) (addr_last c))
  | ALeaf _ c (Some _) => Ok false
  | AIndexed _ _ => Ok false
  | AFun _ args =>
      let* '(sh, _) := expr_shape (EFun (map a_expr args)) in
      if compute_size sh =? 0 then Ok false
      else (fix check (l : list (aexp V)) : res bool :=
              match l with
              | [] => Ok false
              | x :: l' => let* b := expr_overlaps r x in if b then Ok true else check l'
              end) args
  end.
(** overlapping_memory_checker_base::check_overlap, utils/xutils.hpp 895-906 *)
Definition check_overlap {V} (c : container) (e : aexp V) : res bool :=
  match dst_range c with None => Ok false | Some r => expr_overlaps r e end.

(** ** Containers *)
Section Containers.
Context {V : Type}.
(** SL, D: static layout and static number of dimensions of the container's type;
    DL, rs: as in Container_Model; v: the value a fresh 0-dimensional container
    holds; g: the build and run-time choices for a destination of a given size. *)
Context (g : Z -> setup) (SL : layout) (D : option nat) (DL : layout) (rs : list V -> Z -> list V) (v : V).

Definition c_meta (a : cont V) : meta := mk_meta KContainer SL D (ct_layout a).
Definition c_strided (a : cont V) : container := mk_container (ct_shape a) (ct_strides a) (ct_back a) 0.
Definition with_data (a : cont V) (d : list V) : cont V :=
  mk_cont (ct_shape a) (ct_strides a) (ct_back a) (ct_layout a) d.
(** The container as an operand of an expression that is assigned to it. *)
Definition self (a : cont V) : aexp V := ALeaf (c_meta a) (c_strided a) None.

(** Operands hold the destination by reference and see it resized. *)
Definition same_container (c1 c2 : container) : bool :=
  zlist_eqb (k_shape c1) (k_shape c2) && zlist_eqb (k_strides c1) (k_strides c2) &&
  zlist_eqb (k_backstrides c1) (k_backstrides c2) && (k_begin c1 =? k_begin c2).
Fixpoint rebind (a a' : cont V) (e : aexp V) : aexp V :=
  match e with
  | ALeaf m c None => if same_container c (c_strided a) then self a' else e
  | AFun f args => AFun f (map (rebind a a') args)
  | _ => e
  end.

(** The outcomes of assign_data on a container. *)
Definition c_assign_data (a : cont V) (e : aexp V) (trivial : bool) (r : fin (cont V)) : Prop :=
  exists d, assign_data (g (compute_size (ct_shape a))) (c_meta a) (c_strided a) e trivial (ct_data a) d /\
    r = match d with Ok mem => Done (with_data a mem) | Throw x => Threw x a | UB => Undefined end.

(** xassign.hpp 480-486 with resize 570-607; xsemantic.hpp 660-666. *)
Definition c_assign_xexpression (a : cont V) (e : aexp V) (r : fin (cont V)) : Prop :=
  match rhs_shape e with
  | Throw x => r = Threw x a
  | UB => r = Undefined
  | Ok (sh, trivial) =>
      match c_resize SL DL rs a sh false with
      | Throw x => r = Threw x a
      | UB => r = Undefined
      | Ok a' => c_assign_data a' (rebind a a' e) trivial r
      end
  end.

(** A default-constructed container, then assign: xarray.hpp 510-530 and
    xtensor.hpp 560-580, the constructor from an expression. *)
Definition c_fresh : cont V := c_default SL (match D with Some n => n | None => 0%nat end) v.
Definition c_construct (e : aexp V) (r : fin (cont V)) : Prop := c_assign_xexpression c_fresh e r.

(** assign_temporary is move assignment, xsemantic.hpp 654-658. *)
Definition move_temporary (a : cont V) (t : fin (cont V)) : fin (cont V) :=
  match t with Done t => Done t | Threw x _ => Threw x a | Undefined => Undefined end.

(** operator=, xsemantic.hpp 617-640 and 684-690 *)
Definition c_operator_assign (a : cont V) (e : aexp V) (r : fin (cont V)) : Prop :=
  match check_overlap (c_strided a) e with
  | Throw x => r = Threw x a
  | UB => r = Undefined
  | Ok true => exists t, c_construct (frozen (ct_data a) e) t /\ r = move_temporary a t
  | Ok false => c_assign_xexpression a e r
  end.
(** operator+= etc., xsemantic.hpp 405-490: [f] is the function of a + e. *)
Definition c_operator_compound (a : cont V) (f : list V -> V) (e : aexp V) (r : fin (cont V)) : Prop :=
  c_operator_assign a (AFun f [self a; e]) r.

(** std::lexicographical_compare with std::greater. *)
Fixpoint lex_greater (s1 s2 : list Z) : bool :=
  match s1, s2 with
  | [], [] => false
  | [], _ :: _ => true
  | _ :: _, [] => false
  | x :: s1', y :: s2' => if y <? x then true else if x <? y then false else lex_greater s1' s2'
  end.

(** computed_assign, xassign.hpp 488-523 *)
Definition c_computed_assign (a : cont V) (e : aexp V) (r : fin (cont V)) : Prop :=
  let dim2 := dimension (a_expr e) in
  match expr_shape (a_expr e) with
  | Throw x => r = Threw x a
  | UB => r = Undefined
  | Ok (sh, trivial) =>
      if (length (ct_shape a) <? dim2)%nat || lex_greater sh (ct_shape a) then
        match c_resize_layout SL DL rs c_fresh sh SL with
        | Throw x => r = Threw x a
        | UB => r = Undefined
        | Ok tmp => exists t, c_assign_data tmp (frozen (ct_data a) e) trivial t /\ r = move_temporary a t
        end
      else c_assign_data a e trivial r
  end.
(** plus_assign etc. and noalias(a) += e, xsemantic.hpp 517-615 *)
Definition c_noalias_compound (a : cont V) (f : list V -> V) (e : aexp V) (r : fin (cont V)) : Prop :=
  c_computed_assign a (AFun f [self a; e]) r.

(** The scalar of a += s is taken by reference (xsemantic.hpp 312-400): an object
    outside the container, or the element of the container stored at a position. *)
Inductive scalar_arg : Type := SValue (s : V) | SElement (q : Z).
Definition scalar_read (s : scalar_arg) (mem : list V) : res V :=
  match s with SValue s => Ok s | SElement q => rdz mem q end.
(** scalar_computed_assign, xassign.hpp 525-537: d.size() values of the storage from its
    beginning. *)
Fixpoint scalar_loop (f : V -> V -> V) (s : scalar_arg) (n : nat) (p : Z) (mem : list V) : res (list V) :=
  match n with
  | O => Ok mem
  | S n' => let* x := rdz mem p in let* y := scalar_read s mem in
            let* mem := wrz mem p (f x y) in scalar_loop f s n' (p + 1) mem
  end.
Definition c_scalar_compound (a : cont V) (f : V -> V -> V) (s : scalar_arg) : fin (cont V) :=
  match scalar_loop f s (Z.to_nat (c_size SL a)) 0 (ct_data a) with
  | Ok d => Done (with_data a d)
  | Throw x => Threw x a
  | UB => Undefined
  end.
End Containers.

(** ** Views: a strided destination [c] with static knowledge [m] in a memory *)
Section Views.
Context {V : Type}.
(** TL, TD: static layout and dimension of the view's temporary_type; DT:
    XTENSOR_DEFAULT_TRAVERSAL; strided_view: the view is known to be strided at
    compile time (views/xview.hpp 61-96). *)
Context (g : Z -> setup) (TL : layout) (TD : option nat) (DL DT : layout) (rs : list V -> Z -> list V) (v : V)
  (strided_view : bool).

Definition ended (mem : list V) (d : res (list V)) : fin (list V) :=
  match d with Ok mem' => Done mem' | Throw x => Threw x mem | UB => Undefined end.
Definition v_assign_data (m : meta) (c : container) (e : aexp V) (trivial : bool) (mem : list V) (r : fin (list V)) : Prop :=
  exists d, assign_data (g (compute_size (k_shape c))) m c e trivial mem d /\ r = ended mem d.
Definition v_run (c : container) (e : aexp V) (phs : res (list phase)) (mem : list V) (r : fin (list V)) : Prop :=
  match phs with
  | Ok phs => exists d, outcome e phs mem d /\ r = ended mem d
  | Throw x => r = Threw x mem
  | UB => r = Undefined
  end.

(** assign_xexpression and computed_assign of a view, xsemantic.hpp 737-753, with
    assert_compatible_shape, xassign.hpp 539-550; noalias(view) = e calls it. *)
Definition v_assign_xexpression (m : meta) (c : container) (e : aexp V) (mem : list V) (r : fin (list V)) : Prop :=
  match rhs_shape e with
  | Throw x => r = Threw x mem
  | UB => r = Undefined
  | Ok (sh, trivial) =>
      match broadcastable sh (k_shape c) with
      | Ok true => v_assign_data m c e trivial mem r
      | Ok false => r = Threw broadcast_error mem
      | Throw x => r = Threw x mem
      | UB => r = Undefined
      end
  end.

(** assign_temporary_impl, views/xview.hpp 1742-1769 and views/xstrided_view.hpp
    414-436: the strided loop with its fallback, or std::copy between iterators that
    advance in the order of XTENSOR_DEFAULT_TRAVERSAL. Copying more values than the
    view has is undefined. *)
Definition temporary_leaf (t : cont V) : aexp V := ALeaf (c_meta TL TD t) (c_strided t) (Some (ct_data t)).
Definition copy_plan (c : container) (e : aexp V) : res (list phase) :=
  let* ts := stepper_loop (both_ops c e) (k_shape c) DT
    (Z.to_nat (compute_size (k_shape c))) (repeat 0 (length (k_shape c)))
    (TNode [TPtr (k_begin c); x_begin (inst [] e)]) in
  Ok [[ts]].
Definition v_assign_temporary (m : meta) (c : container) (t : cont V) (mem : list V) (r : fin (list V)) : Prop :=
  let e := temporary_leaf t in
  let gs := g (compute_size (k_shape c)) in
  if strided_view && g_types gs && leaf_simd m && a_simd e && a_strided e then
    v_run c e (let* ls := get_loop_sizes c e in if ls_can ls then strided_plan gs m c e ls else stepper_plan gs m c e) mem r
  else if compute_size (ct_shape t) =? compute_size (k_shape c) then v_run c e (copy_plan c e) mem r
  else r = Undefined.

Definition v_from_temporary (m : meta) (c : container) (mem : list V) (t : fin (cont V)) (r : fin (list V)) : Prop :=
  match t with
  | Done t => v_assign_temporary m c t mem r
  | Threw x _ => r = Threw x mem
  | Undefined => r = Undefined
  end.

(** The assignment of broadcast(e, shape): not a function, no strides, no static
    layout; its steppers are those of e for the broadcast shape; has_linear_assign:
    views/xbroadcast.hpp 440-445. [esh]: shape of e, [bsh]: of the broadcast. *)
Definition broadcast_plan (gs : setup) (m : meta) (c : container) (e : aexp V) (esh bsh : list Z) : res (list phase) :=
  if is_contiguous m c && zlist_eqb bsh esh && has_linear_assign (k_strides c) e
  then Ok (linear_plan gs m c e) else stepper_plan gs m c e.
(** The constructor of the temporary from broadcast(e, shape). *)
Definition c_construct_broadcast (e : aexp V) (esh bsh : list Z) (r : fin (cont V)) : Prop :=
  match c_resize TL DL rs (c_fresh TL TD v) bsh false with
  | Throw x => r = Threw x (c_fresh TL TD v)
  | UB => r = Undefined
  | Ok a =>
      exists d, v_run (c_strided a) e (broadcast_plan (g (compute_size bsh)) (c_meta TL TD a) (c_strided a) e esh bsh) (ct_data a) d /\
        r = match d with Done mem => Done (with_data a mem) | Threw x _ => Threw x a | Undefined => Undefined end
  end.

(** operator= of a view, xsemantic.hpp 769-790, then 617-640. *)
Definition v_operator_assign (m : meta) (c : container) (e : aexp V) (mem : list V) (r : fin (list V)) : Prop :=
  match rhs_shape e with
  | Throw x => r = Threw x mem
  | UB => r = Undefined
  | Ok (esh, _) =>
      if zlist_eqb esh (k_shape c) then
        match check_overlap c e with
        | Throw x => r = Threw x mem
        | UB => r = Undefined
        | Ok true => exists t, c_construct g TL TD DL rs v (frozen mem e) t /\ v_from_temporary m c mem t r
        | Ok false => v_assign_xexpression m c e mem r
        end
      else
        match xbroadcast_shape esh (k_shape c) with
        | Throw x => r = Threw x mem
        | UB => r = Undefined
        | Ok bsh =>
            match (if compute_size bsh =? 0 then Ok false else check_overlap c e) with
            | Throw x => r = Threw x mem
            | UB => r = Undefined
            | Ok true => exists t, c_construct_broadcast (frozen mem e) esh bsh t /\ v_from_temporary m c mem t r
            | Ok false =>
                match broadcastable bsh (k_shape c) with
                | Ok true => v_run c e (broadcast_plan (g (compute_size (k_shape c))) m c e esh bsh) mem r
                | Ok false => r = Threw broadcast_error mem
                | Throw x => r = Threw x mem
                | UB => r = Undefined
                end
            end
        end
  end.
End Views.
