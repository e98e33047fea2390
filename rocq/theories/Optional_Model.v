(** Arrays with missing values: optional/xoptional.hpp, optional/xoptional_assembly.hpp,
    optional/xoptional_assembly_base.hpp. *)
From Coq Require Import List ZArith Bool.
From Verif Require Import Prelude Strides_Model Access_Model Broadcast_Model Stepper_Model Container_Model Assign_Model Semantic_Model Reduce_Model.
Import ListNotations.
Open Scope Z_scope.

(** xtl::xoptional (not part of /repo): a value and the flag telling that it is present. The value is
    there also when the flag is false. *)
Record opt (A : Type) : Type := mk_opt { o_value : A; o_has : bool }.
Arguments mk_opt {A}. Arguments o_value {A}. Arguments o_has {A}.
(** xtl (not part of /repo): the operators and mathematical functions of optional values: the result
    is missing as soon as an operand is. [d]: the value hidden in a missing result. *)
Definition opt_apply {A} (d : A) (f : list A -> A) (l : list (opt A)) : opt A :=
  if forallb o_has l then mk_opt (f (map o_value l)) true else mk_opt d false.
(** xtl::select (not part of /repo), called by core/xoperation.hpp 133-137: the functor of where(c, x, y). *)
Definition opt_where {A} (d : A) (truth : A -> bool) (l : list (opt A)) : opt A :=
  match l with
  | [c; x; y] => if o_has c then (if truth (o_value c) then x else y) else mk_opt d false
  | _ => mk_opt d false
  end.
Definition val_where {A} (d : A) (truth : A -> bool) (l : list A) : A :=
  match l with [c; x; y] => if truth c then x else y | _ => d end.

(** ** Expressions *)

Section Expressions.
  Context {A : Type}.
  (** Scalars (a plain one has its flag set); assemblies, optional containers and their views: a strided
      object for the values and one for the flags; arrays without flags; functions, with what the functor does with
      optional values and with plain ones. [src]: None is the memory assigned to, of the values and of the flags. *)
  Inductive oexp : Type :=
  | OScalar (o : opt A)
  | OAssembly (mv : meta) (cv : container) (mf : meta) (cf : container) (src : option (list A * list bool))
  | OArray (m : meta) (c : container) (src : option (list A))
  | OFun (fo : list (opt A) -> opt A) (f : list A -> A) (args : list oexp).

  (** optional/xoptional.hpp 76-163, 1265-1269: xt::value(e): assemblies give their values (optional/xoptional_assembly.hpp 597-607),
      functions the function of the values (optional/xoptional.hpp 966-970, 978-987) *)
  Fixpoint val_of (e : oexp) : aexp A :=
    match e with
    | OScalar o => AScalar (o_value o)
    | OAssembly mv cv _ _ src => ALeaf mv cv (option_map fst src)
    | OArray m c src => ALeaf m c src
    | OFun _ f args => AFun f (map val_of args)
    end.
  (** optional/xoptional.hpp 168-217: optional_bitwise *)
  Fixpoint optional_bitwise (l : list bool) : bool := match l with [] => true | b :: l' => andb b (optional_bitwise l') end.
  (** xt::has_value(e), optional/xoptional.hpp 1271-1275: ones of the same shape for arrays without flags (88-92), functions
      the conjunction of the flags (972-976, 989-1001) *)
  Fixpoint flag_of (e : oexp) : aexp bool :=
    match e with
    | OScalar o => AScalar (o_has o)
    | OAssembly _ _ mf cf src => ALeaf mf cf (option_map snd src)
    | OArray _ c _ => AIndexed (k_shape c) (fun _ _ => true)
    | OFun _ _ args => AFun optional_bitwise (map flag_of args)
    end.

  Definition leaf_at {B} (c : container) (buf : list B) (ix : list Z) : res B := rdz buf (k_begin c + element_offset (k_strides c) ix).
  (** e(ix): optional/xoptional_assembly_base.hpp 479-497 for assemblies; core/xfunction.hpp 638-644: the functor applied to the
      elements of the arguments. *)
  Fixpoint o_at (mv : list A) (mf : list bool) (e : oexp) (ix : list Z) : res (opt A) :=
    match e with
    | OScalar o => Ok o
    | OAssembly _ cv _ cf src =>
        let* v := leaf_at cv (match src with Some (b, _) => b | None => mv end) ix in
        let* h := leaf_at cf (match src with Some (_, b) => b | None => mf end) ix in Ok (mk_opt v h)
    | OArray _ c src => let* v := leaf_at c (match src with Some b => b | None => mv end) ix in Ok (mk_opt v true)
    | OFun fo _ args => let* vs := seqM (map (fun x => o_at mv mf x ix) args) in Ok (fo vs)
    end.
End Expressions.
Arguments oexp : clear implicits.

(** ** Assemblies *)

(** optional/xoptional_assembly.hpp 137-139: m_value and m_has_value; m_storage refers to their storages. *)
Record asm (A : Type) : Type := mk_asm { as_value : cont A; as_flag : cont bool }.
Arguments mk_asm {A}. Arguments as_value {A}. Arguments as_flag {A}.

(** A container of a given shape and layout filled with a value, containers/xarray.hpp 300-318 *)
Definition c_filled {B} (SL DL : layout) (rs : list B -> Z -> list B) (n : nat) (sh : list Z) (v : B) (l : layout) : res (cont B) :=
  let* c := c_resize_layout SL DL rs (c_default SL n v) sh l in Ok (with_data c (map (fun _ => v) (ct_data c))).

Section Assembly.
  Context {A : Type}.
  (** Static layouts of the values and of the flags; D: static number of dimensions; DL, rs: as in
      Container_Model; g, gf: build and run-time choices for the two loops. *)
  Context (SV SF : layout) (D : option nat) (DL : layout) (rv : list A -> Z -> list A) (rf : list bool -> Z -> list bool).
  Context (g gf : Z -> setup).
  Definition rank0 : nat := match D with Some n => n | None => 0%nat end.

  (** optional/xoptional_assembly.hpp 300-318: elements initialized to an optional value *)
  Definition as_filled (sh : list Z) (o : opt A) (l : layout) : res (asm A) :=
    let* v := c_filled SV DL rv rank0 sh (o_value o) l in
    let* f := c_filled SF DL rf rank0 sh (o_has o) l in Ok (mk_asm v f).
  (** optional/xoptional_assembly.hpp 363-375: from an array of values, copied *)
  Definition as_of_values (v : cont A) : res (asm A) :=
    let* f := c_filled SF DL rf rank0 (ct_shape v) true (ct_layout v) in Ok (mk_asm v f).
  (** optional/xoptional_assembly.hpp 377-390: from an array of values that is moved: its shape is read after the move. The shape of an xarray is an svector, which
      is left empty (containers/xstorage.hpp 894-899); that of an xtensor is a std::array, which is copied. *)
  Definition as_of_moved (v : cont A) : res (asm A) :=
    let* f := c_filled SF DL rf rank0 (match D with Some _ => ct_shape v | None => [] end) true (ct_layout v) in Ok (mk_asm v f).

  (** optional/xoptional_assembly_base.hpp 479-497, 589-634 *)
  Definition as_at (a : asm A) (ix : list Z) : res (opt A) :=
    let* v := rdz (ct_data (as_value a)) (element_offset (ct_strides (as_value a)) ix) in
    let* h := rdz (ct_data (as_flag a)) (element_offset (ct_strides (as_flag a)) ix) in Ok (mk_opt v h).
  (** Assignment to the reference a(ix), which consists of references to the value and to the flag *)
  Definition as_set (a : asm A) (ix : list Z) (o : opt A) : res (asm A) :=
    let* dv := wrz (ct_data (as_value a)) (element_offset (ct_strides (as_value a)) ix) (o_value o) in
    let* df := wrz (ct_data (as_flag a)) (element_offset (ct_strides (as_flag a)) ix) (o_has o) in
    Ok (mk_asm (with_data (as_value a) dv) (with_data (as_flag a) df)).
  (** optional/xoptional_assembly_base.hpp 704-720: flat(i) *)
  Definition as_flat (a : asm A) (i : Z) : res (opt A) :=
    let* v := rdz (ct_data (as_value a)) i in let* h := rdz (ct_data (as_flag a)) i in Ok (mk_opt v h).
  (** optional/xoptional_assembly_base.hpp 424-441: reshape *)
  Definition as_reshape (a : asm A) (sh : list Z) (l : layout) : res (asm A) :=
    let* v := c_reshape_unsigned SV DL (as_value a) sh l in
    let* f := c_reshape_unsigned SF DL (as_flag a) sh l in Ok (mk_asm v f).

  (** optional/xoptional.hpp 1279-1351 (assign_data: first the values, then the flags, in two loops), core/xassign.hpp 480-486 and
      570-607, optional/xoptional_assembly_base.hpp 385-391 (resize), 804-810 (broadcast_shape). Simplified: the flags of
      an operand have the shape of its values; has_value().broadcast_shape then repeats what value().broadcast_shape did.
      For a right-hand side without flags the flags are copied from an array of them (optional/xoptional.hpp 1295-1310), here from their generator. *)
  Definition o_assign (a : asm A) (e : oexp A) (r : fin (asm A)) : Prop :=
    match rhs_shape (val_of e) with
    | Throw x => r = Threw x a
    | UB => r = Undefined
    | Ok (sh, trivial) =>
        match c_resize SV DL rv (as_value a) sh false with
        | Throw x => r = Threw x a
        | UB => r = Undefined
        | Ok v =>
            match c_resize SF DL rf (as_flag a) sh false with
            | Throw x => r = Threw x (mk_asm v (as_flag a))
            | UB => r = Undefined
            | Ok f =>
                exists r1, c_assign_data g SV D v (rebind SV D (as_value a) v (val_of e)) trivial r1 /\
                match r1 with
                | Done v' =>
                    exists r2, c_assign_data gf SF D f (rebind SF D (as_flag a) f (flag_of e)) trivial r2 /\
                    r = match r2 with Done f' => Done (mk_asm v' f') | Threw x f' => Threw x (mk_asm v' f') | Undefined => Undefined end
                | Threw x v' => r = Threw x (mk_asm v' f)
                | Undefined => r = Undefined
                end
            end
        end
    end.
  (** a = e: core/xsemantic.hpp 617-640. A reference to an element of the assembly is an object that holds two references, so it has no address
      (utils/xutils.hpp 812-820), the range of the destination is empty and no overlap is ever found (895-915). *)
  Definition o_operator_assign (a : asm A) (e : oexp A) (r : fin (asm A)) : Prop := o_assign a e r.
  (** The assembly as an operand *)
  Definition o_self (a : asm A) : oexp A :=
    OAssembly (c_meta SV D (as_value a)) (c_strided (as_value a)) (c_meta SF D (as_flag a)) (c_strided (as_flag a)) None.
End Assembly.

(** ** Containers of optional values: xarray_optional *)

(** core/xtensor_forward.hpp 101-111: an xarray_container whose storage is an xtl::xoptional_vector, two vectors. *)
Record ocont (A : Type) : Type := mk_ocont { oc_shape : list Z; oc_strides : list Z; oc_layout : layout; oc_values : list A; oc_flags : list bool }.
Arguments mk_ocont {A}. Arguments oc_shape {A}. Arguments oc_strides {A}. Arguments oc_layout {A}. Arguments oc_values {A}. Arguments oc_flags {A}.
Definition oc_at {A} (a : ocont A) (ix : list Z) : res (opt A) :=
  let* v := rdz (oc_values a) (element_offset (oc_strides a) ix) in
  let* h := rdz (oc_flags a) (element_offset (oc_strides a) ix) in Ok (mk_opt v h).
(** optional/xoptional.hpp 933-957: value() and has_value() are adaptors of the two vectors, built with the shape and the
    default layout of their type (containers/xarray.hpp 576-581): the static layout. *)
Definition oc_adaptor {A B} (SL DL : layout) (rs : list B -> Z -> list B) (a : ocont A) (storage : list B) : res (cont B) :=
  c_resize_layout SL DL rs (mk_cont [] [] [] SL storage) (oc_shape a) SL.
Definition oc_value {A} (SL DL : layout) (rs : list A -> Z -> list A) (a : ocont A) : res (cont A) := oc_adaptor SL DL rs a (oc_values a).
Definition oc_has_value {A} (SL DL : layout) (rs : list bool -> Z -> list bool) (a : ocont A) : res (cont bool) := oc_adaptor SL DL rs a (oc_flags a).

(** ** Reductions of optional values *)

(** The functors of a reduction of optional values: those of the values, on optional values; the initial value is present. *)
Definition opt_f {A} (d : A) (f : A -> A -> A) (i : A) : rfun (opt A) (opt A) :=
  let op := fun x y => opt_apply d (fun l => match l with [u; v] => f u v | _ => d end) [x; y] in
  mk_rfun op (mk_opt i true) op.
(** optional/xoptional.hpp 1121-1134: value() reduces the values *)
Definition val_f {A} (f : A -> A -> A) (i : A) : rfun A A := mk_rfun f i f.
(** 1136-1149: has_value() reduces the flags with optional_bitwise, from true *)
Definition flag_f : rfun bool bool :=
  let op := fun x y => optional_bitwise [x; y] in mk_rfun op true op.
