(** Model of the index-generated expressions: generators/xgenerator.hpp and
    generators/xbuilder.hpp of /repo/include/xtensor. *)
From Coq Require Import List ZArith Bool.
From Verif Require Import Prelude Strides_Model Access_Model Manip_Spec.
Import ListNotations.
Open Scope Z_scope.

(** static_cast<int>, on 32 bits *)
Definition to_int (x : Z) : Z := (x + 2 ^ 31) mod 2 ^ 32 - 2 ^ 31.

(** An operand of a builder: its shape and its value at every index inside the shape.
    Simplification: any expression (container, view, function, generator); the
    conversion to the promoted value type is folded into [o_at]. *)
Record operand (V : Type) : Type := mk_operand { o_shape : list Z; o_at : list Z -> V }.
Arguments mk_operand {V}. Arguments o_shape {V}. Arguments o_at {V}.

Fixpoint inb (sh ix : list Z) : bool :=
  match sh, ix with
  | [], [] => true
  | n :: sh, i :: ix => (0 <=? i) && (i <? n) && inb sh ix
  | _, _ => false
  end.

(** element(first, last), operator[](idx) and operator()(i...) of an operand with one
    index per axis. Simplification: anything else is an outcome the model does not
    describe (C04 and C33 are about those). *)
Definition o_get {V} (o : operand V) (ix : list Z) : res V :=
  if inb (o_shape o) ix then Ok (o_at o ix) else UB.

(** *(arr.begin() + k): iteration is in row major order (C11, C34, C35). *)
Definition o_begin_plus {V} (o : operand V) (k : Z) : res V :=
  if (0 <=? k) && (k <? compute_size (o_shape o))
  then let* ix := unravel_index k (o_shape o) row_major in Ok (o_at o ix)
  else UB.

(** xgenerator (100-225): the shape and the functor m_f, called with arguments or with
    a range of iterators [read i] = *(first + i), [n] = last - first. *)
Record gen (V : Type) : Type := mk_gen {
  g_shape : list Z;
  g_fun : list Z -> res V;
  g_elem : (Z -> res Z) -> nat -> res V }.
Arguments mk_gen {V}. Arguments g_shape {V}. Arguments g_fun {V}. Arguments g_elem {V}.

(** xgenerator.hpp 488-511: adapt_index<dim>(args...) *)
Fixpoint adapt_index (shape : list Z) (dim : nat) (args : list Z) : res (list Z) :=
  match args with
  | [] => Ok []
  | arg :: args' =>
      if (length shape <? length args' + 1)%nat then
        let* r := adapt_index shape dim args' in Ok (arg :: r)
      else
        let* n := rd shape dim in
        let arg := if (n <=? arg) && (n =? 1) then 0 else arg in
        let* r := adapt_index shape (S dim) args' in Ok (arg :: r)
  end.

(** xgenerator.hpp 276-283: operator()(args...) *)
Definition gen_call {V} (g : gen V) (args : list Z) : res V :=
  let* args := adapt_index (g_shape g) 0 args in g_fun g args.

(** xgenerator.hpp 304-309: unchecked(args...) *)
Definition gen_unchecked {V} (g : gen V) (args : list Z) : res V := g_fun g args.

(** core/xiterator.hpp 1259-1264: operator* of xbounded_iterator, both iterators
    advanced by i *)
Definition bounded (shape idx : list Z) (i : Z) : res Z :=
  let* x := rdz idx i in
  let* b := rdz shape i in
  Ok (if x <? b then x else to_size_t (b - 1)).

(** xgenerator.hpp 318-325: element(first, last) *)
Definition gen_element {V} (g : gen V) (idx : list Z) : res V :=
  g_elem g (bounded (g_shape g) idx) (length idx).

(** *first, *(first + 1), ... *)
Fixpoint read_range (read : Z -> res Z) (i : Z) (n : nat) : res (list Z) :=
  match n with
  | O => Ok []
  | S n => let* x := read i in let* r := read_range read (i + 1) n in Ok (x :: r)
  end.

(** ** concatenate *)

(** xbuilder.hpp 519-525, 575-581: std::accumulate(shape.begin() + i + 1, shape.end(), 1,
    std::multiplies<size_t>()): the accumulator has the type of the literal 1, int. *)
Definition int_stride (shape : list Z) (i : nat) : Z :=
  to_size_t (fold_left (fun acc n => to_int (to_size_t (to_size_t acc * n))) (skipn (i + 1) shape) 1).

(** xbuilder.hpp 503-511: match *)
Definition cc_match {V} (axis : nat) (o : operand V) (axis_dim : Z) : res (bool * Z) :=
  let* n := rd (o_shape o) axis in
  if n <=? axis_dim then Ok (false, axis_dim - n) else Ok (true, axis_dim).

(** xbuilder.hpp 513-538: get *)
Definition cc_get_body (shape : list Z) (axis : nat) (axis_dim dim_offset : Z) (read : Z -> res Z)
    (i : nat) (offset : Z) : res Z :=
  let stride := int_stride shape i in
  if (i =? axis)%nat then Ok (to_size_t (offset + axis_dim * stride))
  else let* len := read (Z.of_nat i + dim_offset) in Ok (to_size_t (offset + len * stride)).
Definition cc_get {V} (axis : nat) (axis_dim dim_offset : Z) (read : Z -> res Z) (o : operand V) : res V :=
  let* offset := for_up (cc_get_body (o_shape o) axis axis_dim dim_offset read) 0 (length (o_shape o)) 0 in
  o_begin_plus o offset.

(** xbuilder.hpp 540-548: the loop over the tuple, then apply(i, get, t); with no match
    i = sizeof...(CT) and apply (utils/xutils.hpp 286-310) returns R{}. *)
Fixpoint cc_select {V} (dflt : V) (axis : nat) (axis_dim dim_offset : Z) (read : Z -> res Z)
    (t : list (operand V)) : res V :=
  match t with
  | [] => Ok dflt
  | o :: t' =>
      let* '(m, axis_dim) := cc_match axis o axis_dim in
      if (m : bool) then cc_get axis axis_dim dim_offset read o
      else cc_select dflt axis axis_dim dim_offset read t'
  end.

(** xbuilder.hpp 497-549: concatenate_access::access; std::get<0>(t) needs an operand *)
Definition cc_access {V} (dflt : V) (t : list (operand V)) (axis : nat) (read : Z -> res Z) (n : nat) : res V :=
  let* o0 := rd t 0 in
  let dim_offset := Z.of_nat n - Z.of_nat (length (o_shape o0)) in
  let* axis_dim := read (Z.of_nat axis + dim_offset) in
  cc_select dflt axis axis_dim dim_offset read t.

(** xbuilder.hpp 773-806: concat_shape_builder_t::build *)
Definition cc_check_body (axis : nat) (new_shape sh : list Z) (i : nat) (r : bool) : res bool :=
  if r then
    if (i =? axis)%nat then Ok true
    else let* a := rd new_shape i in let* b := rd sh i in Ok (a =? b)
  else Ok false.
Definition cc_check (axis : nat) (new_shape sh : list Z) : res unit :=
  let* r := for_up (cc_check_body axis new_shape sh) 0 (length new_shape)
              (length new_shape =? length sh)%nat in
  if (r : bool) then Ok tt else Throw concatenate_error.
Definition cc_build {V} (t : list (operand V)) (axis : nat) : res (list Z) :=
  let* o0 := rd t 0 in
  let new_shape := o_shape o0 in
  let* _ := for_each (fun o _ => cc_check axis new_shape (o_shape o)) t tt in
  let* total := for_each (fun o prev => let* n := rd (o_shape o) axis in Ok (prev + n)) t 0 in
  let* cur := rd new_shape axis in
  wr new_shape axis (cur + (total - cur)).

(** xbuilder.hpp 621-655 (concatenate_invoker) and 829-834; the overload for
    fixed shapes (717-753, 836-841) computes the same shape at compile time *)
Definition concatenate {V} (dflt : V) (t : list (operand V)) (axis : nat) : res (gen V) :=
  let* shape := cc_build t axis in
  Ok (mk_gen shape (fun args => cc_access dflt t axis (rdz args) (length args))
                   (fun read n => cc_access dflt t axis read n)).

(** xbuilder.hpp 903-909: hstack *)
Definition hstack {V} (dflt : V) (t : list (operand V)) : res (gen V) :=
  let* o0 := rd t 0 in
  concatenate dflt t (if (1 <? length (o_shape o0))%nat then 1 else 0).

(** ** stack *)

(** xbuilder.hpp 564-587: get_item *)
Definition st_get_body (shape : list Z) (axis : nat) (read : Z -> res Z) (i : nat) (s : Z * Z) : res (Z * Z) :=
  let '(offset, after_axis) := s in
  let after_axis := if (i =? axis)%nat then 1 else after_axis in
  let* len := read (Z.of_nat i + after_axis) in
  Ok (to_size_t (offset + len * int_stride shape i), after_axis).
Definition st_get {V} (axis : nat) (read : Z -> res Z) (o : operand V) : res V :=
  let* '(offset, _) := for_up (st_get_body (o_shape o) axis read) 0 (length (o_shape o)) (0, 0) in
  o_begin_plus o offset.

(** xbuilder.hpp 561-590: stack_access::access, apply as above *)
Definition st_access {V} (dflt : V) (t : list (operand V)) (axis : nat) (read : Z -> res Z) : res V :=
  let* i := read (Z.of_nat axis) in
  match nth_error t (Z.to_nat i) with Some o => st_get axis read o | None => Ok dflt end.

(** xbuilder.hpp 845-861: add_axis; copying to or inserting at a position past the end
    is undefined *)
Definition add_axis (l : list Z) (axis : nat) (value : Z) : res (list Z) :=
  if (length l <? axis)%nat then UB else Ok (firstn axis l ++ value :: skipn axis l).

(** xbuilder.hpp 882-893: stack *)
Definition stack {V} (dflt : V) (t : list (operand V)) (axis : nat) : res (gen V) :=
  let* o0 := rd t 0 in
  let* shape := add_axis (o_shape o0) axis (Z.of_nat (length t)) in
  Ok (mk_gen shape (fun args => st_access dflt t axis (rdz args)) (fun read _ => st_access dflt t axis read)).

(** xbuilder.hpp 593-619 (vstack_access), 913-928 (vstack_shape) and 939-949: vstack *)
Definition vs_access {V} (dflt : V) (t : list (operand V)) (axis : nat) (read : Z -> res Z) (n : nat) : res V :=
  let* o0 := rd t 0 in
  if (length (o_shape o0) =? 1)%nat then st_access dflt t axis read else cc_access dflt t axis read n.
Definition vstack {V} (dflt : V) (t : list (operand V)) : res (gen V) :=
  let* o0 := rd t 0 in
  let* shape :=
    (if (length (o_shape o0) =? 1)%nat
     then let* n := rd (o_shape o0) 0 in Ok [Z.of_nat (length t); n]
     else cc_build t 0) in
  Ok (mk_gen shape (fun args => vs_access dflt t 0 (rdz args) (length args))
                   (fun read n => vs_access dflt t 0 read n)).

(** ** functions of the index *)

(** xbuilder.hpp 325-366: fn_impl: operator()() passes the index {0} *)
Definition fn_impl {V} (f : (Z -> res Z) -> nat -> res V) (shape : list Z) : gen V :=
  mk_gen shape
    (fun args => match args with [] => f (rdz [0]) 1%nat | _ => f (rdz args) (length args) end)
    f.

(** xbuilder.hpp 368-391 and 402-421: eye_fn, eye(shape, k), eye(n, k) *)
Definition eye_fn (k : Z) (read : Z -> res Z) (n : nat) : res bool :=
  let* a := read (Z.of_nat n - 1) in
  let* b := read (Z.of_nat n - 2) in
  Ok (to_size_t (b + to_size_t k) =? a).
Definition eye (shape : list Z) (k : Z) : gen bool := fn_impl (eye_fn k) shape.
Definition eye_n (n k : Z) : gen bool := eye [n; n] k.

(** xbuilder.hpp 1004-1029: diagonal_fn::operator(); the state is the index being built
    and the number of times begin was incremented *)
Definition diagonal_body (axis_1 axis_2 : nat) (read : Z -> res Z) (i : nat) (s : list Z * Z) : res (list Z * Z) :=
  let '(idx, b) := s in
  if (negb (i =? axis_1) && negb (i =? axis_2))%nat then
    let* x := read b in let* idx := wr idx i x in Ok (idx, b + 1)
  else Ok (idx, b).
Definition diagonal_fn {V} (src : operand V) (offset : Z) (axis_1 axis_2 : nat)
    (read : Z -> res Z) (n : nat) : res V :=
  let d := length (o_shape src) in
  let* '(idx, b) := for_up (diagonal_body axis_1 axis_2 read) 0 d (repeat 0 d, 0) in
  let* x := read b in
  let uoffset := to_size_t offset in
  let* idx :=
    (if 0 <=? offset then
       let* idx := wr idx axis_1 x in wr idx axis_2 (to_size_t (x + uoffset))
     else
       let* idx := wr idx axis_1 (to_size_t (x - uoffset)) in wr idx axis_2 x) in
  o_get src idx.

(** xbuilder.hpp 1149-1185: diagonal *)
Definition diagonal_shape_body (shape : list Z) (axis_1 axis_2 : nat) (idim : nat) (s : list Z * nat)
    : res (list Z * nat) :=
  let '(ret, i) := s in
  if (negb (idim =? axis_1) && negb (idim =? axis_2))%nat then
    let* n := rd shape idim in let* ret := wr ret i n in Ok (ret, S i)
  else Ok (ret, i).
Definition diagonal {V} (arr : operand V) (offset : Z) (axis_1 axis_2 : nat) : res (gen V) :=
  let shape := o_shape arr in
  let dimension := length shape in
  let* s1 := rd shape axis_1 in
  let* s2 := rd shape axis_2 in
  let dim_1 := to_int s1 in
  let dim_2 := to_int s2 in
  let dim_2' := if 0 <=? offset then dim_2 - offset else dim_2 in
  let dim_1' := if 0 <=? offset then dim_1 else dim_1 + offset in
  let diag_size := to_size_t (if dim_2' <? dim_1' then dim_2' else dim_1') in
  let* '(ret, _) := for_up (diagonal_shape_body shape axis_1 axis_2) 0 dimension
                      (repeat 0 (dimension - 1), 0%nat) in
  let* ret := wr ret (length ret - 1) diag_size in
  Ok (fn_impl (diagonal_fn arr offset axis_1 axis_2) ret).

(** xbuilder.hpp 1039-1073: diag_fn; [zero] is value_type(0) *)
Definition diag_fn {V} (zero : V) (src : operand V) (k : Z) (read : Z -> res Z) (n : nat) : res V :=
  let umk := to_size_t k in
  let* a := read 0 in
  let* b := read 1 in
  if 0 <? k then
    if to_size_t (a + umk) =? b then o_get src [a] else Ok zero
  else
    if to_size_t (a + umk) =? b then o_get src [to_size_t (a + umk)] else Ok zero.
(** xbuilder.hpp 1201-1211: diag *)
Definition diag {V} (zero : V) (arr : operand V) (k : Z) : res (gen V) :=
  let* n := rd (o_shape arr) 0 in
  let s := n + Z.abs k in
  Ok (fn_impl (diag_fn zero arr k) [s; s]).

(** xbuilder.hpp 1075-1107: trilu_fn; 1222-1259: tril (>=), triu (<=) *)
Definition trilu_fn {V} (zero : V) (src : operand V) (k : Z) (comp : Z -> Z -> bool)
    (read : Z -> res Z) (n : nat) : res V :=
  let* a := read 0 in
  let* b := read 1 in
  if comp (a + k) b then let* ix := read_range read 0 n in o_get src ix else Ok zero.
Definition tril {V} (zero : V) (arr : operand V) (k : Z) : gen V :=
  fn_impl (trilu_fn zero arr k (fun a b => b <=? a)) (o_shape arr).
Definition triu {V} (zero : V) (arr : operand V) (k : Z) : gen V :=
  fn_impl (trilu_fn zero arr k (fun a b => a <=? b)) (o_shape arr).

(** xbuilder.hpp 666-699: repeat_impl; 951-983: meshgrid, one generator per operand *)
Definition repeat_fn {V} (src : operand V) (axis : nat) (read : Z -> res Z) : res V :=
  let* x := read (Z.of_nat axis) in o_get src [x].
Definition meshgrid_one {V} (shape : list Z) (src : operand V) (axis : nat) : gen V :=
  mk_gen shape (fun args => repeat_fn src axis (rdz args)) (fun read _ => repeat_fn src axis read).
Fixpoint meshgrid_from {V} (shape : list Z) (axis : nat) (es : list (operand V)) : list (gen V) :=
  match es with
  | [] => []
  | e :: es => meshgrid_one shape e axis :: meshgrid_from shape (S axis) es
  end.
Definition meshgrid {V} (es : list (operand V)) : res (list (gen V)) :=
  let* shape := for_each (fun o acc => let* n := rd (o_shape o) 0 in Ok (acc ++ [n])) es [] in
  Ok (meshgrid_from shape 0 es).

(** ** arange and linspace *)

(** xbuilder.hpp 266-281: arange_generator::access_impl, and 240-250: operator() and element;
    the arithmetic of T and S is the parameters: [at_ t] = static_cast<R>(m_start + m_step * t) *)
Definition arange_access {R} (at_ : Z -> R) (stop : R) (num_steps : Z) (endpoint : bool) (t : Z) : R :=
  if endpoint && (1 <? num_steps) && (to_size_t t =? num_steps - 1) then stop else at_ t.
Definition arange_gen {R} (start : R) (at_ : Z -> R) (stop : R) (num_steps : Z) (endpoint : bool) : gen R :=
  mk_gen [num_steps]
    (fun args => match args with [] => Ok start | t :: _ => Ok (arange_access at_ stop num_steps endpoint t) end)
    (fun read _ => let* t := read 0 in Ok (arange_access at_ stop num_steps endpoint t)).

(** xbuilder.hpp 193-204: arange_assign_to for an integral step: the storage of e, of
    size num after e.resize(m_shape) (xgenerator.hpp 376-383), is filled in order *)
Fixpoint arange_fill_add {U R} (cast : U -> R) (add : U -> U) (value : U) (num : nat) : list R :=
  match num with O => [] | S n => cast value :: arange_fill_add cast add (add value) n end.

(** xbuilder.hpp 206-221: arange_assign_to for another step *)
Definition arange_fill_mul {R} (at_ : Z -> R) (stop : R) (endpoint : bool) (num : nat) : res (list R) :=
  let* buf := for_up (fun i buf => Ok (buf ++ [at_ (Z.of_nat i)])) 0 num [] in
  if endpoint && (1 <? num)%nat then wr buf (num - 1) stop else Ok buf.

(** xbuilder.hpp 300-311: arange_impl for a signed integral step; 313-323 for an unsigned
    one. Simplification: T is a signed integral type no wider than S and nothing
    overflows. *)
Definition arange_shape_signed (start stop step : Z) : res Z :=
  let* q := cdiv (stop - start) step in
  if q <=? 0 then Ok 0
  else if start <? stop then cdiv (stop - start + step - 1) step
  else cdiv (start - stop - step - 1) (- step).
Definition arange_shape_unsigned (start stop step : Z) : res Z :=
  if stop <=? start then Ok 0 else cdiv (stop - start + step - 1) step.
Definition arange_signed (start stop step : Z) : res (gen Z) :=
  let* n := arange_shape_signed start stop step in
  Ok (arange_gen start (fun t => start + step * t) stop n false).
Definition arange_unsigned (start stop step : Z) : res (gen Z) :=
  let* n := arange_shape_unsigned start stop step in
  Ok (arange_gen start (fun t => start + step * t) stop n false).
Definition arange_assign (start step : Z) (n : Z) : list Z :=
  arange_fill_add (fun v => v) (fun v => v + step) start (Z.to_nat n).
