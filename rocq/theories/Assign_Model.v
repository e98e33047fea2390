(** Model of the assignment of an expression to a container or view:
    /repo/include/xtensor/core/xassign.hpp (assign_data and its three loops, with
    their SIMD and parallel variants) and the parts of core/xfunction.hpp,
    containers/xcontainer.hpp, views/xview.hpp and views/xstrided_view.hpp they
    use. A SIMD batch is a fixed number of consecutive values on which functions
    act lane by lane (xsimd itself is not modelled). Conversions between value
    types are part of the assigned function. The control flow of the loops does
    not depend on the data, so the loops are modelled as the list of loads and
    stores they perform, and their execution, in which several threads may
    interleave, as a separate step. *)
From Coq Require Import List ZArith Bool.
From Verif Require Import Prelude Strides_Model Layout_Model Slice_Model Stepper_Model.
Import ListNotations.
Open Scope Z_scope.

(** What the code knows about a leaf of the expression or about the destination:
    the class template, its static layout, the number of dimensions if that is
    static, and layout(). *)
Inductive kind : Type := KContainer | KView | KStridedView.
Record meta : Type := mk_meta {
  m_kind : kind; m_static : layout; m_dim : option nat; m_layout : layout
}.

(** The right-hand side: scalars, strided leaves, expressions read by index
    (generators) and functions. [src = None]: the leaf reads the memory that is
    being assigned to; a generator may read it as well. *)
Inductive aexp (V : Type) : Type :=
| AScalar (v : V)
| ALeaf (m : meta) (c : container) (src : option (list V))
| AIndexed (esh : list Z) (f : list V -> list Z -> V)
| AFun (f : list V -> V) (args : list (aexp V)).
Arguments AScalar {V}. Arguments ALeaf {V}. Arguments AIndexed {V}. Arguments AFun {V}.

(** The expression with the current contents of the destination's memory. *)
Fixpoint inst {V} (mem : list V) (e : aexp V) : sexp V :=
  match e with
  | AScalar v => XScalar v
  | ALeaf _ c src => XStrided c (match src with Some b => b | None => mem end)
  | AIndexed esh f => XIndexed esh (f mem)
  | AFun f args => XFun f (map (inst mem) args)
  end.

Definition lay (o : option layout) : layout := match o with Some l => l | None => dynamic end.

(** ** Static and dynamic properties used by assign_data *)

(** static_layout: xscalar.hpp 145 (any), xcontainer.hpp 105, xview.hpp 390,
    xstrided_view_base.hpp 132, xgenerator.hpp 140 (dynamic), xfunction.hpp 256. *)
Fixpoint a_static {V} (e : aexp V) : layout :=
  match e with
  | AScalar _ => any
  | ALeaf m _ _ => m_static m
  | AIndexed _ _ => dynamic
  | AFun _ args => lay (compute_layout (map a_static args))
  end.
(** contiguous_layout: xscalar.hpp 146, xcontainer.hpp 106, xview.hpp 391,
    xgenerator.hpp 141, xfunction.hpp 257; xstrided_view_base.hpp 133-134 also
    requires it of the underlying expression, which is folded into m_static. *)
Definition contiguous_layout (l : layout) : bool := negb (layout_eqb l dynamic).

(** static dimension of shape_type, -1 (None) if it is not static; for a function
    the largest one (core/xshape.hpp 299-330, promote_shape). *)
Fixpoint a_dim {V} (e : aexp V) : option nat :=
  match e with
  | AScalar _ => Some 0%nat
  | ALeaf m _ _ => m_dim m
  | AIndexed _ _ => None
  | AFun _ args =>
      fold_right (fun a acc => match a_dim a, acc with Some x, Some y => Some (Nat.max x y) | _, _ => None end)
        (Some 0%nat) args
  end.
(** core/xshape.hpp 263-270: select_layout *)
Definition select_layout (l : layout) (d : option nat) : layout :=
  match d with
  | Some n => if (n <=? 1)%nat && negb (layout_eqb l dynamic) then any else l
  | None => l
  end.

(** layout(): xscalar.hpp 544, xgenerator.hpp 255, xfunction.hpp 605-609. *)
Fixpoint a_layout {V} (e : aexp V) : layout :=
  match e with
  | AScalar _ => any
  | ALeaf m _ _ => m_layout m
  | AIndexed _ _ => dynamic
  | AFun _ args => lay (compute_layout (map a_layout args))
  end.

(** std::find_if_not(strides.rbegin(), strides.rend(), is_zero) and its forward
    variant: the first non-zero stride. *)
Definition last_nonzero (st : list Z) : option Z := find (fun s => negb (s =? 0)) (rev st).
Definition first_nonzero (st : list Z) : option Z := find (fun s => negb (s =? 0)) st.

(** is_contiguous(): xcontainer.hpp 930-960, xview.hpp 993-997,
    xstrided_view_base.hpp 418-422. *)
Definition is_contiguous (m : meta) (c : container) : bool :=
  match m_kind m with
  | KContainer =>
      match m_layout m with
      | row_major => match last_nonzero (k_strides c) with None => true | Some s => s =? 1 end
      | column_major => match first_nonzero (k_strides c) with None => true | Some s => s =? 1 end
      | _ => match k_strides c with [] => true | _ => false end
      end
  | _ => negb (layout_eqb (m_layout m) dynamic)
  end.
(** xscalar.hpp 548-551 (true), xgenerator.hpp 259-262 (false), xfunction.hpp 611-623. *)
Fixpoint a_is_contiguous {V} (e : aexp V) : bool :=
  match e with
  | AScalar _ => true
  | ALeaf m c _ => is_contiguous m c
  | AIndexed _ _ => false
  | AFun _ args =>
      negb (layout_eqb (lay (compute_layout (map a_layout args))) dynamic) && forallb a_is_contiguous args
  end.

(** has_linear_assign(strides): xscalar.hpp (true), xcontainer.hpp 631-636 and
    xview.hpp (same number of strides, all equal), xstrided_view_base.hpp 651-657
    (the same), xgenerator.hpp (false), xfunction.hpp 737-750 (all operands). *)
Fixpoint has_linear_assign {V} (st : list Z) (e : aexp V) : bool :=
  match e with
  | AScalar _ => true
  | ALeaf _ c _ => zlist_eqb (k_strides c) st
  | AIndexed _ _ => false
  | AFun _ args => forallb (has_linear_assign st) args
  end.

(** linear_static_layout and is_linear_assign, xassign.hpp 254-275 *)
Definition is_linear_assign {V} (m : meta) (c : container) (e : aexp V) : bool :=
  (contiguous_layout (m_static m) && contiguous_layout (a_static e) &&
   negb (layout_eqb (lay (compute_layout [select_layout (m_static m) (m_dim m);
                                          select_layout (a_static e) (a_dim e)])) dynamic))
  || (is_contiguous m c && has_linear_assign (k_strides c) e).

(** simd_interface: load_simd and store_simd exist (xcontainer.hpp 751-768, xview.hpp
    630-660; xstrided_view.hpp 258: only with a static layout; not on generators). *)
Definition leaf_simd (m : meta) : bool :=
  match m_kind m with KStridedView => negb (layout_eqb (m_static m) dynamic) | _ => true end.
Fixpoint a_simd {V} (e : aexp V) : bool :=
  match e with
  | AScalar _ => true
  | ALeaf m _ _ => leaf_simd m
  | AIndexed _ _ => false
  | AFun _ args => forallb a_simd args
  end.
(** use_strided_loop, xassign.hpp 299-322: every leaf has strides. *)
Fixpoint a_strided {V} (e : aexp V) : bool :=
  match e with
  | AIndexed _ _ => false
  | AFun _ args => forallb a_strided args
  | _ => true
  end.

(** What the build and the run-time system decide: whether the value types have
    SIMD batches, the width of a batch, the number of leading values before the
    first aligned one (get_alignment_offset), whether OpenMP or TBB is used and how
    it cuts the iterations into pieces, XTENSOR_DEFAULT_LAYOUT. *)
Record setup : Type := mk_setup {
  g_types : bool; g_width : Z; g_align : Z; g_parallel : bool; g_sizes : list nat; g_default : layout
}.

(** ** Loads and stores *)

(** One lane: a position in the destination's storage and the stepper state the
    value is read at. A task is one statement of a loop: a single assignment, or a
    load_simd and store_simd on a batch. *)
Definition lane : Type := (Z * sstate)%type.
Definition task : Type := list lane.
(** A phase is a set of threads, run to completion before the next phase; a thread
    is a sequence of tasks. *)
Definition phase : Type := list (list task).

(** How a parallel loop cuts its iterations: contiguous pieces. *)
Fixpoint pieces {A} (sizes : list nat) (l : list A) : list (list A) :=
  match sizes with
  | [] => [l]
  | n :: sizes' => firstn n l :: pieces sizes' (skipn n l)
  end.

(** ** linear_assigner, xassign.hpp 701-849 *)

(** Position of flat index i: linear_begin() + i (xcontainer.hpp 769-790, xview.hpp
    1170-1200, xstrided_view.hpp 488-520) for the plain loop; data_element(i) and
    load_simd(i) (xcontainer.hpp 653-664 and 751-768, xview.hpp 1475-1506,
    xstrided_view.hpp 463-473 and 675-690) for the SIMD one. *)
Definition flat_position (simd : bool) (m : meta) (c : container) (i : Z) : Z :=
  match m_kind m with
  | KStridedView => if simd then i else k_begin c + i
  | _ => k_begin c + i
  end.
(** data_element / linear iterators of an expression: xfunction.hpp 754-775, 832-835,
    899-903; xscalar.hpp 466-490, 920-930. *)
Fixpoint flat_state {V} (simd : bool) (e : aexp V) (i : Z) : sstate :=
  match e with
  | AScalar _ => TUnit
  | ALeaf m c _ => TPtr (flat_position simd m c i)
  | AIndexed _ _ => TUnit
  | AFun _ args => TNode (map (fun a => flat_state simd a i) args)
  end.
Definition flat_lane {V} (simd : bool) (m : meta) (c : container) (e : aexp V) (i : Z) : lane :=
  (flat_position simd m c i, flat_state simd e i).

Definition zseq (a : Z) (n : nat) : list Z := map (fun k => a + Z.of_nat k) (seq 0 n).

(** linear_assigner<false>, 790-843 *)
Definition linear_plan {V} (g : setup) (m : meta) (c : container) (e : aexp V) : list phase :=
  let tasks := map (fun i => [flat_lane false m c e i]) (zseq 0 (Z.to_nat (compute_size (k_shape c)))) in
  [if g_parallel g then pieces (g_sizes g) tasks else [tasks]].

(** linear_assigner<true>, 703-788: values before the first aligned one, batches,
    remaining values. *)
Definition simd_plan {V} (g : setup) (m : meta) (c : container) (e : aexp V) : list phase :=
  let size := compute_size (k_shape c) in
  let w := g_width g in
  let align_begin := g_align g in
  let align_end := align_begin + Z.land (size - align_begin) (Z.lnot (w - 1)) in
  let one i := [flat_lane true m c e i] in
  let batch i := map (fun j => flat_lane true m c e j) (zseq i (Z.to_nat w)) in
  let nb := Z.to_nat ((align_end - align_begin + w - 1) / w) in
  let batches := map (fun k => batch (align_begin + Z.of_nat k * w)) (seq 0 nb) in
  [ [map one (zseq 0 (Z.to_nat align_begin))];
    (if g_parallel g then pieces (g_sizes g) batches else [batches]);
    [map one (zseq align_end (Z.to_nat (size - align_end)))] ].

(** ** stepper_assigner, xassign.hpp 644-695 *)

(** The pair of steppers (m_lhs, m_rhs), which move together: step, reset and
    to_end are applied to both. *)
Definition both_ops {V} (c : container) (e : aexp V) : stepper_ops sstate :=
  node_ops [x_ops (k_shape c) (@XStrided V c []); x_ops (k_shape c) (inst [] e)].

(** One assignment and one increment_stepper per element, 651-665. *)
Fixpoint stepper_loop (ops : stepper_ops sstate) (sh : list Z) (l : layout) (n : nat) (ix : list Z) (st : sstate)
  : res (list task) :=
  match n with
  | O => Ok []
  | S n' =>
      match st with
      | TNode [TPtr p; s] =>
          let* '(ix', st') := (match l with row_major => row_increment ops sh ix st | _ => col_increment ops sh ix st end) in
          let* r := stepper_loop ops sh l n' ix' st' in
          Ok ([(p, s)] :: r)
      | _ => UB
      end
  end.
Definition stepper_plan {V} (g : setup) (m : meta) (c : container) (e : aexp V) : res (list phase) :=
  let* ts := stepper_loop (both_ops c e) (k_shape c) (default_assignable_layout (g_default g) (m_static m))
    (Z.to_nat (compute_size (k_shape c))) (repeat 0 (length (k_shape c)))
    (TNode [TPtr (k_begin c); x_begin (inst [] e)]) in
  Ok [[ts]].

(** ** strided_loop_assigner, xassign.hpp 853-1358 *)

(** check_strides_overlap<row_major>, core/xstrides.hpp 792-812, on the reversed
    strides: the loop goes from the last axis to the first. Reading s1 before its
    beginning is undefined. *)
Fixpoint overlap_row (s1 s2 : list Z) : res nat :=
  match s2 with
  | [] => Ok (length s1)
  | b :: s2' => match s1 with
                | [] => UB
                | a :: s1' => if a =? b then overlap_row s1' s2' else Ok (length s1)
                end
  end.
(** check_strides_overlap<column_major>, core/xstrides.hpp 814-843 *)
Fixpoint overlap_col_loop (s1 s2 : list Z) : nat :=
  match s1, s2 with
  | a :: s1', b :: s2' => if a =? b then S (overlap_col_loop s1' s2') else O
  | _, _ => O
  end.
Definition overlap_col (s1 s2 : list Z) : nat :=
  if (length s1 =? length s2)%nat then overlap_col_loop s1 s2 else O.

(** check_strides_functor, xassign.hpp 951-1003. It is only instantiated on
    expressions all of whose leaves have strides. *)
Fixpoint cut_of {V} (row : bool) (st : list Z) (e : aexp V) (cut : nat) {struct e} : res nat :=
  match e with
  | AScalar _ => Ok cut
  | ALeaf _ c _ =>
      if row then
        let* var := overlap_row (rev st) (rev (k_strides c)) in
        Ok (if (cut <? var)%nat then var else cut)
      else
        let var := overlap_col st (k_strides c) in
        Ok (if (var <? cut)%nat then var else cut)
  | AIndexed _ _ => UB
  | AFun _ args => for_each (fun f cut => f cut) (map (cut_of row st) args) cut
  end.

Record loop_sizes : Type := mk_sizes {
  ls_can : bool; ls_row : bool; ls_inner : Z; ls_outer : Z; ls_cut : nat
}.
(** get_loop_sizes, xassign.hpp 1005-1089. [acc]: std::accumulate with multiplies. *)
Definition acc (l : list Z) : Z := fold_left Z.mul l 1.
Definition get_loop_sizes {V} (c : container) (e : aexp V) : res loop_sizes :=
  let st := k_strides c in
  let sh := k_shape c in
  let row_contiguous := match last_nonzero st with Some s => s =? 1 | None => false end in
  let col_contiguous := match first_nonzero st with Some s => s =? 1 | None => false end in
  if row_contiguous then
    let* cut := cut_of true st e 0 in
    let cut := if (cut <? length st - 1)%nat then (length st - 1)%nat else cut in
    let outer := acc (firstn cut sh) in
    let inner := acc (skipn cut sh) in
    Ok (mk_sizes (1 <? inner) true inner outer cut)
  else if col_contiguous then
    let* cut := cut_of false st e (length st) in
    let cut := if (1 <? cut)%nat then 1%nat else cut in
    let outer := acc (skipn cut sh) in
    let inner := acc (firstn cut sh) in
    Ok (mk_sizes (1 <? inner) false inner outer cut)
  else Ok (mk_sizes false true 1 (compute_size sh) (length sh)).

(** idx_tools::next_idx, xassign.hpp 863-880 (row major, from the last axis) and
    906-924 (column major, from the first; k axes remain). *)
Fixpoint next_idx_row (i : nat) (idx sh : list Z) : res (list Z) :=
  match i with
  | O => Ok idx
  | S i' =>
      let* x := rd idx i' in
      let* d := rd sh i' in
      if d <=? x + 1 then let* idx := wr idx i' 0 in next_idx_row i' idx sh
      else wr idx i' (x + 1)
  end.
Fixpoint next_idx_col (k : nat) (idx sh : list Z) : res (list Z) :=
  match k with
  | O => Ok idx
  | S k' =>
      let i := (length idx - k)%nat in
      let* x := rd idx i in
      let* d := rd sh i in
      if d <=? x + 1 then let* idx := wr idx i 0 in next_idx_col k' idx sh
      else wr idx i (x + 1)
  end.
Definition next_idx (row : bool) (idx sh : list Z) : res (list Z) :=
  if row then next_idx_row (length idx) idx sh else next_idx_col (length idx) idx sh.

(** idx_tools::nth_idx, xassign.hpp 882-901 (row major) and 926-948 (column major);
    stride_sizes is freshly allocated. *)
Definition nth_idx (row : bool) (n : Z) (idx sh : list Z) : res (list Z) :=
  let dim := length sh in
  let step i '(n, idx) :=
    fun ss => let* s := rd ss i in let* q := cdiv n s in let* idx := wr idx i q in Ok (n - q * s, idx) in
  if row then
    let* ss := for_down (fun i ss =>
                 if (i + 1 =? dim)%nat then wr ss i 1
                 else let* s := rd ss (i + 1) in let* d := rd sh (i + 1) in wr ss i (s * d))
               dim (repeat 0 dim) in
    let* '(_, idx) := for_up (fun i s => step i s ss) 0 dim (n, idx) in
    Ok idx
  else
    let* ss := for_up (fun i ss =>
                 if (i =? 0)%nat then wr ss i 1
                 else let* s := rd ss (i - 1) in let* d := rd sh (i - 1) in wr ss i (s * d))
               0 dim (repeat 0 dim) in
    let* '(_, idx) := for_down (fun i s => step i s ss) dim (n, idx) in
    Ok idx.

(** step_leading (n = 1) and step_simd (n = batch width): core/xiterator.hpp
    563-588, core/xfunction.hpp 1165-1187, xscalar.hpp 1010-1020. *)
Fixpoint advance {V} (e : aexp V) (n : Z) (st : sstate) {struct e} : res sstate :=
  match e, st with
  | AScalar _, TUnit => Ok TUnit
  | ALeaf _ _ _, TPtr p => Ok (TPtr (p + n))
  | AFun _ args, TNode ss =>
      let* ss' := zipM (fun g s => g s) (map (fun a => advance a n) args) ss in Ok (TNode ss')
  | _, _ => UB
  end.

(** n times: store_simd(step_simd()) of w lanes; with w = 1 the scalar loop. *)
Fixpoint inner_loop {V} (e : aexp V) (w : Z) (n : nat) (p : Z) (st : sstate) : res (list task * Z * sstate) :=
  match n with
  | O => Ok ([], p, st)
  | S n' =>
      let* t := seqM (map (fun j => let* s := advance e j st in Ok (p + j, s)) (zseq 0 (Z.to_nat w))) in
      let* st := advance e w st in
      let* '(ts, p, st) := inner_loop e w n' (p + w) st in
      Ok (t :: ts, p, st)
  end.

(** for i < idx.size(): stepper.step(i + step_dim, idx[i]) *)
Definition step_all {S} (ops : stepper_ops S) (step_dim : nat) (idx : list Z) (st : S) : res S :=
  for_up (fun i st => let* x := rd idx i in s_step ops (i + step_dim) x st) 0 (length idx) st.

(** The body of the outer loop, xassign.hpp 1290-1325 (and 1166-1205, 1240-1280).
    A destination with a static contiguous layout is not stepped: its pointer
    goes on from the end of the inner loop. *)
Fixpoint outer_loop {V} (e : aexp V) (c : container) (contiguous row : bool) (step_dim : nat) (max_shape : list Z)
  (w : Z) (simd_size simd_rest : nat) (n : nat) (idx : list Z) (p : Z) (st : sstate) : res (list task) :=
  match n with
  | O => Ok []
  | S n' =>
      let* '(t1, p, st) := inner_loop e w simd_size p st in
      let* '(t2, p, st) := inner_loop e 1 simd_rest p st in
      let* idx := next_idx row idx max_shape in
      let fops := x_ops (k_shape c) (inst [] e) in
      let* st := s_to_begin fops st in
      let* st := step_all fops step_dim idx st in
      let* p := (if contiguous then Ok p else step_all (xs_ops c 0) step_dim idx (k_begin c)) in
      let* r := outer_loop e c contiguous row step_dim max_shape w simd_size simd_rest n' idx p st in
      Ok (t1 ++ t2 ++ r)
  end.

(** run, xassign.hpp 1100-1330. The sequential loop starts at index 0; the piece of
    a parallel loop that starts at ox first moves its steppers to nth_idx(ox). *)
Definition strided_plan {V} (g : setup) (m : meta) (c : container) (e : aexp V) (ls : loop_sizes) : res (list phase) :=
  let row := ls_row ls in
  let cut := ls_cut ls in
  let max_shape := if row then firstn cut (k_shape c) else skipn cut (k_shape c) in
  let idx := repeat 0 (if row then cut else length (k_shape c) - cut) in
  let w := g_width g in
  let simd_size := Z.to_nat (ls_inner ls / w) in
  let simd_rest := Z.to_nat (ls_inner ls mod w) in
  let step_dim := if row then 0%nat else cut in
  let fct := x_begin (inst [] e) in
  let loop := outer_loop e c (contiguous_layout (m_static m)) row step_dim max_shape w simd_size simd_rest in
  if g_parallel g then
    let piece (l : list nat) :=
      match l with
      | [] => Ok []
      | ox :: _ =>
          let* idx := nth_idx row (Z.of_nat ox) idx max_shape in
          let* st := step_all (x_ops (k_shape c) (inst [] e)) step_dim idx fct in
          let* p := step_all (xs_ops c 0) step_dim idx (k_begin c) in
          loop (length l) idx p st
      end in
    let* ths := seqM (map piece (pieces (g_sizes g) (seq 0 (Z.to_nat (ls_outer ls))))) in
    Ok [ths]
  else
    let* ts := loop (Z.to_nat (ls_outer ls)) idx (k_begin c) fct in
    Ok [[ts]].

(** ** assign_data, xassign.hpp 439-478 (traits 345-437, linear_dynamic_layout
    283-288) *)
Definition assign_plan {V} (g : setup) (m : meta) (c : container) (e : aexp V) (trivial : bool) : res (list phase) :=
  let simd_assign := g_types g && leaf_simd m && a_simd e in
  let simd_linear_assign := contiguous_layout (m_static m) && contiguous_layout (a_static e) && simd_assign in
  let linear_dynamic_layout :=
    is_contiguous m c && a_is_contiguous e &&
    negb (layout_eqb (lay (compute_layout [m_layout m; a_layout e])) dynamic) in
  if trivial && is_linear_assign m c e then
    if simd_linear_assign || (simd_assign && linear_dynamic_layout)
    then Ok (simd_plan g m c e)
    else Ok (linear_plan g m c e)
  else if a_strided e && simd_assign then
    let* ls := get_loop_sizes c e in
    if ls_can ls then strided_plan g m c e ls else stepper_plan g m c e
  else stepper_plan g m c e.

(** ** Execution *)

(** A thread performs the loads of a task one after the other, then its stores;
    values it has loaded and not yet stored are kept in registers. *)
Inductive op : Type := OLoad (s : sstate) | OStore (p : Z).
Definition task_ops (t : task) : list op := map (fun l => OLoad (snd l)) t ++ map (fun l => OStore (fst l)) t.
Definition thread (V : Type) : Type := (list op * list V)%type.
Definition start {V} (ts : list task) : thread V := (concat (map task_ops ts), []).

Definition thread_step {V} (e : aexp V) (mem : list V) (t : thread V) : res (list V * thread V) :=
  let '(ops, regs) := t in
  match ops with
  | [] => Ok (mem, t)
  | OLoad s :: ops' => let* v := x_deref (inst mem e) s in Ok (mem, (ops', regs ++ [v]))
  | OStore p :: ops' =>
      match regs with
      | [] => UB
      | v :: regs' => let* mem := wrz mem p v in Ok (mem, (ops', regs'))
      end
  end.

(** A schedule says which thread makes the next step. *)
Fixpoint run_schedule {V} (e : aexp V) (sched : list nat) (mem : list V) (ths : list (thread V))
  : res (list V * list (thread V)) :=
  match sched with
  | [] => Ok (mem, ths)
  | i :: sched' =>
      match nth_error ths i with
      | None => run_schedule e sched' mem ths
      | Some t =>
          let* '(mem, t) := thread_step e mem t in
          run_schedule e sched' mem (upd ths i t)
      end
  end.

(** The possible outcomes of a sequence of phases. *)
Inductive outcome {V} (e : aexp V) : list phase -> list V -> res (list V) -> Prop :=
| out_done : forall mem, outcome e [] mem (Ok mem)
| out_phase : forall ph phs sched mem mem1 ths r,
    run_schedule e sched mem (map start ph) = Ok (mem1, ths) ->
    Forall (fun t => fst t = []) ths ->
    outcome e phs mem1 r -> outcome e (ph :: phs) mem r
| out_throw : forall ph phs sched mem x,
    run_schedule e sched mem (map start ph) = Throw x -> outcome e (ph :: phs) mem (Throw x)
| out_ub : forall ph phs sched mem,
    run_schedule e sched mem (map start ph) = UB -> outcome e (ph :: phs) mem UB.

(** The outcomes of assign_data(e1, e2, trivial) on the memory of e1. *)
Definition assign_data {V} (g : setup) (m : meta) (c : container) (e : aexp V) (trivial : bool)
  (mem : list V) (r : res (list V)) : Prop :=
  match assign_plan g m c e trivial with
  | Ok phs => outcome e phs mem r
  | Throw x => r = Throw x
  | UB => r = UB
  end.
