(** Model of xt::svector, the small vector that holds shapes, strides and indices:
    containers/xstorage.hpp 632-1408. *)
From Coq Require Import List ZArith Bool Arith.
From Verif Require Import Prelude.
Import ListNotations.
Open Scope nat_scope.

Section Svector.
Context {V : Type}.
(** N: number of inline elements; zero: T(); triv: T has trivial construction,
    assignment and destruction, as the integers of shapes have (assigning to raw
    memory is then defined). Init is true, as in every shape type: core/xshape.hpp
    34-40. The allocator has no state. *)
Context (N : nat) (zero : V) (triv : bool).

(** ** Memory: blocks of cells; a cell is raw until something is constructed in it,
    a block is gone once deallocated. m_data (line 757) is a block as well. *)
Definition block : Type := list (option V).
Definition heap : Type := list (option block).

Definition mem_read (h : heap) (b i : nat) : res V :=
  match nth_error h b with
  | Some (Some blk) => match nth_error blk i with Some (Some v) => Ok v | _ => UB end
  | _ => UB
  end.
(** asg: assignment to an object, otherwise construction in raw memory. *)
Definition mem_write (asg : bool) (h : heap) (b i : nat) (v : V) : res heap :=
  match nth_error h b with
  | Some (Some blk) =>
      match nth_error blk i with
      | Some (Some _) => Ok (upd h b (Some (upd blk i (Some v))))
      | Some None => if asg && negb triv then UB else Ok (upd h b (Some (upd blk i (Some v))))
      | None => UB
      end
  | _ => UB
  end.
Definition mem_alloc (h : heap) (n : nat) : heap * nat := (h ++ [Some (repeat None n)], length h).
Definition mem_free (h : heap) (b : nat) : res heap :=
  match nth_error h b with Some (Some _) => Ok (upd h b None) | _ => UB end.

(** std::copy, std::move and std::uninitialized_copy, towards lower addresses first. *)
Fixpoint copy_fwd (asg : bool) (h : heap) (sb si db di n : nat) : res heap :=
  match n with
  | O => Ok h
  | S n' => let* v := mem_read h sb si in let* h := mem_write asg h db di v in copy_fwd asg h sb (S si) db (S di) n'
  end.
(** std::move_backward: [di] is the first destination. *)
Fixpoint copy_bwd (h : heap) (sb si db di n : nat) : res heap :=
  match n with
  | O => Ok h
  | S n' => let* v := mem_read h sb (si + n') in let* h := mem_write true h db (di + n') v in copy_bwd h sb si db di n'
  end.
(** The same from an initializer list or another container. *)
Fixpoint copy_list (asg : bool) (h : heap) (l : list V) (b i : nat) : res heap :=
  match l with
  | [] => Ok h
  | v :: l' => let* h := mem_write asg h b i v in copy_list asg h l' b (S i)
  end.

(** A const T& argument: an object outside any svector, or a reference into memory. *)
Inductive arg : Type := AVal (v : V) | ARef (b i : nat).
Definition arg_read (h : heap) (a : arg) : res V := match a with AVal v => Ok v | ARef b i => mem_read h b i end.
(** std::fill *)
Fixpoint fill (h : heap) (b i n : nat) (a : arg) : res heap :=
  match n with
  | O => Ok h
  | S n' => let* v := arg_read h a in let* h := mem_write true h b i v in fill h b (S i) n' a
  end.

(** A pair of iterators: into another container, or into memory. *)
Inductive range : Type := RList (l : list V) | RMem (b i n : nat).
Definition range_size (r : range) : nat := match r with RList l => length l | RMem _ _ n => n end.
Definition copy_range (asg : bool) (h : heap) (r : range) (b i : nat) : res heap :=
  match r with RList l => copy_list asg h l b i | RMem sb si n => copy_fwd asg h sb si b i n end.

(** ** The object, 757-764: m_begin points to the start of block o_begin, m_end and
    m_capacity are o_size and o_cap elements further; m_data is block o_inline. *)
Record obj : Type := mk_obj { o_inline : nat; o_begin : nat; o_size : nat; o_cap : nat }.
Definition on_stack (o : obj) : bool := o_begin o =? o_inline o.
Definition with_size (o : obj) (n : nat) : obj := mk_obj (o_inline o) (o_begin o) n (o_cap o).
Definition inline_cap : nat := if 0 <? N then N else 1.

(** 763-790: m_data holds N default-initialised T, raw when T is trivial. *)
Definition s_new (h : heap) : heap * obj :=
  let cells := repeat (if triv then None else Some zero) inline_cap in
  (h ++ [Some cells], mk_obj (length h) (length h) 0 inline_cap).
(** 762-769 *)
Definition s_destroy (h : heap) (o : obj) : res heap :=
  let* h := (if on_stack o then Ok h else mem_free h (o_begin o)) in mem_free h (o_inline o).

(** 1325-1354 *)
Definition s_grow (h : heap) (o : obj) (min_capacity : nat) : res (heap * obj) :=
  let new_capacity := 2 * o_size o + 1 in
  let new_capacity := if new_capacity <? min_capacity then min_capacity else new_capacity in
  let '(h, new_alloc) := mem_alloc h new_capacity in
  let* h := copy_fwd false h (o_begin o) 0 new_alloc 0 (o_size o) in
  let* h := (if on_stack o then Ok h else mem_free h (o_begin o)) in
  Ok (h, mk_obj (o_inline o) new_alloc (o_size o) new_capacity).

(** The test of 903, 922, 978 and 1005. *)
Definition grow_if (h : heap) (o : obj) (n : nat) : res (heap * obj) :=
  if (N <? n) && (o_cap o <? n) then s_grow h o n else Ok (h, o).

(** 900-909 *)
Definition s_assign_fill (h : heap) (o : obj) (n : nat) (a : arg) : res (heap * obj) :=
  let* '(h, o) := grow_if h o n in
  let o := with_size o n in
  let* h := fill h (o_begin o) 0 n a in Ok (h, o).
(** 918-929 *)
Definition s_assign_range (h : heap) (o : obj) (r : range) : res (heap * obj) :=
  let size := range_size r in
  let* '(h, o) := grow_if h o size in
  let* h := copy_range false h r (o_begin o) 0 in
  Ok (h, with_size o size).
(** 975-988 *)
Definition s_resize (h : heap) (o : obj) (n : nat) : res (heap * obj) :=
  let* '(h, o) := grow_if h o n in
  let old_size := o_size o in
  let o := with_size o n in
  let* h := (if old_size <? n then fill h (o_begin o) old_size (n - old_size) (AVal zero) else Ok h) in
  Ok (h, o).
(** 1002-1009 *)
Definition s_reserve (h : heap) (o : obj) (n : nat) : res (heap * obj) := grow_if h o n.
(** 1018-1022 *)
Definition s_clear (h : heap) (o : obj) : res (heap * obj) := s_resize h o 0.
(** 1024-1042 *)
Definition s_push_back (h : heap) (o : obj) (a : arg) : res (heap * obj) :=
  let* '(h, o) := (if o_cap o <=? o_size o then s_grow h o 0 else Ok (h, o)) in
  let* v := arg_read h a in
  let* h := mem_write true h (o_begin o) (o_size o) v in
  Ok (h, with_size o (S (o_size o))).
(** 1044-1048; an end before the beginning is undefined. *)
Definition s_pop_back (h : heap) (o : obj) : res (heap * obj) :=
  match o_size o with O => UB | S n => Ok (h, with_size o n) end.
(** 1173-1181; returns the position of the iterator as well. Moving a range that ends
    before it starts is undefined. *)
Definition s_erase (h : heap) (o : obj) (it : nat) : res (heap * obj * nat) :=
  if o_size o <? it + 1 then UB else
  let* h := copy_fwd true h (o_begin o) (it + 1) (o_begin o) it (o_size o - (it + 1)) in
  Ok (h, with_size o (o_size o - 1), it).
(** 1183-1197 *)
Definition s_erase_range (h : heap) (o : obj) (first last : nat) : res (heap * obj * nat) :=
  if last =? o_size o then Ok (h, with_size o first, first)
  else if o_size o <? last then UB else
  let* h := copy_fwd true h (o_begin o) last (o_begin o) first (o_size o - last) in
  Ok (h, with_size o (first + (o_size o - last)), first).
(** 1199-1228 *)
Definition s_insert (h : heap) (o : obj) (it : nat) (a : arg) : res (heap * obj * nat) :=
  if it =? o_size o then
    let* '(h, o) := s_push_back h o a in Ok (h, o, o_size o - 1)
  else
    let* '(h, o) := (if o_cap o <=? o_size o then s_grow h o 0 else Ok (h, o)) in
    match o_size o with
    | O => UB
    | S last =>
        let* back := mem_read h (o_begin o) last in
        let* h := mem_write true h (o_begin o) (o_size o) back in
        if last <? it then UB else
        let* h := copy_bwd h (o_begin o) it (o_begin o) (S it) (last - it) in
        let o := with_size o (S (o_size o)) in
        let src := match a with
                   | AVal v => AVal v
                   | ARef b i => if (b =? o_begin o) && (it <=? i) && (i <? o_size o) then ARef b (i + 1) else ARef b i
                   end in
        let* v := arg_read h src in
        let* h := mem_write true h (o_begin o) it v in
        Ok (h, o, it)
    end.
(** 1230-1251 *)
Definition s_insert_range (h : heap) (o : obj) (it : nat) (r : range) : res (heap * obj * nat) :=
  let n := range_size r in
  if 0 <? n then
    let* '(h, o) := (if o_cap o - o_size o <? n then s_grow h o (o_cap o + n) else Ok (h, o)) in
    if o_size o <? it then UB else
    let* h := copy_bwd h (o_begin o) it (o_begin o) (it + n) (o_size o - it) in
    let o := with_size o (o_size o + n) in
    let* h := copy_range true h r (o_begin o) it in
    Ok (h, o, it)
  else Ok (h, o, it).

(** ** swap, 1272-1323 *)
Fixpoint swap_elements (h : heap) (b1 b2 i n : nat) : res heap :=
  match n with
  | O => Ok h
  | S n' =>
      let* x := mem_read h b1 i in let* y := mem_read h b2 i in
      let* h := mem_write true h b1 i y in let* h := mem_write true h b2 i x in swap_elements h b1 b2 (S i) n'
  end.
(** destroy_range, 1259-1270 *)
Fixpoint destroy_range (h : heap) (b i n : nat) : res heap :=
  match n with
  | O => Ok h
  | S n' =>
      if triv then Ok h else
      match nth_error h b with
      | Some (Some blk) =>
          match nth_error blk (i + n') with
          | Some (Some _) => destroy_range (upd h b (Some (upd blk (i + n') None))) b i n'
          | _ => UB
          end
      | _ => UB
      end
  end.
Definition s_swap (h : heap) (o rhs : obj) : res (heap * obj * obj) :=
  if negb (on_stack o) && negb (on_stack rhs) then
    Ok (h, mk_obj (o_inline o) (o_begin rhs) (o_size rhs) (o_cap rhs),
           mk_obj (o_inline rhs) (o_begin o) (o_size o) (o_cap o))
  else
    let rhs_old_size := o_size rhs in
    let old_size := o_size o in
    let* '(h, o, rhs) :=
      (if old_size <? rhs_old_size then let* '(h, o) := s_resize h o rhs_old_size in Ok (h, o, rhs)
       else if rhs_old_size <? old_size then let* '(h, rhs) := s_resize h rhs old_size in Ok (h, o, rhs)
       else Ok (h, o, rhs)) in
    let min_size := Nat.min old_size rhs_old_size in
    let* h := swap_elements h (o_begin o) (o_begin rhs) 0 min_size in
    if rhs_old_size <? old_size then
      let* h := copy_fwd true h (o_begin o) min_size (o_begin rhs) min_size (o_size o - min_size) in
      let* h := destroy_range h (o_begin o) min_size (o_size o - min_size) in
      Ok (h, with_size o min_size, rhs)
    else if old_size <? rhs_old_size then
      let* h := copy_fwd true h (o_begin rhs) min_size (o_begin o) min_size (o_size rhs - min_size) in
      let* h := destroy_range h (o_begin rhs) min_size (o_size rhs - min_size) in
      Ok (h, o, with_size rhs min_size)
    else Ok (h, o, rhs).

(** ** Element access, 931-961, 1119-1153 *)
Definition s_index (h : heap) (o : obj) (k : nat) : res V := mem_read h (o_begin o) k.
Definition s_set (h : heap) (o : obj) (k : nat) (a : arg) : res (heap * obj) :=
  let* v := arg_read h a in let* h := mem_write true h (o_begin o) k v in Ok (h, o).
Definition s_at (h : heap) (o : obj) (k : nat) : res V :=
  if o_size o <=? k then Throw out_of_range else s_index h o k.
Definition s_front (h : heap) (o : obj) : res V := mem_read h (o_begin o) 0.
Definition s_back (h : heap) (o : obj) : res V :=
  match o_size o with O => UB | S n => mem_read h (o_begin o) n end.
Definition s_empty (o : obj) : bool := o_size o =? 0.
(** 1356-1366: std::equal *)
Fixpoint equal_loop (veq : V -> V -> bool) (h : heap) (b1 b2 i n : nat) : res bool :=
  match n with
  | O => Ok true
  | S n' => let* x := mem_read h b1 i in let* y := mem_read h b2 i in
            if veq x y then equal_loop veq h b1 b2 (S i) n' else Ok false
  end.
Definition s_equal (veq : V -> V -> bool) (h : heap) (o1 o2 : obj) : res bool :=
  if o_size o1 =? o_size o2 then equal_loop veq h (o_begin o1) (o_begin o2) 0 (o_size o1) else Ok false.
(** 1374-1378: std::lexicographical_compare *)
Fixpoint less_loop (vlt : V -> V -> bool) (h : heap) (b1 b2 i n1 n2 : nat) {struct n1} : res bool :=
  match n1, n2 with
  | _, O => Ok false
  | O, S _ => Ok true
  | S n1', S n2' =>
      let* x := mem_read h b1 i in let* y := mem_read h b2 i in
      if vlt x y then Ok true else if vlt y x then Ok false else less_loop vlt h b1 b2 (S i) n1' n2'
  end.
Definition s_less (vlt : V -> V -> bool) (h : heap) (o1 o2 : obj) : res bool :=
  less_loop vlt h (o_begin o1) (o_begin o2) 0 (o_size o1) (o_size o2).

(** ** Histories: a world of svectors, created and destroyed as we go *)
Record world : Type := mk_world { w_heap : heap; w_objs : list (option obj) }.
Definition get (w : world) (i : nat) : res obj :=
  match nth_error (w_objs w) i with Some (Some o) => Ok o | _ => UB end.
Definition put (w : world) (h : heap) (i : nat) (o : obj) : world := mk_world h (upd (w_objs w) i (Some o)).

(** Arguments as the caller writes them: a value, or an element of a svector; a
    list, or part of a svector. *)
Inductive xarg : Type := Lit (v : V) | Elem (j k : nat).
Inductive xrange : Type := Lits (l : list V) | Slice (j first last : nat).
Inductive action : Type :=
| PushBack (x : xarg) | PopBack | Insert (p : nat) (x : xarg) | InsertRange (p : nat) (r : xrange)
| Erase (p : nat) | EraseRange (p q : nat) | Resize (n : nat) | Reserve (n : nat) | Clear
| AssignFill (n : nat) (x : xarg) | AssignRange (r : xrange) | SetAt (k : nat) (x : xarg).
Inductive event : Type :=
| Construct                                (** svector v; *)
| ConstructCount (n : nat)                 (** svector v(n); *)
| ConstructRange (r : xrange)              (** svector v(first, last); v{...}; v(std::vector) *)
| ConstructCopy (j : nat) | ConstructMove (j : nat)
| Act (i : nat) (a : action)
| CopyAssign (i j : nat) | MoveAssign (i j : nat) | SwapWith (i j : nat)
| Destroy (i : nat).

Definition resolve_arg (w : world) (x : xarg) : res arg :=
  match x with Lit v => Ok (AVal v) | Elem j k => let* o := get w j in Ok (ARef (o_begin o) k) end.
Definition resolve_range (w : world) (r : xrange) : res range :=
  match r with
  | Lits l => Ok (RList l)
  | Slice j first last => let* o := get w j in if last <? first then UB else Ok (RMem (o_begin o) first (last - first))
  end.
Definition drop3 (r : res (heap * obj * nat)) : res (heap * obj) := let* '(h, o, _) := r in Ok (h, o).
Definition act (w : world) (o : obj) (a : action) : res (heap * obj) :=
  let h := w_heap w in
  match a with
  | PushBack x => let* x := resolve_arg w x in s_push_back h o x
  | PopBack => s_pop_back h o
  | Insert p x => let* x := resolve_arg w x in drop3 (s_insert h o p x)
  | InsertRange p r => let* r := resolve_range w r in drop3 (s_insert_range h o p r)
  | Erase p => drop3 (s_erase h o p)
  | EraseRange p q => drop3 (s_erase_range h o p q)
  | Resize n => s_resize h o n
  | Reserve n => s_reserve h o n
  | Clear => s_clear h o
  | AssignFill n x => let* x := resolve_arg w x in s_assign_fill h o n x
  | AssignRange r => let* r := resolve_range w r in s_assign_range h o r
  | SetAt k x => let* x := resolve_arg w x in s_set h o k x
  end.
(** The whole of a svector as a range: rhs.begin(), rhs.end(). *)
Definition whole (o : obj) : range := RMem (o_begin o) 0 (o_size o).
Definition add_obj (w : world) (r : res (heap * obj)) : res world :=
  let* '(h, o) := r in Ok (mk_world h (w_objs w ++ [Some o])).
Definition step (w : world) (e : event) : res world :=
  match e with
  | Construct => add_obj w (Ok (s_new (w_heap w)))
  | ConstructCount n => let '(h, o) := s_new (w_heap w) in add_obj w (s_assign_fill h o n (AVal zero))      (** 786-798 *)
  | ConstructRange r => let* r := resolve_range w r in
      let '(h, o) := s_new (w_heap w) in add_obj w (s_assign_range h o r)                                    (** 800-838 *)
  | ConstructCopy j => let* p := get w j in
      let '(h, o) := s_new (w_heap w) in add_obj w (s_assign_range h o (whole p))                            (** 884-891 *)
  | ConstructMove j => let* p := get w j in
      let '(h, o) := s_new (w_heap w) in
      let* '(h, o, p) := s_swap h o p in
      add_obj (put w h j p) (Ok (h, o))                                                                       (** 893-898 *)
  | Act i a => let* o := get w i in let* '(h, o) := act w o a in Ok (put w h i o)
  | CopyAssign i j | MoveAssign i j => let* o := get w i in let* p := get w j in
      let* '(h, o) := s_assign_range (w_heap w) o (whole p) in Ok (put w h i o)                              (** 840-853 *)
  | SwapWith i j => let* o := get w i in let* p := get w j in
      if i =? j then Ok w else
      let* '(h, o, p) := s_swap (w_heap w) o p in Ok (put (put w h i o) h j p)
  | Destroy i => let* o := get w i in let* h := s_destroy (w_heap w) o in
      Ok (mk_world h (upd (w_objs w) i None))
  end.
Fixpoint run (w : world) (es : list event) : res world :=
  match es with [] => Ok w | e :: es' => let* w := step w e in run w es' end.
Definition world0 : world := mk_world [] [].
End Svector.
Arguments arg : clear implicits. Arguments range : clear implicits.
Arguments xarg : clear implicits. Arguments xrange : clear implicits.
Arguments action : clear implicits. Arguments event : clear implicits.
Arguments heap : clear implicits. Arguments block : clear implicits. Arguments world : clear implicits.
