(** Model of the storage classes that own memory: [uvector]
    (containers/xstorage.hpp) and the buffer adaptors
    (containers/xbuffer_adaptor.hpp).

    The heap is explicit.  A block is allocated, live, then freed at most once;
    using a block that is not live, freeing it twice, or handing it back with
    another size than it was allocated with is undefined behaviour.  An
    allocation may fail at any point: [h_mem] says which ones do.  The
    construction of the elements of a type with a constructor of its own may
    also throw: [h_elem] says which loops do.

    Simplified: allocators are stateless, elements are copied by assignment
    without throwing, and destroying an element has no effect besides ending
    its life. *)
From Coq Require Import List Bool Arith.
From Verif Require Import Prelude.
Import ListNotations.
Set Implicit Arguments.

Section Storage.
Context {V : Type}.

(** A cell holds a value, or nothing that may be relied on. *)
Notation cell := (option V).

Record heap := mk_heap {
  h_next : nat;                        (* blocks below this one have been allocated *)
  h_block : nat -> option (list cell); (* contents of a live block *)
  h_mem : list bool;                   (* does the next allocation fail, ... *)
  h_elem : list bool                   (* does the next construction loop throw, ... *)
}.

(** Outcome of an operation: a value, an exception (the heap keeps what was done
    to it before), or undefined behaviour. *)
Inductive out (A : Type) : Type :=
  | Ret : A -> heap -> out A
  | Exc : exn -> heap -> out A
  | Undef : out A.
Arguments Exc {A}.
Arguments Undef {A}.

Definition bnd (A B : Type) (m : out A) (k : A -> heap -> out B) : out B :=
  match m with
  | Ret a h => k a h
  | Exc e h => Exc e h
  | Undef => Undef
  end.

Definition set_block (h : heap) (b : nat) (c : option (list cell)) : heap :=
  mk_heap (h_next h) (fun k => if k =? b then c else h_block h k) (h_mem h) (h_elem h).

(** [allocator.allocate(n)]: xstorage.hpp:169, 211.  A fresh block of [n]
    cells holding nothing, or [std::bad_alloc]. *)
Definition allocate (n : nat) (h : heap) : out nat :=
  match h_mem h with
  | true :: m => Exc bad_alloc (mk_heap (h_next h) (h_block h) m (h_elem h))
  | m => Ret (h_next h)
             (mk_heap (S (h_next h))
                (fun k => if k =? h_next h then Some (repeat None n) else h_block h k)
                (tl m) (h_elem h))
  end.

(** [allocator_traits::deallocate(alloc, ptr, size)]: xstorage.hpp:198. *)
Definition deallocate (b : nat) (size : nat) (h : heap) : out unit :=
  match h_block h b with
  | Some c => if length c =? size then Ret tt (set_block h b None) else Undef
  | None => Undef
  end.

(** Writing the values [c] from the start of block [b] ([std::copy],
    [std::uninitialized_copy], [std::uninitialized_fill]). *)
Definition store (b : nat) (c : list cell) (h : heap) : out unit :=
  match h_block h b with
  | Some old =>
      if length c <=? length old
      then Ret tt (set_block h b (Some (c ++ skipn (length c) old))) else Undef
  | None => Undef
  end.

(** Reading the range [p, p + n): nothing is read when [n] is 0. *)
Definition load (p : option nat) (n : nat) (h : heap) : out (list cell) :=
  match n, p with
  | 0, _ => Ret [] h
  | S _, None => Undef
  | S _, Some b =>
      match h_block h b with
      | Some c => if n <=? length c then Ret (firstn n c) h else Undef
      | None => Undef
      end
  end.

(** Writing the values [c] at [p]: nothing is written when there are none. *)
Definition store_at (p : option nat) (c : list cell) (h : heap) : out unit :=
  match c, p with
  | [], _ => Ret tt h
  | _ :: _, None => Undef
  | _ :: _, Some b => store b c h
  end.

(** The element type: is it trivially default constructible, and what does its
    default constructor make. *)
Record elem := mk_elem { e_trivial : bool; e_default : V }.

(** A loop that constructs elements: with a type that is not trivial one of the
    constructors may throw.  The elements already made are of no interest. *)
Definition constructing (T : elem) (h : heap) : out unit :=
  if e_trivial T then Ret tt h
  else match h_elem h with
       | true :: m => Exc runtime_error (mk_heap (h_next h) (h_block h) (h_mem h) m)
       | m => Ret tt (mk_heap (h_next h) (h_block h) (h_mem h) (tl m))
       end.

(** xstorage.hpp:164-178: safe_init_allocate *)
Definition safe_init_allocate (T : elem) (size : nat) (h : heap) : out nat :=
  bnd (allocate size h) (fun res h =>
  if e_trivial T then Ret res h
  else bnd (constructing T h) (fun _ h =>
       bnd (store res (repeat (Some (e_default T)) size) h) (fun _ h => Ret res h))).

(** xstorage.hpp:181-200: safe_destroy_deallocate *)
Definition safe_destroy_deallocate (ptr : option nat) (size : nat) (h : heap) : out unit :=
  match ptr with
  | None => Ret tt h
  | Some b => deallocate b size h
  end.

(** ** uvector *)

(** xstorage.hpp:130-132: m_allocator is left out; [p_end] is kept as the
    distance [p_end - p_begin], which is what size() returns (383-386). *)
Record uvec := mk_uvec { u_begin : option nat; u_size : nat }.

(** xstorage.hpp:231-242: the default constructors *)
Definition uv_empty : uvec := mk_uvec None 0.

(** xstorage.hpp:206-215: init_data, from values read elsewhere *)
Definition init_data (T : elem) (c : list cell) (h : heap) : out uvec :=
  let size := length c in
  if size =? 0 then Ret uv_empty h
  else bnd (allocate size h) (fun p h =>
       bnd (constructing T h) (fun _ h =>
       bnd (store p c h) (fun _ h => Ret (mk_uvec (Some p) size) h))).

(** xstorage.hpp:218-228: resize_impl; also resize (389-392) *)
Definition uv_resize (T : elem) (u : uvec) (new_size : nat) (h : heap) : out uvec :=
  if new_size =? u_size u then Ret u h
  else bnd (safe_init_allocate T new_size h) (fun p h =>
       bnd (safe_destroy_deallocate (u_begin u) (u_size u) h) (fun _ h =>
       Ret (mk_uvec (Some p) new_size) h)).

(** xstorage.hpp:245-255: uvector(count) *)
Definition uv_count (T : elem) (count : nat) (h : heap) : out uvec :=
  if count =? 0 then Ret uv_empty h
  else bnd (safe_init_allocate T count h) (fun p h => Ret (mk_uvec (Some p) count) h).

(** xstorage.hpp:258-269: uvector(count, value) *)
Definition uv_fill (T : elem) (count : nat) (v : V) (h : heap) : out uvec :=
  if count =? 0 then Ret uv_empty h
  else bnd (allocate count h) (fun p h =>
       bnd (constructing T h) (fun _ h =>
       bnd (store p (repeat (Some v) count) h) (fun _ h => Ret (mk_uvec (Some p) count) h))).

(** xstorage.hpp:273-288: uvector(first, last), uvector({...}) *)
Definition uv_list (T : elem) (l : list V) (h : heap) : out uvec :=
  init_data T (map Some l) h.

(** xstorage.hpp:291-296: ~uvector *)
Definition uv_destroy (u : uvec) (h : heap) : out unit :=
  safe_destroy_deallocate (u_begin u) (u_size u) h.

(** xstorage.hpp:299-316: uvector(const uvector&) *)
Definition uv_copy (T : elem) (rhs : uvec) (h : heap) : out uvec :=
  bnd (load (u_begin rhs) (u_size rhs) h) (fun c h => init_data T c h).

(** xstorage.hpp:319-338: operator=(const uvector&), past the test that [this]
    is not [&rhs] *)
Definition uv_assign (T : elem) (u rhs : uvec) (h : heap) : out uvec :=
  bnd (uv_resize T u (u_size rhs) h) (fun u' h =>
  bnd (load (u_begin rhs) (u_size rhs) h) (fun c h =>
  bnd (store_at (u_begin u') c h) (fun _ h => Ret u' h))).

(** xstorage.hpp:341-358: uvector(uvector&&): the new vector, what is left of
    [rhs] *)
Definition uv_move (rhs : uvec) : uvec * uvec :=
  (mk_uvec (u_begin rhs) (u_size rhs), mk_uvec None 0).

(** xstorage.hpp:423-432: operator[] *)
Definition uv_read (u : uvec) (i : nat) (h : heap) : out cell :=
  match u_begin u with
  | None => Undef
  | Some b =>
      match h_block h b with
      | Some c => match nth_error c i with Some x => Ret x h | None => Undef end
      | None => Undef
      end
  end.

Definition uv_write (u : uvec) (i : nat) (v : V) (h : heap) : out unit :=
  match u_begin u with
  | None => Undef
  | Some b =>
      match h_block h b with
      | Some c => if i <? length c
                  then Ret tt (set_block h b (Some (upd c i (Some v)))) else Undef
      | None => Undef
      end
  end.

(** xstorage.hpp:435-452: at *)
Definition uv_at (u : uvec) (i : nat) (h : heap) : out cell :=
  if u_size u <=? i then Exc out_of_range h else uv_read u i h.

(** ** xbuffer_owner_storage *)

(** xbuffer_adaptor.hpp:188-190: the members [m_data], [m_size], [m_moved_from] *)
Record obuf := mk_obuf { o_data : option nat; o_size : nat; o_moved : bool }.

(** xbuffer_adaptor.hpp:684-690: the constructor *)
Definition ob_make (data : option nat) (size : nat) : obuf := mk_obuf data size false.

(** xbuffer_adaptor.hpp:693-700: the destructor *)
Definition ob_destroy (o : obuf) (h : heap) : out unit :=
  if o_moved o then Ret tt h else safe_destroy_deallocate (o_data o) (o_size o) h.

(** xbuffer_adaptor.hpp:703-726: operator=(const self_type&), past the test that
    [this] is not [&rhs] *)
Definition ob_assign (T : elem) (o rhs : obuf) (h : heap) : out obuf :=
  bnd (safe_init_allocate T (o_size rhs) h) (fun tmp h =>
  bnd (load (o_data rhs) (o_size rhs) h) (fun c h =>
  bnd (store_at (Some tmp) c h) (fun _ h =>
  bnd (safe_destroy_deallocate (o_data o) (o_size o) h) (fun _ h =>
  Ret (mk_obuf (Some tmp) (o_size rhs) (o_moved o)) h)))).

(** xbuffer_adaptor.hpp:729-737: the move constructor.  The pointer is copied,
    what is left of [rhs] still holds it. *)
Definition ob_move (rhs : obuf) : obuf * obuf :=
  (mk_obuf (o_data rhs) (o_size rhs) (o_moved rhs), mk_obuf (o_data rhs) 0 true).

(** xbuffer_adaptor.hpp:784-790: swap.  [m_moved_from] is not exchanged. *)
Definition ob_swap (a b : obuf) : obuf * obuf :=
  (mk_obuf (o_data b) (o_size b) (o_moved a), mk_obuf (o_data a) (o_size a) (o_moved b)).

(** xbuffer_adaptor.hpp:753-763: resize *)
Definition ob_resize (T : elem) (o : obuf) (size : nat) (h : heap) : out obuf :=
  if size =? o_size o then Ret o h
  else bnd (safe_init_allocate T size h) (fun tmp h =>
       bnd (safe_destroy_deallocate (o_data o) (o_size o) h) (fun _ h =>
       Ret (mk_obuf (Some tmp) size (o_moved o)) h)).

(** xbuffer_adaptor.hpp:795-799: reset_data *)
Definition ob_reset (o : obuf) (data : option nat) (size : nat) (h : heap) : out obuf :=
  let tmp := ob_make data size in
  let '(o', tmp') := ob_swap o tmp in
  bnd (ob_destroy tmp' h) (fun _ h => Ret o' h).

(** xbuffer_adaptor.hpp:1059-1064: operator=(temporary_type&&) over the owning
    storage; the values are those of the temporary *)
Definition ob_from (T : elem) (o : obuf) (tmp : list cell) (h : heap) : out obuf :=
  bnd (ob_resize T o (length tmp) h) (fun o' h =>
  bnd (store_at (o_data o') tmp h) (fun _ h => Ret o' h)).

(** ** xbuffer_storage, which owns nothing *)

(** xbuffer_adaptor.hpp:639-645: resize *)
Definition nb_resize (o : uvec) (size : nat) (h : heap) : out uvec :=
  if size =? u_size o then Ret o h else Exc runtime_error h.

(** xbuffer_adaptor.hpp:1059-1064: operator=(temporary_type&&) over the storage
    that owns nothing *)
Definition nb_from (o : uvec) (tmp : list cell) (h : heap) : out uvec :=
  bnd (nb_resize o (length tmp) h) (fun o' h =>
  bnd (store_at (u_begin o') tmp h) (fun _ h => Ret o' h)).

End Storage.
Arguments Exc {V A}.
Arguments Undef {V A}.
Arguments heap : clear implicits.
Arguments elem : clear implicits.
Arguments out : clear implicits.

(** ** Programs

    A program works on variables numbered 0, 1, ...  Each holds an object or is
    outside the lifetime of one.  An instruction on a variable whose object does
    not exist (or exists already, for a constructor), or on an element past the
    end, is left out by the program: [Skip]. *)

Section Programs.
Context {V : Type}.

Inductive op : Type :=
  | ONew (i : nat)                     (* T i;                     *)
  | OCount (i n : nat)                 (* T i(n);                  *)
  | OFill (i n : nat) (v : V)          (* T i(n, v);               *)
  | OList (i : nat) (l : list V)       (* T i{l...};               *)
  | OCopy (i j : nat)                  (* T i(j);                  *)
  | OMove (i j : nat)                  (* T i(std::move(j));       *)
  | OAssign (i j : nat)                (* i = j;                   *)
  | OMoveAssign (i j : nat)            (* i = std::move(j);        *)
  | OResize (i n : nat)                (* i.resize(n);             *)
  | OClear (i : nat)                   (* i.clear();               *)
  | OSwap (i j : nat)                  (* i.swap(j);               *)
  | OWrite (i k : nat) (v : V)         (* i[k] = v;                *)
  | ORead (i k : nat)                  (* i[k]                     *)
  | OAt (i k : nat)                    (* i.at(k)                  *)
  | OSize (i : nat)                    (* i.size()                 *)
  | ODestroy (i : nat).                (* end of the life of i     *)

Inductive answer : Type :=
  | Done
  | Got (c : option V)
  | Size (n : nat)
  | Thrown (e : exn)
  | Skip.

Definition set (O : Type) (env : nat -> option O) (i : nat) (x : option O) : nat -> option O :=
  fun k => if k =? i then x else env k.

(** The state of a running program: the variables and the heap. *)
Definition state (O : Type) : Type := ((nat -> option O) * heap V)%type.

(** The end of an instruction that makes a new value for variable [i].  An
    exception leaves the variable as it was. *)
Definition into (O : Type) (env : nat -> option O) (i : nat) (m : out V O) :
    option (answer * state O) :=
  match m with
  | Ret u h => Some (Done, (set env i (Some u), h))
  | Exc e h => Some (Thrown e, (env, h))
  | Undef => None
  end.

(** The end of an instruction that reads. *)
Definition asks (O : Type) (env : nat -> option O) (m : out V (option V)) :
    option (answer * state O) :=
  match m with
  | Ret c h => Some (Got c, (env, h))
  | Exc e h => Some (Thrown e, (env, h))
  | Undef => None
  end.

(** The end of an instruction that returns nothing: variables afterwards. *)
Definition ends (O : Type) (env after : nat -> option O) (m : out V unit) :
    option (answer * state O) :=
  match m with
  | Ret _ h => Some (Done, (after, h))
  | Exc e h => Some (Thrown e, (env, h))
  | Undef => None
  end.

(** One instruction on variables of type uvector; [None] is undefined
    behaviour. *)
Definition uv_step (T : elem V) (s : state uvec) (o : op) : option (answer * state uvec) :=
  let '(env, h) := s in
  let skip := Some (Skip, s) in
  match o with
  | ONew i => match env i with None => into env i (Ret uv_empty h) | Some _ => skip end
  | OCount i n => match env i with None => into env i (uv_count T n h) | Some _ => skip end
  | OFill i n v => match env i with None => into env i (uv_fill T n v h) | Some _ => skip end
  | OList i l => match env i with None => into env i (uv_list T l h) | Some _ => skip end
  | OCopy i j =>
      match env i, env j with
      | None, Some r => into env i (uv_copy T r h) | _, _ => skip end
  | OMove i j =>
      match env i, env j with
      | None, Some r =>
          let '(u, r') := uv_move r in
          Some (Done, (set (set env j (Some r')) i (Some u), h))
      | _, _ => skip end
  | OAssign i j =>
      match env i, env j with
      | Some u, Some r =>
          if i =? j then Some (Done, s) else into env i (uv_assign T u r h)
      | _, _ => skip end
  | OMoveAssign i j =>
      (* xstorage.hpp:361-368: the temporary takes what [rhs] has; begin and end
         are exchanged with those of [*this]; the temporary is destroyed *)
      match env i, env j with
      | Some _, Some r =>
          let '(tmp, r') := uv_move r in
          let env1 := set env j (Some r') in
          match env1 i with
          | Some u =>
              let env2 := set env1 i (Some (mk_uvec (u_begin tmp) (u_size tmp))) in
              ends env env2 (uv_destroy (mk_uvec (u_begin u) (u_size u)) h)
          | None => None
          end
      | _, _ => skip end
  | OResize i n => match env i with Some u => into env i (uv_resize T u n h) | None => skip end
  | OClear i =>
      (* xstorage.hpp:417-420: clear *)
      match env i with Some u => into env i (uv_resize T u 0 h) | None => skip end
  | OSwap i j =>
      (* xstorage.hpp:563-569: swap *)
      match env i, env j with
      | Some u, Some r => Some (Done, (set (set env i (Some r)) j (Some u), h))
      | _, _ => skip end
  | OWrite i k v =>
      match env i with
      | Some u => if k <? u_size u then ends env env (uv_write u k v h) else skip
      | None => skip end
  | ORead i k =>
      match env i with
      | Some u => if k <? u_size u then asks env (uv_read u k h) else skip
      | None => skip end
  | OAt i k => match env i with Some u => asks env (uv_at u k h) | None => skip end
  | OSize i => match env i with Some u => Some (Size (u_size u), s) | None => skip end
  | ODestroy i =>
      match env i with
      | Some u => ends env (set env i None) (uv_destroy u h)
      | None => skip end
  end.

(** A whole program, going on after an exception: the answers and the state at
    the end, or undefined behaviour. *)
Fixpoint uv_run (T : elem V) (s : state uvec) (p : list op) :
    option (list answer * state uvec) :=
  match p with
  | [] => Some ([], s)
  | o :: p' =>
      match uv_step T s o with
      | None => None
      | Some (a, s1) =>
          match uv_run T s1 p' with
          | None => None
          | Some (l, s2) => Some (a :: l, s2)
          end
      end
  end.

(** Instructions on buffer adaptors that own their buffer. *)
Inductive bop : Type :=
  | BAdopt (i : nat) (l : list V)      (* p = new T[...]{l...}; B i(p, l.size());       *)
  | BReset (i : nat) (l : list V)      (* p = new T[...]{l...}; i.reset_data(p, size);  *)
  | BFrom (i : nat) (l : list V)       (* i = temporary holding l;                      *)
  | BMove (i j : nat)                  (* B i(std::move(j));                            *)
  | BAssign (i j : nat)                (* i = j;                                        *)
  | BMoveAssign (i j : nat)            (* i = std::move(j);                             *)
  | BSwap (i j : nat)                  (* i.swap(j);                                    *)
  | BResize (i n : nat)                (* i.resize(n);                                  *)
  | BWrite (i k : nat) (v : V)         (* i[k] = v;                                     *)
  | BRead (i k : nat)                  (* i[k]                                          *)
  | BSize (i : nat)                    (* i.size()                                      *)
  | BDestroy (i : nat).                (* end of the life of i                          *)

(** The program allocates a buffer and puts values there. *)
Definition user_buffer (l : list V) (h : heap V) : out V nat :=
  bnd (allocate (length l) h) (fun p h =>
  bnd (store p (map Some l) h) (fun _ h => Ret p h)).

(** One instruction on variables whose type is an owning buffer adaptor. *)
Definition ob_step (T : elem V) (s : state obuf) (o : bop) : option (answer * state obuf) :=
  let '(env, h) := s in
  let skip := Some (Skip, s) in
  match o with
  | BAdopt i l =>
      match env i with
      | None => into env i (bnd (user_buffer l h) (fun p h =>
                            Ret (ob_make (Some p) (length l)) h))
      | Some _ => skip end
  | BReset i l =>
      match env i with
      | Some u => into env i (bnd (user_buffer l h) (fun p h =>
                              ob_reset u (Some p) (length l) h))
      | None => skip end
  | BFrom i l =>
      match env i with
      | Some u => into env i (ob_from T u (map Some l) h)
      | None => skip end
  | BMove i j =>
      match env i, env j with
      | None, Some r =>
          let '(u, r') := ob_move r in
          Some (Done, (set (set env j (Some r')) i (Some u), h))
      | _, _ => skip end
  | BAssign i j =>
      match env i, env j with
      | Some u, Some r =>
          if i =? j then Some (Done, s) else into env i (ob_assign T u r h)
      | _, _ => skip end
  | BMoveAssign i j | BSwap i j =>
      (* xbuffer_adaptor.hpp:740-744: operator=(self_type&&) is swap *)
      match env i, env j with
      | Some u, Some r =>
          if i =? j then Some (Done, s)
          else let '(u', r') := ob_swap u r in
               Some (Done, (set (set env i (Some u')) j (Some r'), h))
      | _, _ => skip end
  | BResize i n => match env i with Some u => into env i (ob_resize T u n h) | None => skip end
  | BWrite i k v =>
      match env i with
      | Some u => if k <? o_size u
                  then ends env env (uv_write (mk_uvec (o_data u) (o_size u)) k v h) else skip
      | None => skip end
  | BRead i k =>
      match env i with
      | Some u => if k <? o_size u
                  then asks env (uv_read (mk_uvec (o_data u) (o_size u)) k h) else skip
      | None => skip end
  | BSize i => match env i with Some u => Some (Size (o_size u), s) | None => skip end
  | BDestroy i =>
      match env i with
      | Some u => ends env (set env i None) (ob_destroy u h)
      | None => skip end
  end.

Fixpoint ob_run (T : elem V) (s : state obuf) (p : list bop) :
    option (list answer * state obuf) :=
  match p with
  | [] => Some ([], s)
  | o :: p' =>
      match ob_step T s o with
      | None => None
      | Some (a, s1) =>
          match ob_run T s1 p' with
          | None => None
          | Some (l, s2) => Some (a :: l, s2)
          end
      end
  end.

(** Nothing exists yet. *)
Definition nothing (O : Type) : nat -> option O := fun _ => None.
Definition fresh (mem elem : list bool) : heap V := mk_heap 0 (fun _ => None) mem elem.

End Programs.
Arguments op : clear implicits.
Arguments bop : clear implicits.
Arguments answer : clear implicits.

(** ** Comparisons *)

Section Compare.
Context {V : Type}.

(** std::equal, past the test that the sizes are equal: xstorage.hpp:572-575,
    xbuffer_adaptor.hpp:994-998 *)
Fixpoint equal_ranges (eqb : V -> V -> bool) (a b : list V) : bool :=
  match a, b with
  | x :: a', y :: b' => if eqb x y then equal_ranges eqb a' b' else false
  | _, _ => true
  end.

Definition st_eq (eqb : V -> V -> bool) (a b : list V) : bool :=
  (length a =? length b) && equal_ranges eqb a b.

(** std::lexicographical_compare(a.begin(), a.end(), b.begin(), b.end(), comp) *)
Fixpoint lexicographical_compare (comp : V -> V -> bool) (a b : list V) {struct a} : bool :=
  match a, b with
  | [], [] => false
  | [], _ :: _ => true
  | _ :: _, [] => false
  | x :: a', y :: b' =>
      if comp x y then true else if comp y x then false
      else lexicographical_compare comp a' b'
  end.

(** xstorage.hpp:584-605: the comparisons of uvector *)
Definition uv_lt (ltb : V -> V -> bool) a b := lexicographical_compare ltb a b.
Definition uv_gt (ltb : V -> V -> bool) a b := uv_lt ltb b a.
Definition uv_le (ltb : V -> V -> bool) a b := negb (uv_gt ltb a b).
Definition uv_ge (ltb : V -> V -> bool) a b := negb (uv_lt ltb a b).

(** xbuffer_adaptor.hpp:1007-1052: the comparisons of a buffer adaptor;
    [std::less_equal], [std::greater] and [std::greater_equal] of the elements *)
Definition ba_lt (ltb : V -> V -> bool) a b := lexicographical_compare ltb a b.
Definition ba_le (ltb : V -> V -> bool) a b :=
  lexicographical_compare (fun x y => negb (ltb y x)) a b.
Definition ba_gt (ltb : V -> V -> bool) a b :=
  lexicographical_compare (fun x y => ltb y x) a b.
Definition ba_ge (ltb : V -> V -> bool) a b :=
  lexicographical_compare (fun x y => negb (ltb x y)) a b.

End Compare.
