(** Model of the storage of arrays with missing values: optional/xoptional_assembly_storage.hpp. The storages of values and flags are uvectors, as lists (C77, C78). *)
From Coq Require Import List ZArith Bool.
From Verif Require Import Prelude Storage_Model.
Import ListNotations.
Open Scope nat_scope.

Section OStore.
Context {V : Type}.
(** 113-114: m_value and m_has_value *)
Record storage := mk_storage { values : list V; flags : list bool }.

(** 265-274: empty and size *)
Definition os_empty (s : storage) : bool := match values s with [] => true | _ => false end.
Definition os_size (s : storage) : nat := length (values s).
(** 277-281: resize. uvector::resize makes a new block when the size changes (C77); [fv] and [fb] are what it contains. *)
Definition uv_resize {A} (f : nat -> list A) (l : list A) (n : nat) : list A := if n =? length l then l else f n.
Definition os_resize (fv : nat -> list V) (fb : nat -> list bool) (s : storage) (n : nat) : storage := mk_storage (uv_resize fv (values s) n) (uv_resize fb (flags s) n).
(** 284-293: operator[]; reading it *)
Definition os_get (s : storage) (i : nat) : res (V * bool) := let* v := rd (values s) i in let* b := rd (flags s) i in Ok (v, b).
(** Assignment of an optional value and of xtl::missing to the reference operator[] gives; the second keeps the value. *)
Definition os_set (s : storage) (i : nat) (v : V) (b : bool) : res storage :=
  let* vs := wr (values s) i v in let* fs := wr (flags s) i b in Ok (mk_storage vs fs).
Definition os_set_missing (s : storage) (i : nat) : res storage :=
  let* _ := rd (values s) i in let* fs := wr (flags s) i false in Ok (mk_storage (values s) fs).
(** 296-317: front and back. size() - 1 wraps for an empty storage: an index that is not there. *)
Definition os_front (s : storage) : res (V * bool) := os_get s 0.
Definition os_back (s : storage) : res (V * bool) := if os_size s =? 0 then UB else os_get s (os_size s - 1).
(* 320-329: data is not modelled: it has no return statement. *)
(** 404-408: swap *)
Definition os_swap (s t : storage) : storage * storage := (mk_storage (values t) (flags t), mk_storage (values s) (flags s)).
(** 242-247, 257-262: operator= *)
Definition os_assign (s t : storage) : storage := mk_storage (values t) (flags t).

(** 435-473: the comparisons *)
Definition os_eq (eqb : V -> V -> bool) (s t : storage) : bool := st_eq eqb (values s) (values t) && st_eq Bool.eqb (flags s) (flags t).
Definition os_ne eqb s t : bool := negb (os_eq eqb s t).
Definition os_lt (ltb : V -> V -> bool) (s t : storage) : bool := uv_lt ltb (values s) (values t) && st_eq Bool.eqb (flags s) (flags t).
Definition os_le (ltb : V -> V -> bool) (s t : storage) : bool := uv_le ltb (values s) (values t) && st_eq Bool.eqb (flags s) (flags t).
Definition os_gt (ltb : V -> V -> bool) (s t : storage) : bool := uv_gt ltb (values s) (values t) && st_eq Bool.eqb (flags s) (flags t).
Definition os_ge (ltb : V -> V -> bool) (s t : storage) : bool := uv_ge ltb (values s) (values t) && st_eq Bool.eqb (flags s) (flags t).

(** 211-212: the iterators: a position in the values and one in the flags *)
Record iter := mk_iter { iv : Z; ib : Z }.
(** 332-366: begin and end *)
Definition it_begin (s : storage) : iter := mk_iter 0 0.
Definition it_end (s : storage) : iter := mk_iter (Z.of_nat (length (values s))) (Z.of_nat (length (flags s))).
(** 495-525: ++, --, += and -= *)
Definition it_next (i : iter) : iter := mk_iter (iv i + 1) (ib i + 1).
Definition it_prev (i : iter) : iter := mk_iter (iv i - 1) (ib i - 1).
Definition it_plus (i : iter) (n : Z) : iter := mk_iter (iv i + n) (ib i + n).
Definition it_minus (i : iter) (n : Z) : iter := mk_iter (iv i - n) (ib i - n).
(** 527-556: difference, *, == and < *)
Definition it_diff (i j : iter) : Z := (iv i - iv j)%Z.
Definition it_deref (s : storage) (i : iter) : res (V * bool) :=
  if (iv i <? 0)%Z || (ib i <? 0)%Z then UB
  else let* v := rd (values s) (Z.to_nat (iv i)) in let* b := rd (flags s) (Z.to_nat (ib i)) in Ok (v, b).
Definition it_eq (i j : iter) : bool := (iv i =? iv j)%Z.
Definition it_less (i j : iter) : bool := (iv i <? iv j)%Z.
(** for (; it != end; ++it) *it, at most [fuel] times *)
Fixpoint walk (fuel : nat) (s : storage) (i e : iter) : res (list (V * bool)) :=
  if it_eq i e then Ok []
  else match fuel with O => UB | S k => let* x := it_deref s i in let* r := walk k s (it_next i) e in Ok (x :: r) end.
(** 368-402: reverse iterators; std::reverse_iterator looks at the element before its position *)
Fixpoint walk_back (fuel : nat) (s : storage) (i e : iter) : res (list (V * bool)) :=
  if it_eq i e then Ok []
  else match fuel with O => UB | S k => let* x := it_deref s (it_prev i) in let* r := walk_back k s (it_prev i) e in Ok (x :: r) end.

(** Programs on two storages, the first of which is changed *)
Inductive op := Put (i : nat) (v : V) (b : bool) | Miss (i : nat) | Resize (n : nat) | Swap | Assign.
Definition step (fv : nat -> list V) (fb : nat -> list bool) (st : storage * storage) (o : op) : res (storage * storage) :=
  let '(s, t) := st in
  match o with
  | Put i v b => let* s := os_set s i v b in Ok (s, t)
  | Miss i => let* s := os_set_missing s i in Ok (s, t)
  | Resize n => Ok (os_resize fv fb s n, t)
  | Swap => Ok (os_swap s t)
  | Assign => Ok (os_assign s t, t)
  end.
Fixpoint steps fv fb (st : storage * storage) (p : list op) : res (storage * storage) :=
  match p with [] => Ok st | o :: p => let* st := step fv fb st o in steps fv fb st p end.
End OStore.
