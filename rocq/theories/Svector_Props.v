(** C22: svector behaves as std::vector. *)
From Coq Require Import List ZArith Bool Arith Lia.
From Verif Require Import Prelude Svector_Model Svector_Spec Svector4_Proofs Svector5_Proofs.
Import ListNotations.
Open Scope nat_scope.

(** Any history of constructions (default, count, range, copy, move), push_back,
    pop_back, insert, erase, resize, reserve, clear, assign, element writes, swaps,
    copy and move assignments and destructions of any number of svectors of a trivial
    element type: no undefined behaviour, no exception, the contents are those of
    std::vector, and no block of memory is lost. Missing: push_back and insert of
    an element of the vector itself when it is full and on the heap (refuted
    below), and element types that are not trivial (refuted below). *)
Theorem C22_history_partial : forall (V : Type) (N : nat) (zero : V) (es : list (event V)) (vs : vectors V),
  vrun zero [] es = Some vs -> safe_history N zero true world0 es ->
  exists w, run N zero true world0 es = Ok w /\ shows_all w vs /\ no_leak w.
Proof. exact @history_lemma. Qed.
Print Assumptions C22_history_partial.

(** Observers after any such history. *)
Theorem C22_observers : forall (V : Type) (N : nat) (zero : V) (es : list (event V)) (vs : vectors V),
  vrun zero [] es = Some vs -> safe_history N zero true world0 es ->
  exists w, run N zero true world0 es = Ok w /\
  (forall i l, vget vs i = Some l -> exists o, get w i = Ok o /\
     (forall k, s_at (w_heap w) o k = match nth_error l k with Some v => Ok v | None => Throw out_of_range end) /\
     (forall v l', l = v :: l' -> s_front (w_heap w) o = Ok v) /\
     (forall v l', l = l' ++ [v] -> s_back (w_heap w) o = Ok v) /\
     (s_empty o = true <-> l = []) /\
     (forall j m, vget vs j = Some m -> exists p, get w j = Ok p /\
        (forall veq, s_equal veq (w_heap w) o p = Ok (lists_equal veq l m)) /\
        (forall vlt, s_less vlt (w_heap w) o p = Ok (lists_less vlt l m)))).
Proof. exact @observers_lemma. Qed.
Print Assumptions C22_observers.

(** When every svector has been destroyed, every block has been given back. *)
Theorem C22_memory_returned : forall (V : Type) (N : nat) (zero : V) (es : list (event V)) (vs : vectors V),
  vrun zero [] es = Some vs -> safe_history N zero true world0 es -> Forall (eq None) vs ->
  exists w, run N zero true world0 es = Ok w /\ Forall (eq None) (w_heap w).
Proof. exact @all_destroyed_lemma. Qed.
Print Assumptions C22_memory_returned.

(** A history over two vectors with N = 2: growth, self-reference, swap, move. *)
Example C22_case : exists vs, vrun 0%Z [] case_history = Some vs /\ safe_history 2 0%Z true world0 case_history /\ vs = [Some [7; 1; 2]%Z; None; Some [5; 1; 1; 9]%Z].
Proof. exact case_lemma. Qed.

(** std::vector allows v.push_back(v[0]) and v.insert(p, v[0]) in every state. *)
Theorem C22_self_reference_refuted :
  (exists es vs, vrun 0%Z [] es = Some vs /\ run 1 0%Z true world0 es = UB /\ exists es', es = es' ++ [Act 0 (PushBack (Elem 0 0))]) /\
  (exists es vs, vrun 0%Z [] es = Some vs /\ run 1 0%Z true world0 es = UB /\ exists es', es = es' ++ [Act 0 (Insert 0 (Elem 0 0))]).
Proof. exact self_reference_lemma. Qed.
Print Assumptions C22_self_reference_refuted.

(** Elements that are not trivial: growing past N, and using a vector after moving from it. *)
Theorem C22_nontrivial_elements_refuted :
  (exists es vs, vrun 0%Z [] es = Some vs /\ safe_history 1 0%Z false world0 es /\ run 1 0%Z false world0 es = UB /\
     exists es', es = es' ++ [Act 0 (PushBack (Lit 2%Z))]) /\
  (exists es vs, vrun 0%Z [] es = Some vs /\ safe_history 2 0%Z false world0 es /\ run 2 0%Z false world0 es = UB /\
     exists es', es = es' ++ [ConstructMove 0; Act 0 (PushBack (Lit 2%Z))]).
Proof. exact nontrivial_lemma. Qed.
Print Assumptions C22_nontrivial_elements_refuted.
