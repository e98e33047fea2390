(** Random reordering and sampling: generators/xrandom.hpp. *)
From Coq Require Import List ZArith Bool.
From Verif Require Import Prelude Strides_Model Access_Model Container_Model Manip_Model Builder_Model SetOp_Model.
Import ListNotations.
Open Scope Z_scope.

Section Engine.
(** An engine is a state; [uniform i g] is the number drawn by
    std::uniform_int_distribution<size_type>(0, i) and the state of the engine after it. *)
Context {G : Type} (uniform : Z -> G -> Z * G).

(** swap(first[i], first[j]) for an iterator over the elements at [pos] in the memory *)
Definition swap_at {V} (pos : list Z) (i j : Z) (mem : list V) : res (list V) :=
  let* p := rdz pos i in
  let* q := rdz pos j in
  let* x := rdz mem p in
  let* y := rdz mem q in
  let* mem := wrz mem p y in
  wrz mem q x.

(** shuffle, lines 793-807: an expression with one dimension, whose elements are at the
    positions [pos] of the memory; [i] counts down to 1 *)
Fixpoint shuffle_loop {V} (i : nat) (pos : list Z) (mem : list V) (g : G) : res (list V * G) :=
  match i with
  | O => Ok (mem, g)
  | S i' =>
      let '(j, g) := uniform (Z.of_nat i) g in
      let* mem := swap_at pos (Z.of_nat i) j mem in
      shuffle_loop i' pos mem g
  end.
Definition shuffle1 {V} (pos : list Z) (mem : list V) (g : G) : res (list V * G) :=
  shuffle_loop (Z.to_nat (to_size_t (Z.of_nat (length pos) - 1))) pos mem g.

(** view(de, j): the positions of the elements of a sub-array along the first axis, in row
    major order. An assignment from or to a view reads or writes them (C14, C36); the order does not
    matter. *)
Definition sub_positions {V} (c : cont V) (j : Z) : list Z :=
  map (fun ix => element_offset (ct_strides c) (j :: ix)) (indices (tl (ct_shape c))).
Definition read_all {V} (mem : list V) (ps : list Z) : res (list V) :=
  for_each (fun p acc => let* x := rdz mem p in Ok (acc ++ [x])) ps [].
Definition write_all {V} (ps : list Z) (xs : list V) (mem : list V) : res (list V) :=
  for_each (fun px mem => wrz mem (fst px) (snd px)) (combine ps xs) mem.

(** lines 809-822: any other number of dimensions *)
Fixpoint shuffle_rows {V} (i : nat) (c : cont V) (mem : list V) (g : G) : res (list V * G) :=
  match i with
  | O => Ok (mem, g)
  | S i' =>
      let '(j, g) := uniform (Z.of_nat i) g in
      let* buf := read_all mem (sub_positions c j) in
      let* row := read_all mem (sub_positions c (Z.of_nat i)) in
      let* mem := write_all (sub_positions c j) row mem in
      let* mem := write_all (sub_positions c (Z.of_nat i)) buf mem in
      shuffle_rows i' c mem g
  end.

(** shuffle of a container, lines 788-823. The elements of a container with one
    dimension are at 0, 1, ... of its storage. *)
Definition shuffle {V} (c : cont V) (g : G) : res (cont V * G) :=
  let* '(mem, g) :=
    if (length (ct_shape c) =? 1)%nat then
      let* n := rd (ct_shape c) 0 in
      shuffle1 (map Z.of_nat (seq 0 (Z.to_nat n))) (ct_data c) g
    else
      let* n := rd (ct_shape c) 0 in
      shuffle_rows (Z.to_nat (to_size_t (n - 1))) c (ct_data c) g in
  Ok (mk_cont (ct_shape c) (ct_strides c) (ct_back c) (ct_layout c) mem, g).

(** permutation of an integer of a signed type, lines 837-843 *)
Definition permutation_int (e : Z) (g : G) : res (list Z * G) :=
  let* n := arange_shape_signed 0 e 1 in
  shuffle1 (map Z.of_nat (seq 0 (Z.to_nat n))) (arange_assign 0 1 n) g.

(** permutation of an expression, lines 846-853, with one dimension. The copy of a container
    has its own memory, the copy of a view refers to the same memory: the result is the memory
    of the argument and that of the result. *)
Definition permutation_container {V} (data : list V) (g : G) : res (list V * list V * G) :=
  let* '(mem, g) := shuffle1 (map Z.of_nat (seq 0 (length data))) data g in Ok (data, mem, g).
Definition permutation_view {V} (pos : list Z) (mem : list V) (g : G) : res (list V * list V * G) :=
  let* '(mem, g) := shuffle1 pos mem g in Ok (mem, mem, g).

(** choice without weights, lines 869-906: [storage] and [size] are de.storage() and de.size();
    [junk] is the contents of the result after resize *)
Definition choice {V} (storage : list V) (size : Z) (n : nat) (replace : bool) (junk : list V) (g : G) : res (list V * G) :=
  if replace then
    for_up (fun i '(result, g) =>
      let '(k, g) := uniform (to_size_t (size - 1)) g in
      let* x := rdz storage k in
      let* result := wr result i x in
      Ok (result, g)) 0 n (junk, g)
  else
    if (length storage <? n)%nat then UB else
    let* result := for_up (fun i result => let* x := rd storage i in wr result i x) 0 n junk in
    for_up (fun i '(result, g) =>
      let '(idx, g) := uniform (Z.of_nat i) g in
      let* x := rd storage i in
      let* result := if idx <? Z.of_nat n then wrz result idx x else Ok result in
      Ok (result, g)) n (length storage - n) (result, g).

(** choice with weights, lines 932-1001. [cumsum] of one-dimensional weights adds in order
    (C43); [real m g] is a number drawn by std::uniform_real_distribution{0, m}. *)
Section Weights.
Context {W : Type} (lt : W -> W -> bool) (add : W -> W -> W) (real : W -> G -> W * G).
Fixpoint cumsum_from (acc : W) (ws : list W) : list W :=
  match ws with [] => [] | w :: ws => let acc := add acc w in acc :: cumsum_from acc ws end.
Definition cumsum (ws : list W) : list W := match ws with [] => [] | w :: ws => w :: cumsum_from w ws end.

(** lines 953-968 *)
Definition choice_replace {V} (data : list V) (n : nat) (ws : list W) (junk : list V) (g : G) : res (list V * G) :=
  let wc := cumsum ws in
  let* total := rdz wc (to_size_t (Z.of_nat (length wc) - 1)) in
  for_up (fun i '(result, g) =>
    let '(u, g) := real total g in
    let* idx := std_upper_bound lt wc u in
    let* x := rd data idx in
    let* result := wr result i x in
    Ok (result, g)) 0 n (junk, g).

(** lines 971-998: [div] is operator/, [randexp] a number drawn by
    std::exponential_distribution, [partial_sort] is std::partial_sort up to n on the whole range. The
    index view reads one element per index. *)
Context (div : W -> W -> W) (randexp : G -> W * G).
Definition choice_distinct (partial_sort : (Z -> Z -> bool) -> nat -> list Z -> list Z) {V}
    (data : list V) (n : nat) (ws : list W) (g : G) : res (list V * G) :=
  if (length ws <? n)%nat then UB else
  let* '(keys, g) := for_each (fun w '(keys, g) => let '(x, g) := randexp g in Ok (keys ++ [div w x], g)) ws ([], g) in
  let less := fun i j => match rdz keys i, rdz keys j with Ok x, Ok y => lt y x | _, _ => false end in
  let indices := partial_sort less n (arange_assign 0 1 (Z.of_nat (length ws))) in
  let* result := for_each (fun i acc => let* x := rdz data i in Ok (acc ++ [x])) (firstn n indices) [] in
  Ok (result, g).
End Weights.
End Engine.
