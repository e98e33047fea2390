(** Printing expressions: io/xio.hpp. Characters are bytes: 10 is a line break, 32 a
    blank. The stream is in its default state: decimal, aligned right, filled with blanks. *)
From Coq Require Import String ZArith Bool List.
From Verif Require Import Prelude Strides_Model Access_Model Container_Model Reshape_Model Npy_Model Csv_Model.
Import ListNotations.
Open Scope Z_scope.

(** The loops over the first axis in xoutput (io/xio.hpp 209-262) and in recurser_run
    (io/xio.hpp 278-291): [each] for the elements before the last one, [last] for
    it, [skip] where the items in the middle are left out. [lim] and [n] are std::size_t. The
    loop ends only when i equals n - 1. [fuel]: without having met it after n rounds, i is
    beyond it and grows until an element outside the array is accessed. *)
Fixpoint run_axis {St} (fuel : nat) (n lim : Z) (skip : St -> St) (each last : Z -> St -> res St) (i : Z) (st : St) : res St :=
  if i =? n - 1 then last i st
  else match fuel with
  | O => UB
  | S f =>
      let '(i, st) := if negb (lim =? 0) && (to_size_t (lim * 2) <? n) && (i =? lim) then (n - lim, skip st) else (i, st) in
      let* st := each i st in run_axis f n lim skip each last (i + 1) st
  end.

(** io/xio.hpp 267-293: recurser_run hands the elements to fn.update. [sh]: the axes left
    after the slices [sl]; the strided view by integers (C19) has this shape, and without axes left
    it is the element at these indices. *)
Fixpoint recurser_run {A St} (get : list Z -> res A) (update : St -> A -> res St) (lim : Z) (sh sl : list Z) (st : St) : res St :=
  match sh with
  | [] => let* v := get sl in update st v
  | n :: r =>
      let f := fun i st => recurser_run get update lim r (sl ++ [i]) st in
      run_axis (Z.to_nat n) n lim (fun st => st) f f 0 st
  end.

(** A printer: its state while elements are handed to it (update), then the width of the
    elements (init, width) and what is written for one (print_next). All of them keep
    the elements, or their texts, in a vector [m_cache] that print_next walks through. *)
Record printer (A St : Type) := mk_printer { pr_start : St; pr_update : St -> A -> res St; pr_width : St -> Z; pr_cell : St -> A -> bytes }.
Arguments mk_printer {A St}. Arguments pr_start {A St}. Arguments pr_update {A St}. Arguments pr_width {A St}. Arguments pr_cell {A St}.

Definition indent (blanks : nat) : bytes := 10 :: repeat 32 blanks.

(** io/xio.hpp 189-265: xoutput. The slices only serve to tell which axes are left ([sh]).
    [ll]: line_lim. [cache]: the elements print_next has still to print. *)
Fixpoint xoutput {A} (cell : A -> bytes) (lim ll : Z) (sh : list Z) (blanks : nat) (st : bytes * list A) : res (bytes * list A) :=
  match sh with
  | [] => match st with (out, x :: cache) => Ok (out ++ cell x, cache) | (_, []) => UB end
  | n :: r =>
      let one := match r with [] => true | _ => false end in
      let full := fun k => one && negb (ll =? 0) && (ll <=? k) in
      let skip := fun '(out, cache, k) =>
        if full k then (out ++ str " ...,", cache, k)
        else if negb one then (out ++ str "...," ++ indent blanks, cache, 0)
        else (out ++ str "..., ", cache, k) in
      let each := fun (_ : Z) '(out, cache, k) =>
        let '(out, k) := if full k then (out ++ indent blanks, 0) else (out, k) in
        let* '(out, cache) := xoutput cell lim ll r (S blanks) (out, cache) in
        let k := k + 1 in
        let out := out ++ str "," in
        Ok (if one && negb (full k) then out ++ str " " else if negb one then out ++ indent blanks else out, cache, k) in
      let last := fun (_ : Z) '(out, cache, k) =>
        let out := if full k then out ++ indent blanks else out in
        let* '(out, cache) := xoutput cell lim ll r (S blanks) (out, cache) in
        Ok (out ++ str "}", cache, k) in
      let '(out, cache) := st in
      let* '(out, cache, _) := run_axis (Z.to_nat n) n lim skip each last 0 (out ++ str "{", cache, 0) in
      Ok (out, cache)
  end.

(** io/xio.hpp 37-43: print_options_impl *)
Record options := mk_options { o_edge_items : Z; o_line_width : Z; o_threshold : Z; o_precision : Z }.
Definition default_options : options := mk_options 3 75 1000 (-1).
(** io/xio.hpp 693-739: get_print_options: the values left in the stream by the
    manipulators (line_width and so on), which are reset, or else the global ones. *)
Definition get_print_options (global words : options) : options * options :=
  let pick := fun w g => if w =? 0 then (g, w) else (w, 0) in
  let '(e, we) := pick (o_edge_items words) (o_edge_items global) in
  let '(l, wl) := pick (o_line_width words) (o_line_width global) in
  let '(t, wt) := pick (o_threshold words) (o_threshold global) in
  let '(p, wp) := pick (o_precision words) (o_precision global) in
  (mk_options e l t p, mk_options we wl wt wp).

(** io/xio.hpp 777-818: pretty_print, for element types whose printer does not use the
    precision. line_lim: line 215. Result: what is written and the words left in
    the stream. *)
Definition pretty_print {A St} (pr : printer A St) (global words : options) (c : cont A) : res (bytes * options) :=
  let sz := compute_size (ct_shape c) in
  let '(po, words) := get_print_options global words in
  let lim := if to_size_t (o_threshold po) <? sz then to_size_t (o_edge_items po) else 0 in
  if sz =? 0 then Ok (str "{}", words)
  else
    let get := fun sl => rdz (ct_data c) (element_offset (ct_strides c) sl) in
    let update := fun '(st, cache) v => let* st := pr_update pr st v in Ok (st, cache ++ [v]) in
    let* '(st, cache) := recurser_run get update lim (ct_shape c) [] (pr_start pr, []) in
    let ll := to_size_t (o_line_width po) / (pr_width pr st + 2) in
    let* '(out, _) := xoutput (pr_cell pr st) lim ll (ct_shape c) 1 ([], cache) in
    Ok (out, words).

(** ** Printers *)

(** std::ostream::width(w) before writing [s] *)
Definition pad (w : Z) (s : bytes) : bytes := repeat 32 (Z.to_nat w - length s) ++ s.

(** std::streamsize(std::log10(m)) for m > 0: the whole part of the logarithm. Simplified: exact;
    the rounding of std::log10 can only give one more, below a power of ten. *)
Fixpoint log10_aux (fuel : nat) (m : Z) : Z :=
  match fuel with O => 0 | S f => if m <? 10 then 0 else 1 + log10_aux f (m / 10) end.
Definition log10 (m : Z) : Z := log10_aux (S (Z.to_nat (Z.log2 m))) m.

(** math::abs of a value of a type of [b] bits (core/xmath.hpp 154, 59-63): narrow types
    are promoted to int. *)
Definition int_abs (sg : bool) (b v : Z) : res Z :=
  if negb sg then Ok v
  else if (32 <=? b) && (v =? - 2 ^ (b - 1)) then UB else Ok (Z.abs v).
(** io/xio.hpp 442-496: integral types (not bool) of [b] bits; the state is m_max, of the
    element type, and m_sign. *)
Definition int_update (sg : bool) (b : Z) (st : Z * bool) (v : Z) : res (Z * bool) :=
  let '(m, s) := st in
  let* a := int_abs sg b v in
  let m := if m <? a then (if sg then to_signed b a else a) else m in
  Ok (m, if sg && (v <? 0) then true else s).
Definition int_width (st : Z * bool) : Z :=
  let '(m, s) := st in 1 + (if 0 <? m then log10 m else 0) + (if s then 1 else 0).
Definition int_printer (sg : bool) (b : Z) : printer Z (Z * bool) :=
  mk_printer (0, false) (int_update sg b) int_width (fun st v => pad (int_width st) (show_int v)).

(** io/xio.hpp 500-546: bool *)
Definition bool_printer : printer bool unit :=
  mk_printer tt (fun (_ : unit) (_ : bool) => Ok tt) (fun _ => 5) (fun _ (v : bool) => if v then str " true" else str "false").

(** io/xio.hpp 615-663: other types, here strings: the state is m_width. *)
Definition text_width (w : Z) : Z := if 20 <? w then 0 else w.
Definition text_printer : printer bytes Z :=
  mk_printer 0 (fun (w : Z) (s : bytes) => Ok (if w <? Z.of_nat (length s) then Z.of_nat (length s) else w)) text_width (fun w s => pad (text_width w) s).
