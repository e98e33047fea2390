(** Model of the print options of programs that print arrays to several streams: io/xio.hpp 35-182, 693-738, 749-819. *)
From Coq Require Import List ZArith Bool.
From Verif Require Import Prelude Strides_Model Access_Model Container_Model Reshape_Model Npy_Model Csv_Model Print_Model.
Import ListNotations.
Open Scope Z_scope.

Section PrintOpt.
Context {A St : Type} (pr : printer A St).
(** 37-43: the fields of print_options_impl, and the four manipulators of 127-181 *)
Inductive field := EdgeItems | LineWidth | Threshold | Precision.
Definition set_field (o : options) (f : field) (v : Z) : options :=
  match f with
  | EdgeItems => mk_options v (o_line_width o) (o_threshold o) (o_precision o)
  | LineWidth => mk_options (o_edge_items o) v (o_threshold o) (o_precision o)
  | Threshold => mk_options (o_edge_items o) (o_line_width o) v (o_precision o)
  | Precision => mk_options (o_edge_items o) (o_line_width o) (o_threshold o) v
  end.
(** A stream: its iword array at the four ids (zero at first), its precision and its flags *)
Record stream := mk_stream { words : options; prec : Z; flags : Z }.
(** The global options (45-49) and the streams, by number *)
Record world := mk_world { global : options; streams : nat -> stream }.
(** A program before main: default options, and streams with precision 6 and no flags *)
Definition start : world := mk_world default_options (fun _ => mk_stream (mk_options 0 0 0 0) 6 0).
Definition put (w : world) (s : nat) (x : stream) : world := mk_world (global w) (fun t => if Nat.eqb t s then x else streams w t).

(** 51-93: set_line_width and so on; 95-124: out << po::line_width(v) and so on; out << e; out.precision(p) and out.flags(f) *)
Inductive stmt := SetOption (f : field) (v : Z) | Give (s : nat) (f : field) (v : Z) | Show (s : nat) (c : cont A) | Format (s : nat) (p fl : Z).
(** 749-771: fmtflags_guard and 777-818: pretty_print around the text of Print_Model. [scratch] is what the printers make of the flags; the precision is set and restored (799-805, 815). Result: the text, the precision of the stream while it is written, and the world after. *)
Definition show (scratch : Z -> Z) (w : world) (s : nat) (c : cont A) : res (bytes * Z * world) :=
  let x := streams w s in
  let saved_flags := flags x in
  let po := fst (get_print_options (global w) (words x)) in
  let* '(text, rest) := pretty_print pr (global w) (words x) c in
  if compute_size (ct_shape c) =? 0 then Ok (text, prec x, put w s (mk_stream rest (prec x) saved_flags))
  else
    let temp_precision := prec x in
    let during := mk_stream rest (if o_precision po =? -1 then prec x else o_precision po) (scratch (flags x)) in
    let after := mk_stream (words during) temp_precision (flags during) in
    Ok (text, prec during, put w s (mk_stream (words after) (prec after) saved_flags)).
Definition exec (scratch : Z -> Z) (w : world) (c : stmt) : res world :=
  match c with
  | SetOption f v => Ok (mk_world (set_field (global w) f v) (streams w))
  | Give s f v => let x := streams w s in Ok (put w s (mk_stream (set_field (words x) f v) (prec x) (flags x)))
  | Show s c => let* '(_, _, w) := show scratch w s c in Ok w
  | Format s p fl => Ok (put w s (mk_stream (words (streams w s)) p fl))
  end.
Fixpoint run (scratch : Z -> Z) (w : world) (h : list stmt) : res world :=
  match h with [] => Ok w | c :: h => let* w := exec scratch w c in run scratch w h end.
End PrintOpt.
