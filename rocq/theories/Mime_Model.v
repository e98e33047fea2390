(** The HTML table of an expression: io/xmime.hpp. *)
From Coq Require Import String ZArith Bool List.
From Verif Require Import Prelude Strides_Model Access_Model Container_Model Reshape_Model Npy_Model Csv_Model Print_Model.
Import ListNotations.
Open Scope Z_scope.

(** What is written to the stream, before it becomes text: a start or end tag, a cell with the indices in its title, or characters. *)
Inductive piece := Open (tag : bytes) | Close (tag : bytes) | Cell (ix : list Z) (body : bytes) | Text (b : bytes).

(** The texts of the indices, each followed by a comma (io/xmime.hpp 131-139), and of the title of a cell: io/xmime.hpp 28, 37, 79-80 *)
Definition title (ix : list Z) : bytes :=
  match ix with
  | [] => []
  | [i] => str " title='" ++ show_int i ++ str "'"
  | _ => str " title='(" ++ flat_map (fun i => show_int i ++ str ", ") (removelast ix) ++ show_int (last ix 0) ++ str ")'"
  end.
(** The text of a piece. io/xmime.hpp 27-31, 37-39, 47, 67, 79-82, 97, 117, 147, 179, 191-193, 217, 240 *)
Definition render (p : piece) : bytes :=
  match p with
  | Open t => if list_eq_dec Z.eq_dec t (str "table") then str "<table style='border-style:solid;border-width:1px;'>" else str "<" ++ t ++ str ">"
  | Close t => str "</" ++ t ++ str ">"
  | Cell ix b => str "<td style='font-family:monospace;'" ++ title ix ++ str "><pre>" ++ b ++ str "</pre></td>"
  | Text b => b
  end.
Definition renders (l : list piece) : bytes := flat_map render l.

(** ⋮, ⋯ and ⋱ in UTF-8 *)
Definition vertical : bytes := [226; 139; 174].
Definition horizontal : bytes := [226; 139; 175].
Definition diagonal : bytes := [226; 139; 177].

Section Tables.
Context {A : Type} (cell : A -> bytes).
(** The stream, and the elements print_next has still to print *)
Definition stream : Type := (list piece * list A)%type.
Definition put (l : list piece) (st : stream) : stream := (fst st ++ l, snd st).
(** printer.print_next between the tags of a cell *)
Definition put_cell (ix : list Z) (st : stream) : res stream :=
  match st with (out, x :: cache) => Ok (out ++ [Cell ix (cell x)], cache) | (_, []) => UB end.
(** for (std::size_t i = a; i < b; ++i) *)
Definition span (a b : Z) : list Z := map (fun k => a + Z.of_nat k) (seq 0 (Z.to_nat (b - a))).
(** The loops over an axis: io/xmime.hpp 48-66, 98-116, 148-178, 218-239. [each] for the items shown, [dots] between the first and the last edgeitems ones *)
Definition axis (e n : Z) (each : Z -> stream -> res stream) (dots : stream -> stream) (st : stream) : res stream :=
  if (e =? 0) || (n <=? to_size_t (2 * e)) then for_each each (span 0 n) st
  else let* st := for_each each (span 0 e) st in for_each each (span (n - e) n) (dots st).
Definition dots_cell (b : bytes) : list piece := [Open (str "td"); Open (str "center"); Text b; Close (str "center"); Close (str "td")].

(** io/xmime.hpp 34-40: compute_1d_row *)
Definition row_1d (i : Z) (st : stream) : res stream :=
  let* st := put_cell [i] (put [Open (str "tr")] st) in Ok (put [Close (str "tr")] st).
(** io/xmime.hpp 42-68: compute_1d_table *)
Definition table_1d (e n : Z) (st : stream) : res stream :=
  let st := put [Open (str "table"); Open (str "tbody")] st in
  let* st := axis e n row_1d (put ([Open (str "tr")] ++ dots_cell vertical ++ [Close (str "tr")])) st in
  Ok (put [Close (str "tbody"); Close (str "table")] st).
(** io/xmime.hpp 85-118: compute_2d_row; 70-83: compute_2d_element is put_cell *)
Definition row_2d (e c : Z) (ix : list Z) (i : Z) (st : stream) : res stream :=
  let st := put [Open (str "tr")] st in
  let* st := axis e c (fun j => put_cell (ix ++ [i; j])) (put (dots_cell horizontal)) st in
  Ok (put [Close (str "tr")] st).
(** io/xmime.hpp 141-145 and 161-173: the row of ellipses *)
Definition dots_row (e c : Z) : list piece :=
  let nb := if c <=? to_size_t (2 * e + 1) then c else to_size_t (2 * e + 1) in
  [Open (str "tr")] ++ flat_map (fun j => dots_cell (if (j =? e) && negb (nb =? c) then diagonal else vertical)) (span 0 nb) ++ [Close (str "tr")].
(** io/xmime.hpp 120-180: compute_2d_table *)
Definition table_2d (e r c : Z) (ix : list Z) (st : stream) : res stream :=
  let st := put [Open (str "table"); Open (str "tbody")] st in
  let* st := axis e r (row_2d e c ix) (put (dots_row e c)) st in
  Ok (put [Close (str "tbody"); Close (str "table")] st).
(** io/xmime.hpp 182-241: compute_nd_row and compute_nd_table_impl. [sh]: the extents after those of [ix]; there are at least two. *)
Fixpoint table_nd (e : Z) (sh ix : list Z) (st : stream) : res stream :=
  match sh with
  | [r; c] => table_2d e r c ix st
  | n :: sh =>
      let st := put [Open (str "table")] st in
      let each := fun i st =>
        let* st := table_nd e sh (ix ++ [i]) (put [Open (str "tr"); Open (str "td")] st) in
        Ok (put [Close (str "td"); Close (str "tr")] st) in
      let* st := axis e n each (put ([Open (str "tr")] ++ dots_cell horizontal ++ [Close (str "tr")])) st in
      Ok (put [Close (str "table")] st)
  | [] => UB
  end.
End Tables.

(** io/xmime.hpp 243-259 and 24-32: compute_nd_table and compute_0d_table; [raw]: operator<< for an element *)
Definition nd_table {A} (cell raw : A -> bytes) (e : Z) (sh : list Z) (get : list Z -> res A) (st : stream) : res (@stream A) :=
  match sh with
  | [] => let* x := get [] in
      Ok (put [Open (str "table"); Open (str "tbody"); Open (str "tr"); Cell [] (raw x); Close (str "tr"); Close (str "tbody"); Close (str "table")] st)
  | [n] => table_1d cell e n st
  | _ => table_nd cell e sh [] st
  end.

(** io/xmime.hpp 261-289: mime_bundle_repr_impl, for element types whose printer does not use the precision. [po]: the global print options; those given to a stream are not looked at. *)
Definition mime {A St} (pr : printer A St) (raw : A -> bytes) (po : options) (c : cont A) : res (list piece) :=
  let e := if to_size_t (o_threshold po) <? compute_size (ct_shape c) then to_size_t (o_edge_items po) else 0 in
  let get := fun sl => rdz (ct_data c) (element_offset (ct_strides c) sl) in
  let update := fun '(st, cache) v => let* st := pr_update pr st v in Ok (st, cache ++ [v]) in
  let* '(st, cache) := recurser_run get update e (ct_shape c) [] (pr_start pr, []) in
  let* '(out, _) := nd_table (pr_cell pr st) raw e (ct_shape c) get ([], cache) in
  Ok out.
