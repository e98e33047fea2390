(** What the HTML table should contain. *)
From Coq Require Import String ZArith Bool List.
From Verif Require Import Prelude Strides_Model Strides_Spec Npy_Model Csv_Model Print_Model Print_Spec Mime_Model.
Import ListNotations.
Open Scope Z_scope.

(** The cells of a page, in order: the indices in the title and the contents *)
Definition cells (l : list piece) : list (list Z * bytes) := flat_map (fun p => match p with Cell ix b => [(ix, b)] | _ => [] end) l.
(** Tags are closed in the order they require. *)
Inductive well_nested : list piece -> Prop :=
| wn_nil : well_nested []
| wn_tag t p q : well_nested p -> well_nested q -> well_nested (Open t :: p ++ Close t :: q)
| wn_cell ix b p : well_nested p -> well_nested (Cell ix b :: p)
| wn_text b p : well_nested p -> well_nested (Text b :: p).
(** The number of columns of a row: its cells and td elements *)
Definition columns (l : list piece) : nat :=
  length (filter (fun p => match p with Cell _ _ => true | Open t => if list_eq_dec Z.eq_dec t (str "td") then true else false | _ => false end) l).
Definition in_row (l : list piece) : list piece := [Open (str "tr")] ++ l ++ [Close (str "tr")].
Definition in_table (l : list piece) : list piece := [Open (str "table"); Open (str "tbody")] ++ l ++ [Close (str "tbody"); Close (str "table")].
