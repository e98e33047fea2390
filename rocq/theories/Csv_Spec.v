(** What a CSV text means. *)
From Coq Require Import List ZArith Bool.
From Verif Require Import Prelude Strides_Model Container_Model Container_Spec Npy_Model.
Import ListNotations.
Open Scope Z_scope.

(** The text is made of these lines: each is followed by a newline, but the last one may
    go without it unless it is empty. *)
Definition terminated (lines : list bytes) : bytes := concat (map (fun l => l ++ [10]) lines).
Definition text_of (lines : list bytes) (text : bytes) : Prop :=
  text = terminated lines \/ (text ++ [10] = terminated lines /\ last lines [] <> []).

(** Cells separated by the delimiter *)
Fixpoint join (d : Z) (cells : list bytes) : bytes :=
  match cells with
  | [] => []
  | c :: rest => match rest with [] => c | _ => c ++ d :: join d rest end
  end.
Definition is_row (d : Z) (cells : list bytes) (line : bytes) : Prop :=
  line = join d cells /\ Forall (fun c => ~ In d c) cells /\ last cells [] <> [].

(** A comment starts with the mark; another line differs from the mark in a character *)
Definition is_comment (mark line : bytes) : Prop := exists r, line = mark ++ r.
Definition unlike (mark line : bytes) : Prop :=
  exists k a b, nth_error mark k = Some a /\ nth_error line k = Some b /\ a <> b.

(** [holds d mark limit lines rows]: the lines hold these rows, up to the given number of
    rows; what comes after them does not matter. *)
Inductive holds (d : Z) (mark : bytes) : option nat -> list bytes -> list (list bytes) -> Prop :=
| holds_end limit : holds d mark limit [] []
| holds_comment limit l ls rows : is_comment mark l -> holds d mark limit ls rows -> holds d mark limit (l :: ls) rows
| holds_row limit l ls cells rows : unlike mark l -> is_row d cells l -> limit <> Some O ->
    holds d mark (option_map pred limit) ls rows -> holds d mark limit (l :: ls) (cells :: rows)
| holds_enough l ls : unlike mark l -> holds d mark (Some O) (l :: ls) [].

(** max_rows: a number of rows when it is positive *)
Definition limit_of (max_rows : Z) : option nat := if 0 <? max_rows then Some (Z.to_nat max_rows) else None.

(** The text of a CSV file: [skip] lines, then lines holding the rows *)
Definition csv_file (d skip max_rows : Z) (mark : bytes) (text : bytes) (rows : list (list bytes)) : Prop :=
  exists head body, text_of (head ++ body) text /\ Forall (fun l => ~ In 10 l) (head ++ body) /\
    (Z.of_nat (length head) = skip \/ body = [] /\ Z.of_nat (length head) <= skip) /\
    holds d mark (limit_of max_rows) body rows.

(** The rows of a matrix of [r] rows and [c] columns *)
Definition row_of {A} (f : Z -> Z -> A) (c : Z) (i : nat) : list A := map (fun j => f (Z.of_nat i) (Z.of_nat j)) (seq 0 (Z.to_nat c)).
Definition matrix {A} (f : Z -> Z -> A) (r c : Z) : list (list A) := map (row_of f c) (seq 0 (Z.to_nat r)).

(** A text without blanks at its ends *)
Definition unpadded (s : bytes) : Prop := s <> [] /\ hd 0 s <> 32 /\ last s 0 <> 32.

(** A tensor of [r] rows and [c] columns of which element (i, j) is [f i j] *)
Definition is_matrix {T} (t : cont T) (r c : Z) (f : Z -> Z -> T) : Prop :=
  consistent t /\ ct_layout t = row_major /\ ct_shape t = [r; c] /\
  forall i j, 0 <= i < r -> 0 <= j < c -> elt t [i; j] = Ok (f i j).

(** A text that can stand in a cell *)
Definition cell_text (s : bytes) : Prop := s <> [] /\ ~ In 44 s /\ ~ In 10 s.

(** A decimal numeral for the integer n: white space, an optional sign, digits, and then
    anything that does not start with a digit. *)
Definition white (c : Z) : Prop := c = 32 \/ 9 <= c <= 13.
Definition digit_char (d : Z) : Z := 48 + d.
Definition value_of (ds : list Z) : Z := fold_left (fun acc d => 10 * acc + d) ds 0.
Definition numeral (n : Z) (cell : bytes) : Prop :=
  exists ws sign ds rest, cell = ws ++ sign ++ map digit_char ds ++ rest /\ Forall white ws /\ ds <> [] /\ Forall (fun d => 0 <= d <= 9) ds /\
    ~ (48 <= hd 0 rest <= 57) /\
    ((sign = [] \/ sign = [43]) /\ n = value_of ds \/ sign = [45] /\ n = - value_of ds).
