(** What a printed array should look like. *)
From Coq Require Import String ZArith Bool List.
From Verif Require Import Prelude Strides_Model Strides_Spec Npy_Model Csv_Model Print_Model.
Import ListNotations.
Open Scope Z_scope.

Definition zfrom (a n : Z) : list Z := map (fun k => a + Z.of_nat k) (seq 0 (Z.to_nat n)).

(** The items printed along an axis of extent n with e edge items: all of them, or the
    first e, an ellipsis and the last e. e = 0: no limit. *)
Definition shown (e n : Z) : list (option Z) :=
  if (e =? 0) || (n <=? 2 * e) then map Some (zfrom 0 n) else map Some (zfrom 0 e) ++ None :: map Some (zfrom (n - e) e).
Definition positions (l : list (option Z)) : list Z := flat_map (fun o => match o with Some i => [i] | None => [] end) l.
(** The indices of the elements printed, in order *)
Fixpoint shown_ix (e : Z) (sh : list Z) : list (list Z) :=
  match sh with [] => [[]] | n :: r => flat_map (fun i => map (cons i) (shown_ix e r)) (positions (shown e n)) end.

(** Texts put together with commas between them *)
Fixpoint commas_between (l : list bytes) : bytes :=
  match l with [] => [] | [x] => x | x :: t => x ++ str "," ++ commas_between t end.
(** The array as a nested list in braces, without blanks: [item ix] is the text of the
    element at ix. *)
Fixpoint literal (e : Z) (sh : list Z) (item : list Z -> bytes) : bytes :=
  match sh with
  | [] => item []
  | n :: r => str "{" ++ commas_between (map (fun o => match o with Some i => literal e r (fun ix => item (i :: ix)) | None => str "..." end) (shown e n)) ++ str "}"
  end.
(** The characters other than blanks and line breaks *)
Definition ink (s : bytes) : bytes := filter (fun c => negb ((c =? 32) || (c =? 10))) s.

(** The text with its line breaks and indents, when all elements are printed with at
    most ll of them on a line (ll = 0: no limit): after an item that is an array, and after
    every ll-th element of a row, a new line indented by the number of open braces. *)
Definition gap (ll : Z) (inner : bool) (depth : nat) (i : Z) : bytes :=
  if inner || (negb (ll =? 0) && ((i + 1) mod ll =? 0)) then indent depth else str " ".
Fixpoint layed_out (ll : Z) (sh : list Z) (depth : nat) (item : list Z -> bytes) : bytes :=
  match sh with
  | [] => item []
  | n :: r =>
      let sub := fun i => layed_out ll r (S depth) (fun ix => item (i :: ix)) in
      str "{" ++ flat_map (fun i => sub i ++ str "," ++ gap ll (match r with [] => false | _ => true end) depth i) (zfrom 0 (n - 1)) ++ sub (n - 1) ++ str "}"
  end.

(** Lines of a text *)
Fixpoint lines (s : bytes) : list bytes :=
  match s with
  | [] => [[]]
  | c :: t => if c =? 10 then [] :: lines t else match lines t with [] => [[c]] | l :: r => (c :: l) :: r end
  end.

(** Texts of elements that cannot be confused with the braces, commas and blanks around
    them *)
Definition plain (s : bytes) : Prop := s <> [] /\ forall c, In c s -> ~ In c (str "{}, ") /\ c <> 10.

(** The state of the printer after a list of elements *)
Fixpoint updates {A St} (pr : printer A St) (st : St) (l : list A) : res St :=
  match l with [] => Ok st | x :: t => let* st := pr_update pr st x in updates pr st t end.
(** Edge items that the loops can handle on every axis *)
Definition edges_ok (e : Z) (sh : list Z) : Prop := Forall (fun n => e = 0 \/ 2 <= e \/ n <= 2 * e) sh.
(** The number of edge items used for an array of this size *)
Definition edges (po : options) (size : Z) : Z := if o_threshold po <? size then o_edge_items po else 0.
(** The options used: those given to the stream since the last printing, or the global ones *)
Definition chosen (global words : options) : options :=
  let pick := fun f => if f words =? 0 then f global else f words in
  mk_options (pick o_edge_items) (pick o_line_width) (pick o_threshold) (pick o_precision).
Definition options_ok (po : options) : Prop := 0 <= o_edge_items po < 2 ^ 31 /\ 0 <= o_line_width po < 2 ^ 31 /\ 0 <= o_threshold po < 2 ^ 31.
(** The values of an integral type of b bits, except the least one of a signed type *)
Definition printable (sg : bool) (b v : Z) : Prop := if sg then - 2 ^ (b - 1) < v < 2 ^ (b - 1) else 0 <= v < 2 ^ b.
