(** Property C76: reading and writing CSV. *)
From Coq Require Import String List ZArith Bool Lia.
From Verif Require Import Prelude Strides_Model Strides_Spec Container_Model Container_Spec Stepper_Model Stepper_Spec
  Npy_Model Csv_Model Csv_Spec Csv_Proofs Csv2_Proofs Csv3_Proofs Csv4_Proofs Csv5_Proofs.
Import ListNotations.
Open Scope Z_scope.

(** Reading: after the skipped lines and without the comments, as many rows as asked for,
    whose cells are converted, give the matrix of the values. Missing: what is not in
    [holds], see the refutations. *)
Theorem C76_load_partial :
  forall (T : Type) (cast : bytes -> res T) d skip max_rows mark text rows r c (f : Z -> Z -> T),
  csv_file d skip max_rows mark text rows -> 0 < r ->
  Forall2 (Forall2 (fun cell v => cast cell = Ok v)) rows (matrix f r c) ->
  exists t, load_csv cast d skip max_rows mark text = Ok t /\ is_matrix t r c f.
Proof. exact (@load_matrix). Qed.
Print Assumptions C76_load_partial.

(** A header, a comment between two rows, and a third row that is not asked for and would
    not convert. *)
Example C76_case_load :
  csv_file 44 1 2 [35] csv_case [[str "1"; str "2"]; [str " 3"; str "-44"]] /\
  Forall2 (Forall2 (fun cell v => cast_signed int_lo int_hi cell = Ok v)) [[str "1"; str "2"]; [str " 3"; str "-44"]]
    (matrix (fun i j => if i =? 0 then j + 1 else if j =? 0 then 3 else -44) 2 2) /\
  (let* t := load_csv (cast_signed int_lo int_hi) 44 1 2 [35] csv_case in Ok (ct_shape t, ct_data t)) = Ok ([2; 2], [1; 2; 3; -44]).
Proof. split; [exact csv_case_file|]. split; [repeat constructor|vm_compute; reflexivity]. Qed.

(** No row: a matrix without rows and columns. *)
Theorem C76_load_no_row :
  forall (T : Type) (cast : bytes -> res T) d skip max_rows mark text,
  csv_file d skip max_rows mark text [] ->
  exists t, load_csv cast d skip max_rows mark text = Ok t /\ ct_shape t = [0; 0] /\ ct_data t = [].
Proof. exact (@load_empty). Qed.
Print Assumptions C76_load_no_row.

(** Reading rejects a text with another number of cells than rows times the length of the
    last row, and one with a cell that is not converted, with the exception of the
    conversion. *)
Theorem C76_load_rejects_partial :
  forall (T : Type) (cast : bytes -> res T) d skip max_rows mark text rows vs,
  csv_file d skip max_rows mark text rows ->
  Forall2 (Forall2 (fun cell v => cast cell = Ok v)) rows vs ->
  length (concat rows) <> (length rows * length (last rows []))%nat ->
  load_csv cast d skip max_rows mark text = Throw runtime_error.
Proof. exact (@load_rejects). Qed.
Print Assumptions C76_load_rejects_partial.

Theorem C76_load_bad_cell :
  forall (T : Type) (cast : bytes -> res T) d skip max_rows mark text rows vs cells ws bad more rest x,
  csv_file d skip max_rows mark text (rows ++ (cells ++ bad :: more) :: rest) ->
  Forall2 (Forall2 (fun cell v => cast cell = Ok v)) rows vs ->
  Forall2 (fun cell v => cast cell = Ok v) cells ws -> cast bad = Throw x ->
  load_csv cast d skip max_rows mark text = Throw x.
Proof. exact (@load_bad). Qed.
Print Assumptions C76_load_bad_cell.

Example C76_case_rejects :
  load_csv (cast_signed int_lo int_hi) 44 0 (-1) [35] (str "1,2" ++ [10] ++ str "3") = Throw runtime_error /\
  load_csv (cast_signed int_lo int_hi) 44 0 (-1) [35] (str "1,x") = Throw invalid_argument /\
  load_csv (cast_signed int_lo int_hi) 44 0 (-1) [35] (str "1,2147483648") = Throw out_of_range.
Proof. vm_compute. repeat split. Qed.

(** Rows of different lengths are accepted when the total happens to be right. *)
Theorem C76_ragged_refuted :
  ~ (forall text rows, csv_file 44 0 (-1) [35] text rows -> is_ok (load_csv (cast_signed int_lo int_hi) 44 0 (-1) [35] text) = true ->
     forall row, In row rows -> length row = length (last rows [])).
Proof.
  intros H. specialize (H (str "1" ++ [10] ++ str "2,3,4" ++ [10] ++ str "5,6" ++ [10]) [[str "1"]; [str "2"; str "3"; str "4"]; [str "5"; str "6"]]).
  enough (1%nat = 2%nat) by discriminate. refine (H _ eq_refl [str "1"] (or_introl eq_refl)).
  exists [], [str "1"; str "2,3,4"; str "5,6"]. split; [left; reflexivity|].
  split; [repeat (constructor; [cbn; intuition discriminate|]); constructor|]. split; [left; reflexivity|].
  repeat (apply holds_row;
    [eexists 0%nat, _, _; split; [reflexivity|]; split; [reflexivity|discriminate]
    |split; [reflexivity|]; split; [repeat (constructor; [cbn; intuition discriminate|]); constructor|discriminate]
    |discriminate|]).
  apply holds_end.
Qed.
Print Assumptions C76_ragged_refuted.

(** An empty cell at the end of a row is lost. *)
Theorem C76_trailing_cell_refuted :
  ~ (forall cells : list bytes, cells <> [] -> Forall (fun s => ~ In 44 s /\ ~ In 10 s /\ ~ In 35 s) cells ->
     exists t, load_csv cast_string 44 0 (-1) [35] (join 44 cells ++ [10]) = Ok t /\ ct_shape t = [1; Z.of_nat (length cells)]).
Proof.
  intros H. destruct (H [str "a"; []]) as (t & E & Es); [discriminate|repeat constructor; cbn; intuition discriminate|].
  vm_compute in E. injection E as <-. discriminate Es.
Qed.
Print Assumptions C76_trailing_cell_refuted.

(** An empty line makes the comparison with the mark read past the end of the line. *)
Theorem C76_empty_line_refuted :
  ~ (forall text, load_csv (cast_signed int_lo int_hi) 44 0 (-1) [35] text <> UB).
Proof. intros H. apply (H (str "1" ++ [10; 10])). reflexivity. Qed.
Print Assumptions C76_empty_line_refuted.

(** max_rows = 0 is no limit. *)
Theorem C76_max_rows_refuted :
  ~ (forall text max_rows t, 0 <= max_rows -> load_csv (cast_signed int_lo int_hi) 44 0 max_rows [35] text = Ok t ->
     nth 0 (ct_shape t) 0 <= max_rows).
Proof. intros H. specialize (H (str "7") 0 _ ltac:(lia) eq_refl). vm_compute in H. apply H. reflexivity. Qed.
Print Assumptions C76_max_rows_refuted.

(** With an empty mark every line is a comment: the text does not matter. *)
Theorem C76_empty_mark :
  forall (T : Type) (cast : bytes -> res T) d skip max_rows text,
  exists t, load_csv cast d skip max_rows [] text = Ok t /\ ct_shape t = [0; 0] /\ ct_data t = [].
Proof. exact (@empty_mark_lemma). Qed.
Print Assumptions C76_empty_mark.

(** Writing an expression of two dimensions: its rows, the elements separated by commas,
    each row ended by a newline. Other dimensions are rejected. *)
Theorem C76_dump :
  forall (V : Type) (show : V -> bytes) r c (e : sexp V) (v : Z -> Z -> V),
  0 <= r -> 0 <= c -> operands_ok [r; c] e ->
  (forall i j, 0 <= i < r -> 0 <= j < c -> x_value [i; j] e = Ok (v i j)) ->
  dump_csv show [r; c] e = Ok (if c =? 0 then [] else terminated (map (fun row => join 44 (map show row)) (matrix v r c))).
Proof. intros. apply dump_ok; assumption. Qed.
Print Assumptions C76_dump.

Theorem C76_dump_dimension :
  forall (V : Type) (show : V -> bytes) sh (e : sexp V), length sh <> 2%nat -> dump_csv show sh e = Throw runtime_error.
Proof. exact (@dimension_lemma). Qed.
Print Assumptions C76_dump_dimension.

Example C76_case_dump :
  operands_ok [2; 3] csv_sum /\ (forall i j, 0 <= i < 2 -> 0 <= j < 3 -> x_value [i; j] csv_sum = Ok (csv_sum_at i j)) /\
  dump_csv show_int [2; 3] csv_sum = Ok (str "-4,-3,-2" ++ [10] ++ str "21,22,23" ++ [10]).
Proof. split; [exact csv_sum_ok|]. split; [exact csv_sum_value|vm_compute; reflexivity]. Qed.

(** What is written is read back: a non-empty matrix whose elements are written as texts
    that fit in a cell, that convert back and of which the first of each row does not look
    like a comment. Missing: matrices without elements, see the refutation. *)
Theorem C76_round_trip_partial :
  forall (V : Type) (show : V -> bytes) (cast : bytes -> res V) (mark : bytes) (max_rows r c : Z) (e : sexp V) (v : Z -> Z -> V),
  0 < r -> 0 < c -> operands_ok [r; c] e ->
  (forall i j, 0 <= i < r -> 0 <= j < c -> x_value [i; j] e = Ok (v i j)) ->
  (forall i j, 0 <= i < r -> 0 <= j < c -> cell_text (show (v i j)) /\ cast (show (v i j)) = Ok (v i j)) ->
  (forall i, 0 <= i < r -> unlike mark (show (v i 0))) ->
  max_rows <= 0 \/ r <= max_rows ->
  exists text t, dump_csv show [r; c] e = Ok text /\ load_csv cast 44 0 max_rows mark text = Ok t /\ is_matrix t r c v.
Proof. exact (@round_lemma). Qed.
Print Assumptions C76_round_trip_partial.

(** Integers in the range [lo, hi] of their type, with the default configuration: signed
    types, types read by operator>>, unsigned long and unsigned int. *)
Theorem C76_integers_partial :
  forall lo hi r c (e : sexp Z) (v : Z -> Z -> Z) cast,
  cast = cast_signed lo hi \/ cast = cast_stream lo hi \/ (cast = cast_ulong /\ lo = 0 /\ hi = 2 ^ 64 - 1) \/
    (cast = cast_uint /\ lo = 0 /\ hi = 2 ^ 32 - 1) ->
  0 < r -> 0 < c -> operands_ok [r; c] e ->
  (forall i j, 0 <= i < r -> 0 <= j < c -> x_value [i; j] e = Ok (v i j) /\ lo <= v i j <= hi) ->
  exists text t, dump_file show_int default_config [r; c] e = Ok text /\ load_file cast default_config text = Ok t /\ is_matrix t r c v.
Proof.
  intros lo hi r c e v cast Hcast Hr Hc Hok Hv. apply round_lemma; auto.
  - intros i j Hi Hj. apply Hv; assumption.
  - intros i j Hi Hj. split; [apply show_int_cell|]. destruct (Hv i j Hi Hj) as [_ Hb].
    destruct Hcast as [ -> |[ -> |[( -> & -> & -> )|( -> & -> & -> )]]].
    + apply cast_signed_ok. exact Hb.
    + apply cast_stream_ok. exact Hb.
    + apply cast_ulong_ok. lia.
    + apply cast_uint_ok. lia.
  - intros i Hi. apply show_int_cell.
  - left. cbn. lia.
Qed.
Print Assumptions C76_integers_partial.

Example C76_case_round :
  (let* text := dump_file show_int default_config [2; 3] csv_sum in
   let* t := load_file (cast_signed int_lo int_hi) default_config text in Ok (ct_shape t, ct_data t)) = Ok ([2; 3], [-4; -3; -2; 21; 22; 23]).
Proof. vm_compute. reflexivity. Qed.

(** Strings without blanks at their ends *)
Theorem C76_strings_partial :
  forall r c (e : sexp bytes) (v : Z -> Z -> bytes),
  0 < r -> 0 < c -> operands_ok [r; c] e ->
  (forall i j, 0 <= i < r -> 0 <= j < c -> x_value [i; j] e = Ok (v i j) /\ unpadded (v i j) /\ cell_text (v i j)) ->
  (forall i, 0 <= i < r -> unlike [35] (v i 0)) ->
  exists text t, dump_file (fun s => s) default_config [r; c] e = Ok text /\ load_file cast_string default_config text = Ok t /\ is_matrix t r c v.
Proof.
  intros r c e v Hr Hc Hok Hv Hu. apply (round_lemma (fun s => s)); auto.
  - intros i j Hi Hj. apply Hv; assumption.
  - intros i j Hi Hj. destruct (Hv i j Hi Hj) as (_ & H1 & H2). split; [exact H2|]. apply trim_none. exact H1.
  - left. cbn. lia.
Qed.
Print Assumptions C76_strings_partial.

Example C76_case_strings :
  let e := XStrided (mk_container [1; 2] [0; 1] [0; 1] 0) [str "one two"; str "three"] in
  (let* text := dump_file (fun s => s) default_config [1; 2] e in
   let* t := load_file cast_string default_config text in Ok (ct_shape t, ct_data t)) = Ok ([1; 2], [str "one two"; str "three"]).
Proof. vm_compute. reflexivity. Qed.

(** Without elements the shape is lost. *)
Theorem C76_round_trip_refuted :
  ~ (forall r c (e : sexp Z) text t, 0 <= r -> 0 <= c -> operands_ok [r; c] e -> dump_csv show_int [r; c] e = Ok text ->
     load_csv (cast_signed int_lo int_hi) 44 0 (-1) [35] text = Ok t -> ct_shape t = [r; c]).
Proof. intros H. specialize (H 0 3 (XScalar 5) [] _ ltac:(lia) ltac:(lia) I eq_refl eq_refl). discriminate H. Qed.
Print Assumptions C76_round_trip_refuted.

(** Writing ignores the delimiter of the configuration: what was written is not read back. *)
Theorem C76_delimiter_refuted :
  ~ (forall cf r c (e : sexp Z) text t, cf = mk_csv 59 0 (-1) [35] -> 0 < r -> 0 < c -> operands_ok [r; c] e ->
     dump_file show_int cf [r; c] e = Ok text -> load_file (cast_signed int_lo int_hi) cf text = Ok t -> ct_shape t = [r; c]).
Proof.
  intros H. specialize (H _ 1 2 (XScalar 5) (str "5,5" ++ [10]) _ eq_refl ltac:(lia) ltac:(lia) I eq_refl eq_refl). discriminate H.
Qed.
Print Assumptions C76_delimiter_refuted.

(** Strings: of a text with a blanks before and b after it, min(a, b) blanks after it are
    kept. A cell of blanks is kept. *)
Theorem C76_trim :
  forall a b s, unpadded s -> cast_string (repeat 32 a ++ s ++ repeat 32 b) = Ok (s ++ repeat 32 (Nat.min a b)).
Proof. exact trim_lemma. Qed.
Print Assumptions C76_trim.
Theorem C76_trim_blank : forall n, cast_string (repeat 32 n) = Ok (repeat 32 n).
Proof. exact trim_blank. Qed.
Print Assumptions C76_trim_blank.
Theorem C76_trim_refuted :
  ~ (forall a b s, unpadded s -> cast_string (repeat 32 a ++ s ++ repeat 32 b) = Ok s).
Proof. intros H. specialize (H 1%nat 1%nat (str "a")). discriminate H. repeat split; discriminate. Qed.
Print Assumptions C76_trim_refuted.

Example C76_case_trim : unpadded (str "a b") /\ cast_string (str "  a b ") = Ok (str "a b ") /\ cast_string (str "a b  ") = Ok (str "a b").
Proof. split; [repeat split; discriminate|]. split; reflexivity. Qed.

(** Integer cells: white space, a sign and what follows the digits do not matter. A number
    outside the range of int, long or long long, or too large for unsigned long, is
    rejected. *)
Theorem C76_numerals : forall lo hi n cell, numeral n cell ->
  cast_signed lo hi cell = (if (lo <=? n) && (n <=? hi) then Ok n else Throw out_of_range) /\
  (lo <= n <= hi -> cast_stream lo hi cell = Ok n) /\
  (0 <= n -> cast_ulong cell = if n <? 2 ^ 64 then Ok n else Throw out_of_range).
Proof. exact numeral_lemma. Qed.
Print Assumptions C76_numerals.

Example C76_case_numerals : numeral 205 (str "  +205 m") /\ numeral (-7) (str "-07") /\ cast_signed int_lo int_hi (str "  +205 m") = Ok 205.
Proof. split; [exact numeral_case1|]. split; [exact numeral_case2|reflexivity]. Qed.

(** A number too large for unsigned int is truncated, though one too large for int, long
    or unsigned long is rejected. *)
Theorem C76_unsigned_int_refuted :
  ~ (forall n t, 0 <= n < 2 ^ 64 -> load_csv cast_uint 44 0 (-1) [35] (show_int n) = Ok t -> ct_data t = [n]).
Proof. intros H. specialize (H (2 ^ 32) _ ltac:(split; [discriminate|reflexivity]) eq_refl). discriminate H. Qed.
Print Assumptions C76_unsigned_int_refuted.

(** Types read by operator>>: an invalid cell gives 0, one out of range the closest value,
    and an empty one an indeterminate value. *)
Theorem C76_short_refuted :
  let cast := cast_stream (- 2 ^ 15) (2 ^ 15 - 1) in
  ~ (forall text, load_csv cast 44 0 (-1) [35] text <> UB) /\
  ~ (forall text x, load_csv (cast_signed (- 2 ^ 15) (2 ^ 15 - 1)) 44 0 (-1) [35] text = Throw x -> load_csv cast 44 0 (-1) [35] text = Throw x).
Proof.
  split; intros H.
  - apply (H (str "1,,2")). reflexivity.
  - specialize (H (str "x,40000") _ eq_refl). discriminate H.
Qed.
Print Assumptions C76_short_refuted.

Example C76_case_short :
  (let* t := load_csv (cast_stream (- 2 ^ 15) (2 ^ 15 - 1)) 44 0 (-1) [35] (str "x,40000") in Ok (ct_data t)) = Ok [0; 2 ^ 15 - 1].
Proof. vm_compute. reflexivity. Qed.
