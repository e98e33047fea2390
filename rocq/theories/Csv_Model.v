(** Reading and writing CSV text (io/xcsv.hpp). A text is the list of its bytes (0 to
    255), as in Npy_Model. Streams are in the "C" locale and do not fail on output; long
    and std::ptrdiff_t have 64 bits. *)
From Coq Require Import String List ZArith Bool.
From Verif Require Import Prelude Strides_Model Access_Model Container_Model Stepper_Model Npy_Model.
Import ListNotations.
Open Scope Z_scope.

(** std::getline(stream, line, delimiter): fails when nothing is left; otherwise the
    characters up to the delimiter, which is consumed, or up to the end. The second
    component is what is left in the stream. *)
Fixpoint take_until (d : Z) (s : bytes) : bytes * bytes :=
  match s with
  | [] => ([], [])
  | c :: s' => if c =? d then ([], s') else let '(a, r) := take_until d s' in (c :: a, r)
  end.
Definition getline (d : Z) (s : bytes) : option (bytes * bytes) :=
  match s with [] => None | _ => Some (take_until d s) end.

(** * lexical_cast *)

(** The sign and the digits of strtol, strtoul (base 10) and num_get: the sign is
    reported apart; None when there is no digit. Anything after the digits is ignored. *)
Definition scan_sign (s : bytes) : bool * bytes :=
  match s with 45 :: s' => (true, s') | 43 :: s' => (false, s') | _ => (false, s) end.
Definition scan_number (s : bytes) : bool * option Z :=
  let '(neg, s) := scan_sign s in
  (neg, match s with c :: _ => if is_digit c then Some (scan_digits 0 s) else None | [] => None end).

(** Lines 91-107, int, long and long long: std::stoi, std::stol, std::stoll for the range
    [lo, hi] of the type *)
Definition cast_signed (lo hi : Z) (cell : bytes) : res Z :=
  let '(neg, n) := scan_number (skip_space cell) in
  match n with
  | None => Throw invalid_argument
  | Some n => let n := if neg : bool then - n else n in
              if (lo <=? n) && (n <=? hi) then Ok n else Throw out_of_range
  end.

(** Lines 115-125, unsigned long and unsigned long long: std::stoul, std::stoull. The
    value of a negated number is taken modulo 2^64. *)
Definition cast_ulong (cell : bytes) : res Z :=
  let '(neg, n) := scan_number (skip_space cell) in
  match n with
  | None => Throw invalid_argument
  | Some n => if 2 ^ 64 <=? n then Throw out_of_range else Ok (if neg : bool then to_size_t (- n) else n)
  end.

(** Lines 109-113, unsigned int: the result of std::stoul converted to 32 bits *)
Definition cast_uint (cell : bytes) : res Z := let* n := cast_ulong cell in Ok (n mod 2 ^ 32).

(** Lines 51-58, every other type: operator>> into an uninitialised variable, for the
    signed integer types (short). Without a character to read the variable keeps its
    indeterminate value; otherwise a failure stores 0 or the closest value. Nothing is
    reported. *)
Definition cast_stream (lo hi : Z) (cell : bytes) : res Z :=
  match skip_space cell with
  | [] => UB
  | s => let '(neg, n) := scan_number s in
         match n with
         | None => Ok 0
         | Some n => let n := if neg : bool then - n else n in Ok (Z.max lo (Z.min hi n))
         end
  end.

(** find_first_not_of(' '), find_last_not_of(' ') *)
Fixpoint first_not_blank (s : bytes) : option nat :=
  match s with [] => None | c :: s' => if c =? 32 then option_map S (first_not_blank s') else Some O end.
Fixpoint last_not_blank (s : bytes) : option nat :=
  match s with
  | [] => None
  | c :: s' => match last_not_blank s' with Some i => Some (S i) | None => if c =? 32 then None else Some O end
  end.
(** std::string::substr(pos, n) for pos <= size() *)
Definition substr (s : bytes) (pos n : nat) : bytes := firstn n (skipn pos s).

(** Lines 60-71: strings *)
Definition cast_string (cell : bytes) : res bytes :=
  match first_not_blank cell with
  | None => Ok cell
  | Some first =>
      Ok (substr cell first (match last_not_blank cell with None => length cell | Some last => last + 1 end))
  end.

(** * Reading *)
Section Load.
Context {T : Type}.
(** lexical_cast<T> *)
Variable cast : bytes -> res T.

(** Lines 127-137: load_csv_row. [data] is the storage behind the output iterator; [fuel]
    bounds the loop, every turn of which consumes a character. *)
Fixpoint load_csv_row (fuel : nat) (d : Z) (s : bytes) (data : list T) (length : Z) : res (list T * Z) :=
  match fuel with
  | O => UB
  | S f =>
      match getline d s with
      | None => Ok (data, length)
      | Some (cell, s) => let* v := cast cell in load_csv_row f d s (data ++ [v]) (length + 1)
      end
  end.

(** Line 179: std::equal(comments.begin(), comments.end(), row.begin()). The characters of
    [row] are read up to the first difference; dereferencing row.end() is undefined. *)
Fixpoint starts_with (comments row : bytes) : res bool :=
  match comments, row with
  | [], _ => Ok true
  | _ :: _, [] => UB
  | a :: comments', b :: row' => if a =? b then starts_with comments' row' else Ok false
  end.

(** Lines 167-191: the loop over the lines *)
Record load_state := mk_load { ld_data : list T; ld_nbrow : Z; ld_nbcol : Z; ld_nhead : Z }.
Fixpoint load_lines (fuel : nat) (d skip_rows max_rows : Z) (comments : bytes) (s : bytes) (st : load_state) : res load_state :=
  match fuel with
  | O => UB
  | S f =>
      match getline 10 s with
      | None => Ok st
      | Some (row, s) =>
          if ld_nhead st <? skip_rows then
            load_lines f d skip_rows max_rows comments s (mk_load (ld_data st) (ld_nbrow st) (ld_nbcol st) (ld_nhead st + 1))
          else
            let* skip := starts_with comments row in
            if skip then load_lines f d skip_rows max_rows comments s st
            else if (0 <? max_rows) && (max_rows <=? ld_nbrow st) then Ok st
            else
              let* '(data, nbcol) := load_csv_row (S (length row)) d row (ld_data st) 0 in
              load_lines f d skip_rows max_rows comments s (mk_load data (ld_nbrow st + 1) nbcol (ld_nhead st))
      end
  end.

(** containers/xtensor.hpp 504-513 and containers/xcontainer.hpp 860-868: a row major
    tensor from its storage, shape and strides *)
Definition tensor_of (data : list T) (shape strides : list Z) : res (cont T) :=
  let* '(st, bs) := adapt_strides shape strides (Some (repeat 0 (length shape))) in
  match bs with Some bs => Ok (mk_cont shape st bs row_major data) | None => UB end.

(** Lines 151-201: load_csv *)
Definition load_csv (d skip_rows max_rows : Z) (comments : bytes) (text : bytes) : res (cont T) :=
  let* st := load_lines (S (length text)) d skip_rows max_rows comments text (mk_load [] 0 0 0) in
  let shape := [ld_nbrow st; ld_nbcol st] in
  let* '(strides, _, data_size) := compute_strides dynamic shape row_major [0; 0] None in
  if negb (Z.of_nat (length (ld_data st)) =? data_size) then Throw runtime_error
  else tensor_of (ld_data st) shape strides.
End Load.

(** * Writing *)
Section Dump.
Context {V : Type}.
(** operator<< of the elements *)
Variable show : V -> bytes.

(** Lines 222-236: the body of the inner loop; the state is the text and the stepper *)
Definition dump_cell (sh : list Z) (e : sexp V) (nbcols : Z) (c : nat) (s : bytes * sstate) : res (bytes * sstate) :=
  let '(out, st) := s in
  let* v := x_deref e st in
  let out := out ++ show v in
  if negb (Z.of_nat c =? nbcols - 1) then
    let* st := s_step (x_ops sh e) 1 1 st in Ok (out ++ [44], st)
  else
    let* st := s_reset (x_ops sh e) 1 st in
    let* st := s_step (x_ops sh e) 0 1 st in
    Ok (out ++ [10], st).

(** Lines 209-238: dump_csv of an expression of shape [sh] *)
Definition dump_csv (sh : list Z) (e : sexp V) : res bytes :=
  match sh with
  | [nbrows; nbcols] =>
      let* '(out, _) :=
        for_up (fun _ s => for_up (dump_cell sh e nbcols) 0 (Z.to_nat nbcols) s) 0 (Z.to_nat nbrows) ([], x_begin e) in
      Ok out
  | _ => Throw runtime_error
  end.
End Dump.

(** operator<< of an integer *)
Definition show_int (n : Z) : bytes := if n <? 0 then 45 :: print (- n) else print n.

(** Lines 240-254: xcsv_config *)
Record xcsv_config := mk_csv { cf_delimiter : Z; cf_skip_rows : Z; cf_max_rows : Z; cf_comments : bytes }.
Definition default_config : xcsv_config := mk_csv 44 0 (-1) [35].

(** Lines 256-266: load_file, up to the assignment of the result; lines 268-272: dump_file *)
Definition load_file {T} (cast : bytes -> res T) (cf : xcsv_config) (text : bytes) : res (cont T) :=
  load_csv cast (cf_delimiter cf) (cf_skip_rows cf) (cf_max_rows cf) (cf_comments cf) text.
Definition dump_file {V} (show : V -> bytes) (cf : xcsv_config) (sh : list Z) (e : sexp V) : res bytes :=
  dump_csv show sh e.
