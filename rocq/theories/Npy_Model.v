(** Reading and writing npy files (io/xnpy.hpp). A file is the list of its bytes (0 to
    255). Streams are in the "C" locale and do not fail on output. *)
From Coq Require Import String Ascii List ZArith Bool.
From Verif Require Import Prelude Strides_Model Access_Model Container_Model Slice_Model.
Import ListNotations.
Open Scope Z_scope.

Definition bytes := list Z.
Definition str (s : string) : bytes := map (fun a => Z.of_N (N_of_ascii a)) (list_ascii_of_string s).

(** * Text helpers *)

(** operator<<(std::ostream&, std::size_t): decimal digits. A number has at most as many
    decimal as binary digits. *)
Fixpoint print_aux (fuel : nat) (n : Z) : bytes :=
  match fuel with
  | O => []
  | S f => if n <? 10 then [48 + n] else print_aux f (n / 10) ++ [48 + n mod 10]
  end.
Definition print (n : Z) : bytes := print_aux (S (Z.to_nat (Z.log2 n))) n.

Definition is_digit (c : Z) : bool := (48 <=? c) && (c <=? 57).
(** The longest prefix of digits, as a number *)
Fixpoint scan_digits (acc : Z) (s : bytes) : Z :=
  match s with
  | c :: s' => if is_digit c then scan_digits (acc * 10 + (c - 48)) s' else acc
  | [] => acc
  end.
(** operator>>(std::istream&, std::size_t&): white space, an optional sign, digits; 0 when
    there is none, the largest value on overflow, a negated value modulo 2^64. *)
Fixpoint skip_space (s : bytes) : bytes :=
  match s with c :: s' => if (c =? 32) || ((9 <=? c) && (c <=? 13)) then skip_space s' else s | [] => [] end.
Definition scan_size (s : bytes) : Z :=
  let s := skip_space s in
  let '(neg, s) := match s with 45 :: s' => (true, s') | 43 :: s' => (false, s') | _ => (false, s) end in
  let n := scan_digits 0 s in
  if 2 ^ 64 <=? n then 2 ^ 64 - 1 else if neg : bool then to_size_t (- n) else n.

Fixpoint prefixb (p s : bytes) : bool :=
  match p, s with
  | [], _ => true
  | a :: p', b :: s' => (a =? b) && prefixb p' s'
  | _ :: _, [] => false
  end.
(** std::string::find *)
Fixpoint find (p s : bytes) : option nat :=
  if prefixb p s then Some O
  else match s with [] => None | _ :: s' => option_map S (find p s') end.
(** std::string::back, front: undefined on an empty string *)
Definition back (s : bytes) : res Z := match rev s with c :: _ => Ok c | [] => UB end.
Definition front (s : bytes) : res Z := match s with c :: _ => Ok c | [] => UB end.

(** Lines 207-218: unwrap_s *)
Definition unwrap_s (s : bytes) (df db : Z) : res bytes :=
  let* b := back s in
  let* f := front s in
  if (b =? db) && (f =? df) then Ok (firstn (length s - 2) (skipn 1 s)) else Throw runtime_error.
(** Lines 220-229: get_value_from_map *)
Definition get_value_from_map (s : bytes) : bytes :=
  match find [58] s with None => [] | Some p => skipn (p + 1) s end.
(** Lines 231-237: pop_char *)
Definition pop_char (s : bytes) (c : Z) : res bytes :=
  let* b := back s in Ok (if b =? c then removelast s else s).

(** Lines 194-205: parse_typestring, the regular expression '([<>|])([ifucb])(\d+)' *)
Fixpoint digits_then_quote (n : nat) (s : bytes) : bool :=
  match s with
  | [39] => (0 <? n)%nat
  | c :: s' => is_digit c && digits_then_quote (S n) s'
  | [] => false
  end.
Definition parse_typestring (s : bytes) : res unit :=
  match s with
  | 39 :: e :: k :: s' =>
      if existsb (Z.eqb e) [60; 62; 124] && existsb (Z.eqb k) [105; 102; 117; 99; 98] && digits_then_quote 0 s' then Ok tt
      else Throw runtime_error
  | _ => Throw runtime_error
  end.

(** * Types: lines 80-192. A type is its kind (i, u, f, b or c), its size and how it is
    represented; [little] is xtl::endianness(). *)
Record npy_type := mk_type { ty_kind : Z; ty_size : Z }.
Definition get_endianess (little : bool) (t : npy_type) : Z :=
  if ty_size t <=? 1 then 124 else if little then 60 else 62.
Definition build_typestring (little : bool) (t : npy_type) : bytes :=
  get_endianess little t :: ty_kind t :: print (ty_size t).

(** * Writing *)

(** Lines 47-56: the magic string and write_magic *)
Definition magic : bytes := [147; 78; 85; 77; 80; 89].
Definition write_magic (major minor : Z) : bytes := magic ++ [major; minor].

(** Lines 413-429: the shape as a Python tuple *)
Definition shape_text (shape : list Z) : bytes :=
  let s := str "(" ++ concat (map (fun n => print n ++ str ", ") shape) in
  let s := if (1 <? length shape)%nat then firstn (length s - 2) s
           else if (length shape =? 1)%nat then firstn (length s - 1) s
           else s in
  s ++ str ")".

(** Lines 402-411 and 431-447: the dictionary, its padding and the version *)
Definition header_dict (descr : bytes) (fortran : bool) (shape : list Z) : bytes :=
  str "{'descr': '" ++ descr ++ str "', 'fortran_order': " ++ (if fortran then str "True" else str "False") ++
  str ", 'shape': " ++ shape_text shape ++ str ", }".
Definition len (s : bytes) : Z := Z.of_nat (length s).
Definition header_of (dict : bytes) : Z * bytes :=
  let pre := len dict + 1 in
  let metadata_len := 6 + 2 + 2 + pre in
  let '(version, metadata_len) := if 255 * 255 <=? metadata_len then (2, 6 + 2 + 4 + pre) else (1, metadata_len) in
  let padding_len := 64 - metadata_len mod 64 in
  (version, dict ++ repeat 32 (Z.to_nat padding_len) ++ [10]).

(** Lines 454-474: the length in two or four bytes, least significant first *)
Definition len_bytes (version n : Z) : bytes :=
  if version =? 1 then
    let n := n mod 2 ^ 16 in [n mod 256; n / 2 ^ 8 mod 256]
  else
    let n := n mod 2 ^ 32 in [n mod 256; n / 2 ^ 8 mod 256; n / 2 ^ 16 mod 256; n / 2 ^ 24 mod 256].

(** Lines 399-477: write_header *)
Definition write_header (descr : bytes) (fortran : bool) (shape : list Z) : bytes :=
  let '(version, header) := header_of (header_dict descr fortran shape) in
  write_magic version 0 ++ len_bytes version (len header) ++ header.

Section Elements.
  (** The values, their type and their representation in memory *)
  Context {V : Type} (little : bool) (ty : npy_type) (enc : V -> bytes) (dec : bytes -> V).

  (** Lines 706-728: dump_npy_stream(stream, e) for a container; any other expression is
      first evaluated to one (core/xeval.hpp 46-60). *)
  Definition dump_npy (c : cont V) : res bytes :=
    let fortran := layout_eqb (ct_layout c) column_major && (1 <? length (ct_shape c))%nat in
    let size := compute_size (ct_shape c) in
    if (length (ct_data c) <? Z.to_nat size)%nat then UB
    else Ok (write_header (build_typestring little ty) fortran (ct_shape c) ++
             concat (map enc (firstn (Z.to_nat size) (ct_data c)))).

  (** * Reading *)

  (** std::istream::read(buffer, n): when fewer bytes are left they are stored, the rest of
      the buffer keeps its indeterminate contents and the stream fails; a failed stream
      reads nothing. *)
  Record istream := mk_in { in_rest : bytes; in_ok : bool }.
  Definition read (n : nat) (s : istream) : list (option Z) * istream :=
    if in_ok s then
      if (n <=? length (in_rest s))%nat then (map Some (firstn n (in_rest s)), mk_in (skipn n (in_rest s)) true)
      else (map Some (in_rest s) ++ repeat None (n - length (in_rest s)), mk_in [] false)
    else (repeat None n, s).
  (** Using an indeterminate byte is undefined. *)
  Fixpoint known (l : list (option Z)) : res bytes :=
    match l with
    | [] => Ok []
    | Some b :: l' => let* r := known l' in Ok (b :: r)
    | None :: _ => UB
    end.

  (** Lines 58-78: read_magic *)
  Definition read_magic (s : istream) : res ((Z * Z) * istream) :=
    let '(buf, s) := read 8 s in
    if negb (in_ok s) then Throw runtime_error
    else
      let* buf := known buf in
      if negb (prefixb magic buf) then Throw runtime_error
      else let* major := rd buf 6 in
           let* minor := rd buf 7 in
           Ok ((major, minor), s).

  (** The value of a char with the given bits: chars are signed on most platforms *)
  Variable char_signed : bool.
  Definition char_value (b : Z) : Z := if char_signed && (128 <=? b) then b - 256 else b.
  Definition uint16 (x : Z) : Z := x mod 2 ^ 16.
  Definition uint32 (x : Z) : Z := x mod 2 ^ 32.

  (** Lines 479-497 and 499-518: read_header_1_0 and read_header_2_0. The characters are
      promoted to int, with their sign, before they are shifted. *)
  Definition header_length (version : Z) (buf : bytes) : res Z :=
    match version, buf with
    | 1, [b0; b1] => Ok (Z.lor (uint16 (char_value b0)) (uint16 (char_value b1 * 2 ^ 8)))
    | 2, [b0; b1; b2; b3] =>
        Ok (Z.lor (Z.lor (Z.lor (uint32 (char_value b0)) (uint32 (char_value b1 * 2 ^ 8)))
              (uint32 (char_value b2 * 2 ^ 16))) (uint32 (char_value b3 * 2 ^ 24)))
    | _, _ => UB
    end.
  Definition read_header (version : Z) (s : istream) : res (list (option Z) * istream) :=
    let '(buf, s) := read (if version =? 1 then 2 else 4) s in
    let* buf := known buf in
    let* n := header_length version buf in
    Ok (read (Z.to_nat n) s).

  (** Lines 356-396: the loop over the comma separated extents *)
  Fixpoint split_commas (s : bytes) : bytes * list bytes :=
    match s with
    | [] => ([], [])
    | c :: s' =>
        let '(t, ts) := split_commas s' in
        if c =? 44 then ([], t :: ts) else (c :: t, ts)
    end.
  Fixpoint parse_extents (t : bytes) (ts : list bytes) : res (list Z) :=
    match ts with
    | [] => Ok (match t with [] => [] | _ => [scan_size t] end)
    | t' :: ts' =>
        match t with
        | [] => Throw runtime_error
        | _ => let* r := parse_extents t' ts' in Ok (scan_size t :: r)
        end
    end.

  (** Lines 239-397: parse_header *)
  Definition parse_header (header : bytes) : res (bytes * bool * list Z) :=
    let* b := back header in
    if negb (b =? 10) then Throw runtime_error
    else
      let header := filter (fun c => negb (c =? 32)) (removelast header) in
      let* header := unwrap_s header 123 125 in
      match find (str "'descr'") header, find (str "'fortran_order'") header, find (str "'shape'") header with
      | Some pd, Some pf, Some ps =>
          if (pf <=? pd)%nat || (ps <=? pf)%nat then Throw runtime_error
          else
            let* kd := pop_char (firstn (pf - pd) (skipn pd header)) 44 in
            let* kf := pop_char (firstn (ps - pf) (skipn pf header)) 44 in
            let* ks := pop_char (skipn ps header) 44 in
            let descr_s := get_value_from_map kd in
            let fortran_s := get_value_from_map kf in
            let shape_s := get_value_from_map ks in
            let* _ := parse_typestring descr_s in
            let* descr := unwrap_s descr_s 39 39 in
            let* fortran := if zlist_eqb fortran_s (str "True") then Ok true
                            else if zlist_eqb fortran_s (str "False") then Ok false
                            else Throw runtime_error in
            let* shape_s := unwrap_s shape_s 40 41 in
            let '(t, ts) := split_commas shape_s in
            let* shape := parse_extents t ts in
            Ok (descr, fortran, shape)
      | _, _, _ => Throw runtime_error
      end.

  (** Lines 520-533, 672-704: npy_file and load_npy_file. The typestring was checked, so
      atoi reads the digits after its second character; the buffer is read without
      looking at the state of the stream. *)
  Record npy_file := mk_file { nf_shape : list Z; nf_fortran : bool; nf_type : bytes; nf_buffer : list (option Z) }.
  Definition load_npy_file (file : bytes) : res npy_file :=
    let* '((major, minor), s) := read_magic (mk_in file true) in
    if ((major =? 1) || (major =? 2)) && (minor =? 0) then
      let* '(header, s) := read_header major s in
      let* header := known header in
      let* '(typestr, fortran, shape) := parse_header header in
      let word_size := scan_digits 0 (skipn 2 typestr) in
      let n_bytes := to_size_t (compute_size shape * word_size) in
      let '(buffer, _) := read (Z.to_nat n_bytes) s in
      Ok (mk_file shape fortran typestr buffer)
    else Throw runtime_error.

  (** The elements in a buffer: [n] of them; one with an indeterminate byte is itself
      indeterminate, None. *)
  Definition dec_element (l : list (option Z)) : option V :=
    match known l with Ok b => Some (dec b) | _ => None end.
  Fixpoint elements (n : nat) (l : list (option Z)) : list (option V) :=
    match n with
    | O => []
    | S n' => dec_element (firstn (Z.to_nat (ty_size ty)) l) :: elements n' (skipn (Z.to_nat (ty_size ty)) l)
    end.

  (** Lines 574-626: cast_impl, cast<T, L>, and xt::adapt of the buffer with shape and strides
      (containers/xadapt.hpp 184-208, xarray.hpp 592-601); the buffer already has the
      size. *)
  Definition cast_npy (L : layout) (f : npy_file) : res (cont (option V)) :=
    let sz := compute_size (nf_shape f) in
    if negb (zlist_eqb (nf_type f) (build_typestring little ty)) then Throw runtime_error
    else if (layout_eqb L column_major && negb (nf_fortran f)) || (layout_eqb L row_major && nf_fortran f) then Throw runtime_error
    else
      let* '(st, _, _) := compute_strides dynamic (nf_shape f) (if nf_fortran f then column_major else row_major)
                            (repeat 0 (length (nf_shape f))) None in
      c_resize_strides dynamic (fun d _ => d)
        (mk_cont [] [] [] dynamic (elements (Z.to_nat sz) (nf_buffer f))) (nf_shape f) st.

  (** Lines 772-777: load_npy<T, L>(stream) *)
  Definition load_npy (L : layout) (file : bytes) : res (cont (option V)) :=
    let* f := load_npy_file file in
    cast_npy L f.
End Elements.
