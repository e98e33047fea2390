(** The npy format: magic string, version, length of the header, header, data
    (https://numpy.org/neps/nep-0001-npy-format.html). *)
From Coq Require Import String Ascii List ZArith Bool.
From Verif Require Import Prelude Strides_Model Strides_Spec Container_Model Container_Spec Reduce_Spec Npy_Model.
Import ListNotations.
Open Scope Z_scope.

(** [s] is the decimal notation of n *)
Inductive decimal : Z -> bytes -> Prop :=
| decimal_one d : 0 <= d < 10 -> decimal d [48 + d]
| decimal_more n s d : 0 < n -> decimal n s -> 0 <= d < 10 -> decimal (10 * n + d) (s ++ [48 + d]).

(** A Python tuple of the texts [ds]: (), (a,), (a, b) *)
Definition tuple_text (ds : list bytes) : bytes :=
  match ds with
  | [] => str "()"
  | [d] => str "(" ++ d ++ str ",)"
  | d :: rest => str "(" ++ d ++ concat (map (fun x => str ", " ++ x) rest) ++ str ")"
  end.

(** The type: byte order (<, > or |), kind (i, u, f, b or c), size *)
Inductive type_text : npy_type -> bytes -> Prop :=
  type_text_intro t e s : In e (str "<>|") -> In (ty_kind t) (str "iufbc") -> decimal (ty_size t) s ->
    type_text t (e :: ty_kind t :: s).

(** The header: a Python dictionary, spaces and a newline *)
Definition npy_header (descr : bytes) (fortran : bool) (shape : list Z) (pad : nat) (h : bytes) : Prop :=
  exists ds, Forall2 decimal shape ds /\
    h = str "{'descr': '" ++ descr ++ str "', 'fortran_order': " ++ (if fortran then str "True" else str "False") ++
        str ", 'shape': " ++ tuple_text ds ++ str ", }" ++ repeat 32 pad ++ [10].

(** n in k bytes, least significant first *)
Fixpoint little_endian (k : nat) (n : Z) : bytes :=
  match k with O => [] | S k' => n mod 256 :: little_endian k' (n / 256) end.
Definition length_bytes (version : Z) : nat := if version =? 1 then 2 else 4.

(** A file: version 1 with a two byte header length or version 2 with four bytes *)
Definition npy_format (version : Z) (descr : bytes) (fortran : bool) (shape : list Z) (pad : nat) (data file : bytes) : Prop :=
  (version = 1 \/ version = 2) /\
  exists h, npy_header descr fortran shape pad h /\ len h < 256 ^ Z.of_nat (length_bytes version) /\
    file = [147; 78; 85; 77; 80; 89; version; 0] ++ little_endian (length_bytes version) (len h) ++ h ++ data.

(** The bytes of the elements in the order of the file *)
Definition file_order (fortran : bool) : layout := if fortran then column_major else row_major.
Definition data_of {V} (enc : V -> bytes) (fortran : bool) (shape : list Z) (v : list Z -> V) : bytes :=
  concat (map (fun ix => enc (v ix)) (indices_of (file_order fortran) shape)).

(** The representation of a type in memory *)
Definition represents {V} (t : npy_type) (enc : V -> bytes) (dec : bytes -> V) : Prop :=
  In (ty_kind t) (str "iufbc") /\ 1 <= ty_size t < 2 ^ 31 /\
  forall v, len (enc v) = ty_size t /\ dec (enc v) = v.

(** Where chars are signed, the header length is read correctly when its bytes, but the
    last, are below 128. The version is the byte after the magic string. *)
Definition readable (char_signed : bool) (file : bytes) : Prop :=
  char_signed = false \/
  forall version, nth_error file 6 = Some version -> Forall (fun b => b < 128) (firstn (length_bytes version - 1) (skipn 8 file)).
