(** 64-bit versions of the stride arithmetic of core/xstrides.hpp: shapes are
    std::size_t, strides and backstrides std::ptrdiff_t. Signed overflow is UB,
    unsigned arithmetic and conversions to a signed type wrap. *)
From Coq Require Import List ZArith Bool.
From Verif Require Import Prelude Strides_Model.
Import ListNotations.
Open Scope Z_scope.

Definition umax : Z := 2 ^ 64.
Definition smax : Z := 2 ^ 63.

(** unsigned results *)
Definition u64 (x : Z) : Z := x mod umax.
(** static_cast<std::ptrdiff_t> *)
Definition to_s64 (x : Z) : Z := (x + smax) mod umax - smax.
(** signed operations *)
Definition s64 (x : Z) : res Z := if (- smax <=? x) && (x <? smax) then Ok x else UB.

(** core/xstrides.hpp 336-343: unsigned compute_size_impl *)
Definition m_compute_size (shape : list Z) : Z := fold_left (fun a d => u64 (a * d)) shape 1.

(** core/xstrides.hpp 499-526: adapt_strides *)
Definition m_adapt_strides_at (shape strides : list Z) (bs : option (list Z)) (i : nat)
  : res (list Z * option (list Z)) :=
  let* sh := rd shape i in
  let* strides := (if sh =? 1 then wr strides i 0 else Ok strides) in
  match bs with
  | None => Ok (strides, None)
  | Some b =>
      let* st := rd strides i in
      let* v := s64 (st * to_s64 (u64 (sh - 1))) in
      let* b := wr b i v in
      Ok (strides, Some b)
  end.

(** core/xstrides.hpp 528-562: compute_strides *)
Definition m_compute_strides_body (shape : list Z) (i : nat)
  (s : list Z * option (list Z) * Z) : res (list Z * option (list Z) * Z) :=
  let '(strides, bs, data_size) := s in
  let* strides := wr strides i data_size in
  let* st := rd strides i in
  let* sh := rd shape i in
  let* data_size := s64 (st * to_s64 sh) in
  let* '(strides, bs) := m_adapt_strides_at shape strides bs i in
  Ok (strides, bs, data_size).

Definition m_compute_strides (L : layout) (shape : list Z) (l : layout)
  (strides : list Z) (bs : option (list Z)) : res (list Z * option (list Z) * Z) :=
  let* '(st, b, ds) :=
    if layout_eqb L row_major || layout_eqb l row_major then
      for_down (m_compute_strides_body shape) (length shape) (strides, bs, 1)
    else
      for_up (m_compute_strides_body shape) 0 (length shape) (strides, bs, 1) in
  Ok (st, b, u64 ds).

(** core/xstrides.hpp 358-376: raw_data_offset, with the arguments converted to ptrdiff_t. *)
Fixpoint m_raw_data_offset (strides args : list Z) : res Z :=
  match args, strides with
  | [], _ => Ok 0
  | _ :: _, [] => UB
  | arg :: args', st :: strides' =>
      let* p := s64 (to_s64 arg * st) in
      let* rest := m_raw_data_offset strides' args' in
      s64 (p + rest)
  end.

(** core/xstrides.hpp 487-495: element_offset over as many std::size_t indices
    as strides: std::inner_product mixes size_t and ptrdiff_t, so it computes in
    unsigned arithmetic and converts back at each step. *)
Fixpoint m_inner_product (ix strides : list Z) (acc : Z) : Z :=
  match ix, strides with
  | i :: ix', st :: strides' =>
      m_inner_product ix' strides' (to_s64 (u64 (u64 acc + u64 (i * u64 st))))
  | _, _ => acc
  end.
