(** Model of /repo/include/xtensor/misc/xfft.hpp. Line numbers are those of that file unless another one is named. *)
From Coq Require Import List ZArith Bool.
From Verif Require Import Prelude Strides_Model Access_Model Slice_Model SView_Model SView_Spec Stepper_Model Container_Model Reshape_Model Reduce_Model AxisIt_Model.
Import ListNotations.
Open Scope Z_scope.

(** The operations on std::complex that the file uses. [over z n] is z / n for an integer n and [turn a b] is
    exp(-i pi a / b). Simplification: no rounding, the operations are those of an exact arithmetic. *)
Record arith (K : Type) : Type := mk_arith {
  zero : K; add : K -> K -> K; sub : K -> K -> K; mul : K -> K -> K; conj : K -> K; over : K -> Z -> K; turn : Z -> Z -> K }.
Arguments mk_arith {K}. Arguments zero {K}. Arguments add {K}. Arguments sub {K}. Arguments mul {K}. Arguments conj {K}. Arguments over {K}. Arguments turn {K}.

Section Fft.
Context {K : Type} (A : arith K).

(** Lines 31 and 136: powerOfTwo *)
Definition power_of_two (N : Z) : bool := negb (N =? 0) && (Z.land N (N - 1) =? 0).

(** view(l, range(start, _, step)) of a vector, with [n] elements *)
Definition every (l : list K) (start step n : nat) : res (list K) := seqM (map (fun j => rd l (start + step * j)) (seq 0 n)).
(** A function of two vectors, evaluated at [n] indices *)
Definition zip_with (f : nat -> K -> K -> K) (x y : list K) (n : nat) : res (list K) :=
  seqM (map (fun j => let* a := rd x j in let* b := rd y j in Ok (f j a b)) (seq 0 n)).
(** view(l, range(start, start + length vs)) = vs *)
Definition write_range (l : list K) (start : Z) (vs : list K) : res (list K) :=
  let* '(_, l') := for_each (fun v '(p, l) => let* l' := wrz l p v in Ok (p + 1, l')) vs (start, l) in Ok l'.

(** Lines 23-75: radix2, of a vector. [fuel] bounds the depth of the recursion. *)
Fixpoint radix2 (fuel : nat) (ev : list K) : res (list K) :=
  match fuel with
  | O => UB
  | S fuel' =>
      let n := length ev in
      let N := Z.of_nat n in
      if negb (power_of_two N) || (N =? 0) then Throw runtime_error
      else if N <=? 1 then Ok ev
      else
        let* even := (let* v := every ev 0 2 (Nat.div2 (n + 1)) in radix2 fuel' v) in
        let* odd := (let* v := every ev 1 2 (Nat.div2 n) in radix2 fuel' v) in
        let half := Nat.div2 n in
        let* first_half := zip_with (fun j a b => add A a (mul A (turn A (2 * Z.of_nat j) N) b)) even odd half in
        let* second_half := zip_with (fun j a b => sub A a (mul A (turn A (2 * Z.of_nat j) N) b)) even odd half in
        let* spectrum := write_range (repeat (zero A) n) 0 first_half in
        write_range spectrum (Z.of_nat half) second_half
  end.

(** Lines 88-95: the trigonometric table. linspace(0, n - 1, n) is 0, ..., n - 1: see C39. *)
Definition exp_table (n : nat) : list K :=
  map (fun i => turn A ((Z.of_nat i * Z.of_nat i) mod (Z.of_nat n * 2)) (Z.of_nat n)) (seq 0 n).

(** Lines 77-118: transform_bluestein. The elements of an empty container of std::complex are 0: the type is not
    trivially default constructible (containers/xstorage.hpp 164-180). *)
Definition transform_bluestein (data : list K) : res (list K) :=
  let n := length data in
  let m := 2 ^ Z.log2_up (Z.of_nat n * 2 + 1) in
  let fuel := S (Z.to_nat m) in
  let table := exp_table n in
  let* d := zip_with (fun _ a b => mul A a b) data table n in
  let* av := write_range (repeat (zero A) (Z.to_nat m)) 0 d in
  let* bv := write_range (repeat (zero A) (Z.to_nat m)) 0 (map (conj A) table) in
  let start := to_signed 64 (to_size_t (- Z.of_nat n + 1)) in
  let start := if start <? 0 then m + start else start in
  let* bv := write_range bv start (removelast (map (conj A) (rev table))) in
  let* xv := radix2 fuel av in
  let* yv := radix2 fuel bv in
  let* spectrum_k := zip_with (fun _ a b => mul A a b) xv yv (Z.to_nat m) in
  let* fft_res := radix2 fuel (map (conj A) spectrum_k) in
  let cv := map (fun z => over A (conj A z) m) fft_res in
  zip_with (fun _ a b => mul A a b) cv table n.

(** Lines 142-149: the transform of one slice *)
Definition transform (x : list K) : res (list K) :=
  if power_of_two (Z.of_nat (length x)) then radix2 (S (length x)) x else transform_bluestein x.

(** The elements of a one-dimensional view of the buffer of a container, and their assignment element by element.
    Simplification: the linear copy, which the assignment makes instead when the strides of both sides are the same
    (core/xassign.hpp: is_linear_assign), gives the same elements. *)
Definition read_slice (w : sview) (n : nat) (buf : list K) : res (list K) :=
  seqM (map (fun j => let* c := w_element w [Z.of_nat j] in match c with Slot p => rdz buf p | Elem _ => UB end) (seq 0 n)).
Definition write_slice (w : sview) (vs : list K) (buf : list K) : res (list K) :=
  let* '(_, b) := for_each (fun v '(j, buf) =>
    let* c := w_element w [j] in
    match c with Slot p => let* b := wrz buf p v in Ok (j + 1, b) | Elem _ => UB end) vs (0, buf) in Ok b.

(** Lines 138-150: the loop over the slices. [fuel] bounds their number. *)
Fixpoint slices_loop (fuel : nat) (it en : slice_it) (f : sview -> list K -> res (list K)) (buf : list K) : res (list K) :=
  if slice_equal it en then Ok buf
  else
    match fuel with
    | O => UB
    | S fuel' =>
        let* buf' := f (slice_deref it) buf in
        let* it' := slice_next it in
        slices_loop fuel' it' en f buf'
    end.

(** Lines 213-216: the loop over the slices of two containers, up to the end of those of the first *)
Fixpoint slices_loop2 (fuel : nat) (it ity en : slice_it) (f : sview -> sview -> list K -> res (list K)) (buf : list K) : res (list K) :=
  if slice_equal it en then Ok buf
  else
    match fuel with
    | O => UB
    | S fuel' =>
        let* ity' := slice_next ity in
        let* buf' := f (slice_deref it) (slice_deref ity) buf in
        let* it' := slice_next it in
        slices_loop2 fuel' it' ity' en f buf'
    end.

(** Lines 127-157: fft(e, axis), for complex elements; c is the xarray that holds them. *)
Definition fft (c : cont K) (axis : Z) : res (cont K) :=
  let sh := ct_shape c in
  let saxis := normalize_axis (length sh) axis in
  let* N := rdz sh saxis in
  let* b := slice_begin false (of_cont c) (Z.to_nat saxis) in
  let* en := slice_end false (of_cont c) (Z.to_nat saxis) in
  let* buf := slices_loop (Z.to_nat (compute_size sh)) b en (fun w buf =>
      let* x := read_slice w (Z.to_nat N) buf in
      let* y := transform x in
      write_slice w y buf) (ct_data c) in
  Ok (mk_cont sh (ct_strides c) (ct_back c) (ct_layout c) buf).

Definition map_cont (f : K -> K) (c : cont K) : cont K := mk_cont (ct_shape c) (ct_strides c) (ct_back c) (ct_layout c) (map f (ct_data c)).

(** Lines 159-180: ifft(e, axis). shape(axis) takes a std::size_t. *)
Definition ifft (c : cont K) (axis : Z) : res (cont K) :=
  let* n := rdz (ct_shape c) (to_size_t axis) in
  if n =? 0 then Throw runtime_error
  else
    let* r := fft (map_cont (conj A) c) axis in
    Ok (map_cont (conj A) r).

(** Lines 189-224: convolve(xvec, yvec, axis) *)
Definition fft_convolve (x y : cont K) (axis : Z) : res (cont K) :=
  let dim := length (ct_shape x) in
  if negb (Z.of_nat dim =? Z.of_nat (length (ct_shape y))) then Throw runtime_error
  else
    let saxis := normalize_axis dim axis in
    let* n := rdz (ct_shape x) saxis in
    let* n' := rdz (ct_shape y) saxis in
    if negb (n =? n') then Throw runtime_error
    else
      let* xv := fft x axis in
      let* yv := fft y axis in
      let* bx := slice_begin false (of_cont xv) (Z.to_nat saxis) in
      let* ex := slice_end false (of_cont xv) (Z.to_nat saxis) in
      let* by_ := slice_begin false (of_cont yv) (Z.to_nat saxis) in
      let* buf := slices_loop2 (Z.to_nat (compute_size (ct_shape x))) bx by_ ex (fun w wy buf =>
          let* a := read_slice wy (Z.to_nat n) (ct_data yv) in
          let* b := read_slice w (Z.to_nat n) buf in
          let* p := zip_with (fun _ a b => mul A a b) a b (Z.to_nat n) in
          write_slice w p buf) (ct_data xv) in
      let* out := ifft (mk_cont (ct_shape xv) (ct_strides xv) (ct_back xv) (ct_layout xv) buf) axis in
      Ok (map_cont (fun z => over A z n) out).
End Fft.
