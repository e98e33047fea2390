(** Model of the slice classes of /repo/include/xtensor/views/xslice.hpp: ranges,
    stepped ranges, all, newaxis, integers, keep and drop. Quantities of type
    std::ptrdiff_t and std::size_t are integers without overflow (extents are
    far below 2^63); the one place where the mix of signed and unsigned types
    changes the result, the reverse lookup of a stepped range, uses explicit
    arithmetic modulo 2^64. *)
From Coq Require Import List ZArith Bool.
From Verif Require Import Prelude.
Import ListNotations.
Open Scope Z_scope.

(** The slices a user writes (xslice.hpp lines 48-560: xt::range with
    placeholders, xt::all, xt::newaxis, an integer, xt::keep, xt::drop). A
    placeholder [_] is [None]. *)
Inductive user_slice : Type :=
| URange (start stop step : option Z)
| UAll
| UNewaxis
| UInt (i : Z)
| UKeep (raw : list Z)
| UDrop (raw : list Z).

(** std::map<size_type, size_type>: key-sorted association list.
    m[k] = v : replace or insert. *)
Fixpoint map_set (m : list (Z * Z)) (k v : Z) : list (Z * Z) :=
  match m with
  | [] => [(k, v)]
  | (k', v') :: t =>
      if k =? k' then (k, v) :: t
      else if k <? k' then (k, v) :: m
      else (k', v') :: map_set t k v
  end.

(** The resolved slices stored in a view (xslice.hpp lines 54-545). *)
Inductive slice : Type :=
| SRange (start size : Z)                    (* xrange, 60-110 *)
| SStep (start size step : Z)                (* xstepped_range, 120-170 *)
| SAll (size : Z)                            (* xall, 180-220 *)
| SNewaxis                                   (* xnewaxis, 250-290 *)
| SInt (i : Z)                               (* an integral argument *)
| SKeep (indices : list Z)                   (* xkeep_slice, 310-370; m_indices *)
| SDrop (indices : list Z) (inc : list (Z * Z)) (size : Z). (* xdrop_slice: m_indices, m_inc, m_size *)

(** xrange::xrange, lines 1059-1064. *)
Definition mk_range (start stop : Z) : slice :=
  SRange start (if start <? stop then stop - start else 0).

(** xstepped_range::xstepped_range, lines 1135-1142:
    n / step + (((n < 0) ^ (step > 0)) && (n % step)). *)
Definition mk_stepped (start stop step : Z) : res slice :=
  let n := stop - start in
  let* q := cdiv n step in
  let* r := crem n step in
  Ok (SStep start
        (q + (if xorb (n <? 0) (0 <? step) && negb (r =? 0) then 1 else 0)) step).

(** xrange_adaptor::normalize, lines 658-663. *)
Definition normalize (v size : Z) : Z :=
  let v := if 0 <=? v then v else v + size in Z.max 0 (Z.min size v).

(** xrange_adaptor::get_stepped_range, lines 665-684. *)
Definition get_stepped_range (start stop step size : Z) : res slice :=
  let start := if 0 <=? start then start else start + size in
  let stop := if 0 <=? stop then stop else stop + size in
  if 0 <? step
  then mk_stepped (Z.max 0 (Z.min size start)) (Z.max 0 (Z.min size stop)) step
  else mk_stepped (Z.max (-1) (Z.min (size - 1) start)) (Z.max (-1) (Z.min (size - 1) stop)) step.

(** xrange_adaptor::get, lines 566-639: one overload per set of placeholders. *)
Definition range_get (start stop step : option Z) (size : Z) : res slice :=
  match start, stop, step with
  | Some a, Some b, Some s => get_stepped_range a b s size
  | None, Some b, Some s => get_stepped_range (if 0 <? s then 0 else size - 1) b s size
  | Some a, None, Some s => get_stepped_range a (if 0 <? s then size else - (size + 1)) s size
  | Some a, Some b, None => Ok (mk_range (normalize a size) (normalize b size))
  | None, None, Some s =>
      mk_stepped (if 0 <=? s then 0 else size - 1) (if 0 <=? s then size else -1) s
  | Some a, None, None => Ok (mk_range (normalize a size) size)
  | None, Some b, None => Ok (mk_range 0 (normalize b size))
  | None, None, None => Ok (SAll size)
  end.

(** xkeep_slice::normalize, lines 1413-1423; the same loop in
    xdrop_slice::normalize, lines 1573-1579. *)
Definition norm_indices (raw : list Z) (shape : Z) : list Z :=
  map (fun r => if r <? 0 then shape + r else r) raw.

(** xdrop_slice::normalize, lines 1586-1589: the inner while loop, number of
    further entries that continue the run of consecutive values after d. *)
Fixpoint run_len (d : Z) (rest : list Z) : nat :=
  match rest with
  | [] => 0
  | x :: rest' => if x =? d + 1 then S (run_len x rest') else 0
  end.

(** xdrop_slice::normalize, lines 1580-1593: the outer loop, [rest] being the
    indices from position i on; [fuel] bounds the number of runs. *)
Fixpoint drop_loop (fuel : nat) (rest : list Z) (cum : Z) (m : list (Z * Z)) : list (Z * Z) :=
  match fuel, rest with
  | S fuel', d :: rest' =>
      let r := run_len d rest' in
      let cum' := cum + (Z.of_nat r + 1) in
      drop_loop fuel' (skipn r rest') cum' (map_set m (d - cum) cum')
  | _, _ => m
  end.

(** xdrop_slice::normalize, lines 1567-1594, on a slice whose m_inc is [m]
    (normalize does not clear m_inc). *)
Definition drop_normalize (m : list (Z * Z)) (raw : list Z) (shape : Z) : slice :=
  let ind := norm_indices raw shape in
  SDrop ind (drop_loop (length ind) ind 0 m) (shape - Z.of_nat (length raw)).

(** get_slice_implementation, lines 913-1003, for an axis of extent [size].
    A negative (signed) integer has the extent added. *)
Definition resolve (u : user_slice) (size : Z) : res slice :=
  match u with
  | URange a b s => range_get a b s size
  | UAll => Ok (SAll size)
  | UNewaxis => Ok SNewaxis
  | UInt i => Ok (SInt (if i <? 0 then i + size else i))
  | UKeep raw => Ok (SKeep (norm_indices raw size))
  | UDrop raw => Ok (drop_normalize [] raw size)
  end.

(** get_size, lines 852-862, and the size() members. *)
Definition slice_size (s : slice) : Z :=
  match s with
  | SRange _ n | SStep _ n _ | SAll n => n
  | SNewaxis | SInt _ => 1
  | SKeep ind => Z.of_nat (length ind)
  | SDrop _ _ n => n
  end.

(** xdrop_slice::operator(), lines 1596-1608: i plus the value stored at the
    greatest key <= i (decrement of upper_bound). *)
Fixpoint last_le (m : list (Z * Z)) (i : Z) (acc : option (Z * Z)) : option (Z * Z) :=
  match m with
  | [] => acc
  | (k, v) :: t => if k <=? i then last_le t i (Some (k, v)) else acc
  end.

Definition drop_at (m : list (Z * Z)) (i : Z) : Z :=
  match last_le m i None with
  | None => i
  | Some (_, v) => i + v
  end.

(** value, lines 895-907, and the operator() members. *)
Definition slice_at (s : slice) (i : Z) : res Z :=
  match s with
  | SRange a _ => Ok (a + i)
  | SStep a _ st => Ok (a + i * st)
  | SAll _ => Ok i
  | SNewaxis => Ok 0
  | SInt v => Ok v
  | SKeep ind =>
      if (length ind =? 1)%nat then rd ind 0 else rdz ind i
  | SDrop _ m _ => Ok (drop_at m i)
  end.

(** step_size(slice, i, n), lines 868-889, and the step_size(i, n) members. *)
Definition slice_step (s : slice) (i n : Z) : res Z :=
  match s with
  | SRange _ _ | SAll _ => Ok n
  | SStep _ _ st => Ok (st * n)
  | SNewaxis | SInt _ => Ok 0
  | SKeep ind =>
      let sz := Z.of_nat (length ind) in
      if sz =? 1 then Ok 0
      else if sz <=? i + n
           then let* b := rdz ind (sz - 1) in let* a := rdz ind i in Ok (b - a + 1)
           else let* b := rdz ind (i + n) in let* a := rdz ind i in Ok (b - a)
  | SDrop _ m sz =>
      if sz <=? i + n then Ok (drop_at m (sz - 1) - drop_at m i + 1)
      else Ok (drop_at m (i + n) - drop_at m i)
  end.

(** contains(i), lines 1112, 1189, 1265, 1325, 1470, 1648. [xstepped_range]
    with step 0 cannot be built (its constructor divides by zero). *)
Definition slice_contains (s : slice) (i : Z) : res bool :=
  match s with
  | SRange a n => Ok ((a <=? i) && (i <? a + n))
  | SStep a n st =>
      if (a <=? i) && (i <? a + n * st)
      then let* r := crem (i - a) st in Ok (r =? 0) else Ok false
  | SAll n => Ok (i <? n)
  | SNewaxis => Ok (i =? 0)
  | SInt v => Ok (i =? v)   (* no such member for integers; unused *)
  | SKeep ind => Ok (existsb (Z.eqb i) ind)
  | SDrop ind _ _ => Ok (negb (existsb (Z.eqb i) ind))
  end.

(** std::find: position of the first occurrence. *)
Fixpoint find_pos (l : list Z) (v : Z) : option nat :=
  match l with
  | [] => None
  | x :: t => if x =? v then Some O else option_map S (find_pos t v)
  end.

Definition two64 : Z := 2 ^ 64.

(** xdrop_slice::revert_index, lines 1625-1640: begin() of an empty map is not
    dereferenceable; [lower_bound] is the first key >= i. [before] lists the
    entries with key < i, nearest first. Since i >= the first key only when the
    map is not empty, --lower_bound is UB when no key is < i; so is --iter at begin(). *)
Definition drop_revert (m : list (Z * Z)) (i : Z) : res Z :=
  match m with
  | [] => UB
  | (k0, _) :: _ =>
      if i <? k0 then Ok i
      else
        match rev (filter (fun kv => fst kv <? i) m) with
        | [] => UB
        | (k, v) :: before =>
            if i <? k + v
            then match before with [] => UB | (_, v') :: _ => Ok (i - v') end
            else Ok (i - v)
        end
  end.

(** revert_index(i), lines 1106, 1183, 1259, 1319, 1457, 1625. For a stepped
    range i is std::size_t, so (i - m_start) / m_step is computed modulo 2^64
    and the unsigned quotient is converted back to ptrdiff_t. *)
Definition slice_revert (s : slice) (i : Z) : res Z :=
  match s with
  | SRange a _ => Ok (i - a)
  | SStep a _ st =>
      let* q := cdiv ((i - a) mod two64) (st mod two64) in
      Ok (if q <? two64 / 2 then q else q - two64)
  | SAll _ => Ok i
  | SNewaxis => Ok i
  | SInt v => Ok v   (* no such member for integers; unused *)
  | SKeep ind =>
      match find_pos ind i with
      | Some p => Ok (Z.of_nat p)
      | None => Throw runtime_error
      end
  | SDrop _ m _ => drop_revert m i
  end.

(** operator== and operator!=, lines 1118-1129 (and the corresponding lines of
    each class), for two slices of the same class. *)
Fixpoint zlist_eqb (a b : list Z) : bool :=
  match a, b with
  | [], [] => true
  | x :: a', y :: b' => (x =? y) && zlist_eqb a' b'
  | _, _ => false
  end.

Definition slice_eq (a b : slice) : bool :=
  match a, b with
  | SRange s n, SRange s' n' => (s =? s') && (n =? n')
  | SStep s n t, SStep s' n' t' => (s =? s') && (n =? n') && (t =? t')
  | SAll n, SAll n' => n =? n'
  | SNewaxis, SNewaxis => true
  | SInt i, SInt i' => i =? i'
  | SKeep l, SKeep l' => zlist_eqb l l'
  | SDrop l _ _, SDrop l' _ _ => zlist_eqb l l'
  | _, _ => false
  end.

Definition slice_neq (a b : slice) : bool :=
  match a, b with
  | SNewaxis, SNewaxis => true     (* line 1343: always true *)
  | _, _ => negb (slice_eq a b)
  end.
