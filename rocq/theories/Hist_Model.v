(** Histograms: misc/xhistogram.hpp. The data, the edges and the weights are
    one-dimensional (as asserted, lines 55-57), so they are lists of their elements. *)
From Coq Require Import List ZArith Bool QArith Qround SpecFloat.
From Verif Require Import Prelude Strides_Model Access_Model Container_Model Slice_Model Manip_Model Sort_Model SetOp_Model.
Import ListNotations.
Open Scope Z_scope.

(** The floating point operations that the code uses on double. *)
Record arith : Type := mk_arith {
  num : Type;
  a_of : Z -> num;                  (* static_cast<double> of an integer *)
  a_add : num -> num -> num;
  a_sub : num -> num -> num;
  a_mul : num -> num -> num;
  a_div : num -> num -> num;
  a_lt : num -> num -> bool;
  a_le : num -> num -> bool;
  a_eq : num -> num -> bool;
  a_trunc : num -> res Z;           (* conversion to an integer, towards zero *)
  a_ceil : num -> num               (* std::ceil *)
}.

(** static_cast<std::size_t> of a floating point number: undefined unless the truncated
    value is one of a size_t ([conv.fpint]) *)
Definition a_size (A : arith) (x : num A) : res Z :=
  let* z := a_trunc A x in if (0 <=? z) && (z <? 2 ^ 64) then Ok z else UB.
(** std::fmax; of numbers that are not NaN *)
Definition a_fmax (A : arith) (x y : num A) : num A := if a_lt A x y then y else x.

(** Exact arithmetic on rational numbers: what the code would compute without
    rounding. x / 0 is 0 here. *)
Definition Qtrunc (q : Q) : Z := if Qle_bool 0 q then Qfloor q else Qceiling q.
Definition exact : arith :=
  mk_arith Q inject_Z Qplus Qminus Qmult Qdiv (fun x y => negb (Qle_bool y x)) Qle_bool Qeq_bool
    (fun q => Ok (Qtrunc q)) (fun q => inject_Z (Qceiling q)).

(** IEEE 754 binary64, round to nearest even: the definitions of Coq's SpecFloat. *)
Definition f_of (z : Z) : spec_float := binary_normalize 53 1024 z 0 false.
Definition f_parts (up : bool) (x : spec_float) : res Z :=
  match x with
  | S754_zero _ => Ok 0
  | S754_finite s m e =>
      let v := if s then Z.neg m else Z.pos m in
      if 0 <=? e then Ok (v * 2 ^ e)
      else Ok (if up then - ((- v) / 2 ^ (- e)) else Z.quot v (2 ^ (- e)))
  | _ => UB
  end.
Definition f_ceil (x : spec_float) : spec_float := match f_parts true x with Ok z => f_of z | _ => x end.
Definition binary64 : arith :=
  mk_arith spec_float f_of (SFadd 53 1024) (SFsub 53 1024) (SFmul 53 1024) (SFdiv 53 1024) SFltb SFleb SFeqb (f_parts false) f_ceil.

(** The value type of the data and of the edges: operator<, operator-, the conversions
    to and from double, numeric_limits max() and lowest(). Simplification: data and edges
    have the same value type. *)
Record vtype (A : arith) : Type := mk_vtype {
  val : Type;
  v_lt : val -> val -> bool;
  v_sub : val -> val -> val;
  v_dbl : val -> num A;
  v_cast : num A -> res val;
  v_max : val;
  v_low : val
}.
Arguments val {A}. Arguments v_lt {A}. Arguments v_sub {A}. Arguments v_dbl {A}. Arguments v_cast {A}. Arguments v_max {A}. Arguments v_low {A}.

(** double, with the largest finite number and its opposite; int, without its
    overflows in subtraction; and rational numbers between two bounds. *)
Definition type_double : vtype binary64 :=
  let m := S754_finite false (2 ^ 53 - 1)%positive 971 in
  mk_vtype binary64 spec_float SFltb (SFsub 53 1024) (fun x => x) (fun x => Ok x) m (SFopp m).
Definition type_int : vtype binary64 :=
  mk_vtype binary64 Z Z.ltb Z.sub f_of (f_parts false) (2 ^ 31 - 1) (- 2 ^ 31).
Definition type_exact (lo hi : Q) : vtype exact :=
  mk_vtype exact Q (fun x y => negb (Qle_bool y x)) Qminus (fun x => x) (fun x => Ok x) hi lo.

(** xt::minmax(e)(), core/xmath.hpp 2231-2263: the reducer over all elements, with
    std::min(r[0], v) and std::max(r[1], v). *)
Definition minmax {V} (lt : V -> V -> bool) (hi lo : V) (l : list V) : V * V :=
  fold_left (fun r v => (if lt v (fst r) then v else fst r, if lt (snd r) v then v else snd r)) l (hi, lo).

Section Histogram.
Context {A : arith} (T : vtype A).
Context {W : Type} (w_zero : W) (w_add : W -> W -> W).
Context {R : Type} (r_of : W -> R) (r_width : val T -> val T -> R) (r_size : Z -> R) (r_mul r_div : R -> R -> R).
Context (a : algos).

(** count(i) += w, without a bounds check *)
Definition count_add (i : Z) (w : W) (count : list W) : res (list W) :=
  let* c := rdz count i in wrz count i (w_add c w).

(** lines 70-82: the loop over the data for bins of equal width *)
Definition equal_loop (n_bins : Z) (left right norm : num A) (data : list (val T)) (weights : list W) (count : list W) : res (list W) :=
  for_up (fun i count =>
    let* x := rd data i in
    let v := v_dbl T x in
    if a_le A left v && a_lt A v right then
      let* i_bin := a_size A (a_mul A (a_mul A (a_of A n_bins) (a_sub A v left)) norm) in
      let* w := rd weights i in count_add i_bin w count
    else if a_eq A v right then
      let* w := rd weights i in count_add (n_bins - 1) w count
    else Ok count) 0 (length data) count.

(** lines 104-107: while (item >= bin_edges[ibin + 1] && ibin < n_bins - 1) ++ibin;
    [fuel] bounds the number of turns *)
Fixpoint advance (fuel : nat) (edges : list (val T)) (n_bins : nat) (item : val T) (ibin : nat) : res nat :=
  let* e := rd edges (ibin + 1) in
  if negb (v_lt T item e) && (ibin <? n_bins - 1)%nat then
    match fuel with O => UB | S fuel => advance fuel edges n_bins item (ibin + 1) end
  else Ok ibin.

(** lines 90-110: the loop over the sorted data; item > e is e < item and item >= e is
    !(item < e), which is so for numbers that are not NaN *)
Fixpoint sorted_loop (edges : list (val T)) (n_bins : nat) (data : list (val T)) (weights : list W)
    (sorter : list Z) (ibin : nat) (count : list W) : res (list W) :=
  match sorter with
  | [] => Ok count
  | idx :: rest =>
      let* item := rdz data idx in
      let* first := rd edges 0 in
      if v_lt T item first then sorted_loop edges n_bins data weights rest ibin count
      else
        let* last := rd edges n_bins in
        if v_lt T last item then Ok count
        else
          let* ibin := advance n_bins edges n_bins item ibin in
          let* w := rdz weights idx in
          let* count := count_add (Z.of_nat ibin) w count in
          sorted_loop edges n_bins data weights rest ibin count
  end.

(** detail::histogram_imp, lines 49-127. xt::argsort of one-dimensional data is
    misc/xsort.hpp 409-425, with the default method, quick. Fewer than two edges
    violate the assertion of line 59. *)
Definition histogram_imp (data edges : list (val T)) (weights : list W) (density equal_bins : bool) : res (list R) :=
  if (length edges <? 2)%nat then UB else
  let n_bins := (length edges - 1)%nat in
  let count := repeat w_zero n_bins in
  let* count :=
    if equal_bins then
      let bounds := minmax (v_lt T) (v_max T) (v_low T) edges in
      let left := v_dbl T (fst bounds) in
      let right := v_dbl T (snd bounds) in
      let norm := a_div A (a_of A 1) (a_sub A right left) in
      equal_loop (Z.of_nat n_bins) left right norm data weights count
    else
      let* sorter := argsort_iter a (v_lt T) false data (iota (length data)) in
      sorted_loop edges n_bins data weights sorter 0 count in
  let prob := map r_of count in
  if density then
    let n := r_size (Z.of_nat (length data)) in
    for_up (fun i prob =>
      let* p := rd prob i in
      let* e1 := rd edges (i + 1) in
      let* e0 := rd edges i in
      wr prob i (r_div p (r_mul (r_width e1 e0) n))) 0 n_bins prob
  else Ok prob.

(** histogram_bin_edges with the modes automatic and linspace, lines 331-342:
    xt::linspace<value_type>(left, right, bins + 1), generators/xbuilder.hpp 459-468, and
    its elements, 266-276 (C39) *)
Definition linspace_edges (left right : val T) (bins : nat) : res (list (val T)) :=
  let n := Z.of_nat bins in
  let step := a_div A (v_dbl T (v_sub T right left)) (a_fmax A (a_of A 1) (a_of A n)) in
  for_up (fun i edges =>
    let* x := v_cast T (if (0 <? n) && (Z.of_nat i =? n) then v_dbl T right
                        else a_add A (v_dbl T left) (a_mul A step (a_of A (Z.of_nat i)))) in
    Ok (edges ++ [x])) 0 (bins + 1) [].

(** The overloads of histogram: with edges and weights, lines 141-151 and 162-176 (weights
    one); with a number of bins between [left] and [right], 214-228 and 264-274; with a number
    of bins, 187-201 and 240-250, where the bounds are those of the data, 417-435 *)
Definition histogram_edges (data edges : list (val T)) (weights : list W) (density : bool) : res (list R) :=
  histogram_imp data edges weights density false.
Definition histogram_between (data : list (val T)) (bins : nat) (weights : list W) (left right : val T) (density : bool) : res (list R) :=
  let* edges := linspace_edges left right bins in histogram_imp data edges weights density true.
Definition histogram_bins (data : list (val T)) (bins : nat) (weights : list W) (density : bool) : res (list R) :=
  let b := minmax (v_lt T) (v_max T) (v_low T) data in histogram_between data bins weights (fst b) (snd b) density.

(** histogram_bin_edges with the mode uniform, lines 363-402: [w_div], [w_size] and [w_ge]
    are operator/, the conversion from size_t and operator>= of the weights, [junk] the contents
    of the array that from_shape allocates. The cumulated counts are those of cumsum (C43). *)
Fixpoint cumulate (w acc : W) (n : nat) : list W :=
  match n with O => [] | S n => let acc := w_add acc w in acc :: cumulate w acc n end.
Definition uniform_edges (w_div : W -> W -> W) (w_size : Z -> W) (w_ge : W -> W -> bool) (junk : list (val T))
    (data : list (val T)) (weights : list W) (left right : val T) (bins : nat) : res (list (val T)) :=
  let* sorter := argsort_iter a (v_lt T) false data (iota (length data)) in
  let w := w_div (fold_left w_add weights w_zero) (w_size (Z.of_nat bins)) in
  let count := match bins with O => [] | S n => w :: cumulate w w n end in
  let* edges := wr junk 0 left in
  let* edges := wr edges bins right in
  let* '(edges, _, _) := for_up (fun i '(edges, cum_weight, ibin) =>
    let* c := rd count ibin in
    let* s := rd sorter i in
    let* '(edges, ibin) :=
      if w_ge cum_weight c then
        let* x := rdz data s in
        let* edges := wr edges (ibin + 1) x in Ok (edges, (ibin + 1)%nat)
      else Ok (edges, ibin) in
    let* w := rdz weights s in
    Ok (edges, w_add cum_weight w, ibin)) 0 (length weights) (edges, w_zero, 0%nat) in
  Ok edges.

(** bincount, lines 512-543: the data are integers of a signed type of at least the
    rank of int, from [lowest] to [highest]; an allocation of more than [most] elements
    fails *)
Definition bincount (lowest highest most : Z) (data : list Z) (weights : list W) (minlength : Z) : res (list W) :=
  let left_right := minmax Z.ltb highest lowest data in
  if fst left_right <? 0 then Throw runtime_error else
  if snd left_right =? highest then UB else
  let size := Z.max minlength (to_size_t (snd left_right + 1)) in
  if most <? size then Throw bad_alloc else
  for_up (fun i count =>
    let* x := rd data i in
    let* w := rd weights i in
    count_add x w count) 0 (length data) (repeat w_zero (Z.to_nat size)).
End Histogram.

(** digitize, lines 35-45 *)
Definition digitize {V} (RL : layout) (fresh : list Z -> Z -> list Z) (n1 : nat) (lt : V -> V -> bool) (data : cont V) (bin_edges : list V) (right : bool) : res (cont Z) :=
  searchsorted RL fresh n1 lt bin_edges data right.

(** A one-dimensional array built from a view with one slice *)
Definition view1 (u : user_slice) (l : list Z) : res (list Z) :=
  let* s := resolve u (Z.of_nat (length l)) in
  for_up (fun i acc => let* p := slice_at s (Z.of_nat i) in let* x := rdz l p in Ok (acc ++ [x])) 0 (Z.to_nat (slice_size s)) [].

(** bin_items, lines 565-598; the weights are of type double and xt::sum adds them in
    order. The sum of the size_t n wraps around, and range converts sum - N to
    std::ptrdiff_t (views/xslice.hpp 817-825). *)
Definition to_ptrdiff (z : Z) : Z := let w := z mod 2 ^ 64 in if w <? 2 ^ 63 then w else w - 2 ^ 64.
Definition bin_items (A : arith) (a : algos) (N : Z) (weights : list (num A)) : res (list Z) :=
  if (length weights <=? 1)%nat then Ok [N] else
  let total := fold_left (a_add A) weights (a_of A 0) in
  let P := map (fun w => a_div A w total) weights in
  let* n := for_each (fun p n => let* k := a_size A (a_ceil A (a_mul A (a_of A N) p)) in Ok (n ++ [k])) P [] in
  let sum := to_size_t (fold_left Z.add n 0) in
  if sum =? N then Ok n else
  let d := repeat 0 (length P) in
  let* sorter := argsort_iter a (a_lt A) false P (iota (length P)) in
  let* sorter := view1 (URange (Some (Z.of_nat (length P))) None (Some (-1))) sorter in
  let* sorter := view1 (URange (Some 0) (Some (to_ptrdiff (sum - N))) None) sorter in
  let* d := for_each (fun i d => wrz d i 1) sorter d in
  for_up (fun i n => let* x := rd n i in let* y := rd d i in wr n i (to_size_t (x - y))) 0 (length n) n.
