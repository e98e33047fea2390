(** Properties C63 and C64: histograms and counts of bins. *)
From Coq Require Import List ZArith Bool Lia Permutation QArith Qround SpecFloat.
From Verif Require Import Prelude Strides_Model Strides_Spec Container_Model Container_Spec Container_Proofs Semantic_Spec Accum_Spec Sort_Model Sort_Spec Sort5_Proofs Sort6_Proofs Sort9_Proofs Reduce15_Proofs
  Hist_Model Hist_Spec Hist2_Proofs Hist3_Proofs Hist4_Proofs Hist5_Proofs Hist6_Proofs Hist7_Proofs Hist8_Proofs.
Import ListNotations.
Open Scope Z_scope.

(** C63: histogram(data, edges, weights, density) of any data and any sorted edges, at least
    two, in any arithmetic: the count of a bin is the sum of the weights of the items in it,
    where every bin holds its left edge and the last one also its right edge, and items
    outside of the edges count nowhere; with density it is divided by the width of
    the bin times the number of items. *)
Theorem C63_edges : forall (A : arith) (T : vtype A) (W R : Type) (zero : W) (add : W -> W -> W)
    (r_of : W -> R) (r_width : val T -> val T -> R) (r_size : Z -> R) (r_mul r_div : R -> R -> R)
    (a : algos) (data edges : list (val T)) (weights : list W) (density : bool),
  std_ok a -> (2 <= length edges)%nat -> sorted (v_lt T) edges -> strict_weak_order (v_lt T) (data ++ edges) -> length weights = length data ->
  exists count, is_histogram zero add (v_lt T) edges data weights count /\
    (if density
     then exists probs, histogram_edges T zero add r_of r_width r_size r_mul r_div a data edges weights density = Ok probs /\
            heights r_of r_width r_size r_mul r_div data edges count probs
     else histogram_edges T zero add r_of r_width r_size r_mul r_div a data edges weights density = Ok (map r_of count)).
Proof.
  intros A T W R zero add r_of r_width r_size r_mul r_div a data edges weights density H1 H2 H3 H4 H5.
  destruct (edges_lemma T zero add r_of r_width r_size r_mul r_div a data edges weights density H1 H2 H3 H4 H5) as (count & Ho & Hc).
  exists count. split; [exact Hc|exact Ho].
Qed.
Print Assumptions C63_edges.

Example C63_case_edges : std_ok simple_algos /\ sorted (v_lt type_int) [0; 2; 2; 7] /\ strict_weak_order (v_lt type_int) ([7; 1; 2; -1; 8; 2] ++ [0; 2; 2; 7]) /\
  histogram_edges type_int 0 Z.add (fun c => c) Z.sub (fun n => n) Z.mul Z.div simple_algos [7; 1; 2; -1; 8; 2] [0; 2; 2; 7] [1; 10; 100; 1000; 10000; 100000] false = Ok [10; 0; 100101].
Proof. split; [exact simple_algos_ok|]. split; [repeat constructor|]. split; [exact (zlt_swo _)|vm_compute; reflexivity]. Qed.

(** C63 for bins of equal width between [left] and [right]: in exact arithmetic the
    counts are those of the bins with the edges left + i (right - left) / bins. *)
Theorem C63_between_partial : forall (W R : Type) (zero : W) (add : W -> W -> W)
    (r_of : W -> R) (r_width : Q -> Q -> R) (r_size : Z -> R) (r_mul r_div : R -> R -> R) (a : algos)
    (lo hi left right : Q) (bins : nat) (data : list Q) (weights : list W) (density : bool),
  (lo <= left)%Q -> (left <= right)%Q -> (right <= hi)%Q -> (1 <= bins)%nat -> Z.of_nat bins < 2 ^ 64 -> length weights = length data ->
  exists edges count, equal_edges left right bins edges /\ is_histogram zero add q_lt edges data weights count /\
    (if density
     then exists probs, histogram_between (type_exact lo hi) zero add r_of r_width r_size r_mul r_div a data bins weights left right density = Ok probs /\
            heights r_of r_width r_size r_mul r_div data edges count probs
     else histogram_between (type_exact lo hi) zero add r_of r_width r_size r_mul r_div a data bins weights left right density = Ok (map r_of count)).
Proof.
  intros W R zero add r_of r_width r_size r_mul r_div a lo hi left right bins data weights density H1 H2 H3 H4 H5 H6.
  destruct (between_lemma zero add r_of r_width r_size r_mul r_div a lo hi left right bins data weights density H1 H2 H3 H4 H5 H6) as (edges & count & He & Ho & Hc).
  exists edges, count. split; [exact He|]. split; [exact Hc|exact Ho].
Qed.
Print Assumptions C63_between_partial.

Theorem C63_bins_partial : forall (W R : Type) (zero : W) (add : W -> W -> W)
    (r_of : W -> R) (r_width : Q -> Q -> R) (r_size : Z -> R) (r_mul r_div : R -> R -> R) (a : algos)
    (lo hi : Q) (bins : nat) (data : list Q) (weights : list W) (density : bool),
  Forall (fun x => (lo <= x <= hi)%Q) data -> data <> [] -> (1 <= bins)%nat -> Z.of_nat bins < 2 ^ 64 -> length weights = length data ->
  exists left right edges count,
    Forall (fun x => (left <= x <= right)%Q) data /\ Exists (fun x => (x == left)%Q) data /\ Exists (fun x => (x == right)%Q) data /\
    equal_edges left right bins edges /\ is_histogram zero add q_lt edges data weights count /\
    (if density
     then exists probs, histogram_bins (type_exact lo hi) zero add r_of r_width r_size r_mul r_div a data bins weights density = Ok probs /\
            heights r_of r_width r_size r_mul r_div data edges count probs
     else histogram_bins (type_exact lo hi) zero add r_of r_width r_size r_mul r_div a data bins weights density = Ok (map r_of count)).
Proof.
  intros W R zero add r_of r_width r_size r_mul r_div a lo hi bins data weights density H1 H2 H3 H4 H5.
  destruct (bins_lemma zero add r_of r_width r_size r_mul r_div a lo hi bins data weights density H1 H2 H3 H4 H5) as (left & right & edges & count & L1 & L2 & L3 & He & Ho & Hc).
  exists left, right, edges, count. repeat (split; [assumption|]). exact Ho.
Qed.
Print Assumptions C63_bins_partial.

Example C63_case_bins : Forall (fun x => (-9 <= x <= 9)%Q) [2%Q; 0%Q; (1#2); 4%Q; 1%Q] /\
  histogram_between (type_exact (-9) 9) 0 Z.add (fun c => c) (fun _ _ => 0) (fun n => n) Z.mul Z.div simple_algos [2%Q; 0%Q; (1#2); 4%Q; 5%Q; 1%Q] 4 [1; 10; 100; 1000; 10000; 100000] 0%Q 4%Q false = Ok [110; 100000; 1; 1000] /\
  histogram_bins (type_exact (-9) 9) 0 Z.add (fun c => c) (fun _ _ => 0) (fun n => n) Z.mul Z.div simple_algos [2%Q; 0%Q; (1#2); 4%Q; 1%Q] 4 [1; 10; 100; 1000; 100000] false = Ok [110; 100000; 1; 1000].
Proof. split; [repeat constructor; discriminate|]. split; vm_compute; reflexivity. Qed.

(** C63 is false in double arithmetic: the largest number below 5 is written beyond the
    counts of five bins between 0 and 5. *)
Theorem C63_overflow_refuted : SFltb below_five (f_of 5) = true /\
  histogram_between type_double 0 Z.add (fun c => c) (fun _ _ => 0) (fun n => n) Z.mul Z.div simple_algos [below_five] 5 [1] (f_of 0) (f_of 5) false = UB.
Proof. exact overflow_lemma. Qed.
Print Assumptions C63_overflow_refuted.

(** ... and a value that is equal to the left edge of a bin may be counted in the bin before. *)
Theorem C63_wrong_bin_refuted : exists edges count,
  linspace_edges type_int 0 49 7 = Ok edges /\ edges = [0; 7; 14; 21; 28; 35; 42; 49] /\
  histogram_between type_int 0 Z.add (fun c => c) Z.sub (fun n => n) Z.mul Z.div simple_algos [7] 7 [1] 0 49 false = Ok count /\
  ~ is_histogram 0 Z.add Z.ltb edges [7] [1] count.
Proof. exact wrong_bin_lemma. Qed.
Print Assumptions C63_wrong_bin_refuted.

(** For integers the counts are not those of the edges that histogram_bin_edges returns. *)
Theorem C63_int_edges_refuted : exists edges count,
  linspace_edges type_int 0 10 4 = Ok edges /\ edges = [0; 2; 5; 7; 10] /\
  histogram_between type_int 0 Z.add (fun c => c) Z.sub (fun n => n) Z.mul Z.div simple_algos [2] 4 [1] 0 10 false = Ok count /\
  ~ is_histogram 0 Z.add Z.ltb edges [2] [1] count.
Proof. exact int_edges_lemma. Qed.
Print Assumptions C63_int_edges_refuted.

(** C63: the integral of a density over the edges is one, for weights one and if every item is
    between the first and the last edge, in exact arithmetic. *)
Theorem C63_density_partial : forall (lo hi : Q) (a : algos) (data edges : list Q) (first last : Q),
  std_ok a -> (2 <= length edges)%nat -> increasing q_lt edges ->
  nth_error edges 0 = Some first -> nth_error edges (length edges - 1) = Some last -> data <> [] -> Forall (fun x => (first <= x <= last)%Q) data ->
  exists probs, histogram_edges (type_exact lo hi) 0 Z.add inject_Z Qminus inject_Z Qmult Qdiv a data edges (repeat 1 (length data)) true = Ok probs /\
    length probs = (length edges - 1)%nat /\ (integral probs edges == 1)%Q.
Proof. exact density_lemma. Qed.
Print Assumptions C63_density_partial.

Example C63_case_density : increasing q_lt [0%Q; 1%Q; 4%Q] /\ Forall (fun x => (0 <= x <= 4)%Q) [4%Q; 3%Q; (1#2); 0%Q] /\
  exists probs, histogram_edges (type_exact 0 9) 0 Z.add inject_Z Qminus inject_Z Qmult Qdiv simple_algos [4%Q; 3%Q; (1#2); 0%Q] [0%Q; 1%Q; 4%Q] (repeat 1 4) true = Ok probs /\
    map Qred probs = [1 # 2; 1 # 6]%Q.
Proof. split; [repeat constructor|]. split; [repeat constructor; discriminate|]. eexists. split; vm_compute; reflexivity. Qed.

(** ... it is not with other weights, or with items outside of the edges. *)
Theorem C63_density_weights_refuted : exists probs,
  histogram_edges (type_exact 0 9) 0%Q Qplus (fun w => w) Qminus inject_Z Qmult Qdiv simple_algos [1%Q; 2%Q] [0%Q; 2%Q; 4%Q] [3%Q; 1%Q] true = Ok probs /\
  (integral probs [0%Q; 2%Q; 4%Q] == 2)%Q.
Proof. exact density_weights_lemma. Qed.
Print Assumptions C63_density_weights_refuted.
Theorem C63_density_outside_refuted : exists probs,
  histogram_edges (type_exact 0 9) 0 Z.add inject_Z Qminus inject_Z Qmult Qdiv simple_algos [1%Q; 2%Q; 7%Q; 8%Q] [0%Q; 2%Q; 4%Q] [1; 1; 1; 1] true = Ok probs /\
  (integral probs [0%Q; 2%Q; 4%Q] == 1 # 2)%Q.
Proof. exact density_outside_lemma. Qed.
Print Assumptions C63_density_outside_refuted.

(** C63: digitize(data, edges, right) gives, for every element of a row major array whose
    last extent is not one, the number of edges that are not greater than it or,
    with right, that are less than it. *)
Theorem C63_digitize_partial : forall (V : Type) (fresh : list Z -> Z -> list Z) (n1 : nat) (lt : V -> V -> bool) (data : cont V) (edges : list V) (ev : list Z -> V) (right : bool),
  resizes fresh -> consistent data -> documented data -> ct_layout data = row_major -> one_argument (ct_shape data) ->
  (forall jx, in_bounds (ct_shape data) jx -> elt data jx = Ok (ev jx)) ->
  sorted lt edges -> strict_weak_order lt (ct_data data ++ edges) ->
  exists out, digitize row_major fresh n1 lt data edges right = Ok out /\ consistent out /\ ct_shape out = ct_shape data /\
    forall ix, in_bounds (ct_shape data) ix -> exists k, elt out ix = Ok k /\ 0 <= k <= Z.of_nat (length edges) /\
      forall i e, nth_error edges i = Some e -> (Z.of_nat i < k <-> if right then lt e (ev ix) = true else lt (ev ix) e = false).
Proof. exact (@digitize_lemma). Qed.
Print Assumptions C63_digitize_partial.

Example C63_case_digitize : consistent rows /\ documented rows /\ ct_layout rows = row_major /\ one_argument (ct_shape rows) /\ sorted Z.ltb [1; 4; 6] /\
  (let* r := digitize row_major fill_fresh 0 Z.ltb rows [1; 4; 6] false in Ok (ct_data r)) = Ok [1; 1; 1; 3; 2; 2] /\
  (let* r := digitize row_major fill_fresh 0 Z.ltb rows [1; 4; 6] true in Ok (ct_data r)) = Ok [1; 0; 1; 2; 2; 1].
Proof.
  destruct rows_ok as (A & B & C & D & E & F). split; [exact A|]. split; [exact B|]. split; [reflexivity|]. split; [left; cbn; lia|].
  split; [repeat constructor|]. split; vm_compute; reflexivity.
Qed.

(** C64: bincount(data, weights, minlength) of non-negative integers has the larger of
    minlength and the largest item plus one elements, and the element x is the sum of the weights
    of the items equal to x, added in their order. *)
Theorem C64_bincount : forall (W : Type) (zero : W) (add : W -> W -> W) (lowest highest most : Z) (data : list Z) (weights : list W) (minlength : Z),
  lowest < 0 -> highest < 2 ^ 63 -> data <> [] -> Forall (fun x => 0 <= x < highest) data -> length weights = length data ->
  0 <= minlength <= most -> Forall (fun x => x < most) data ->
  exists count, bincount zero add lowest highest most data weights minlength = Ok count /\
    (exists top, In top data /\ Forall (fun x => x <= top) data /\ Z.of_nat (length count) = Z.max minlength (top + 1)) /\
    forall x c, nth_error count x = Some c -> c = fold_left add (weights_of data weights (Z.of_nat x)) zero.
Proof. intros W zero add lowest highest most data weights minlength Hl Hh. exact (bincount_lemma zero add lowest highest most Hl Hh data weights minlength). Qed.
Print Assumptions C64_bincount.

Theorem C64_bincount_negative : forall (W : Type) (zero : W) (add : W -> W -> W) (lowest highest most : Z) (data : list Z) (weights : list W) (minlength : Z),
  Exists (fun x => x < 0) data -> bincount zero add lowest highest most data weights minlength = Throw runtime_error.
Proof. intros W zero add lowest highest most. exact (bincount_negative zero add lowest highest most). Qed.
Print Assumptions C64_bincount_negative.

Example C64_case_bincount : bincount 0 Z.add (-128) 127 1000 [3; 0; 3; 1] [1; 10; 100; 1000] 6 = Ok [10; 1000; 0; 101; 0; 0] /\
  bincount 0 Z.add (-128) 127 1000 [3; -1] [1; 1] 0 = Throw runtime_error.
Proof. split; vm_compute; reflexivity. Qed.

(** C64 is false of no data, where numpy gives minlength zeros. *)
Theorem C64_bincount_empty_refuted : bincount 0 Z.add (- 2 ^ 31) (2 ^ 31 - 1) (2 ^ 60) [] [] 0 = Throw bad_alloc.
Proof. exact bincount_empty_lemma. Qed.
Print Assumptions C64_bincount_empty_refuted.

(** C64: histogram_bin_edges with the mode uniform, with weights one and at least as many
    items as bins, in exact arithmetic of the weights: between the given ends the edge b is the
    item of the sorted data that has b / bins of the items before it, rounded up. *)
Theorem C64_uniform_partial : forall (A : arith) (T : vtype A) (a : algos) (data junk : list (val T)) (left right : val T) (bins : nat),
  std_ok a -> strict_weak_order (v_lt T) data -> (1 <= bins <= length data)%nat -> length junk = S bins ->
  exists edges ws,
    uniform_edges T 0%Q Qplus a Qdiv inject_Z (fun x y => Qle_bool y x) junk data (repeat 1%Q (length data)) left right bins = Ok edges /\
    length edges = S bins /\ Permutation ws data /\ sorted (v_lt T) ws /\
    nth_error edges 0 = Some left /\ nth_error edges bins = Some right /\
    forall b, (0 < b < bins)%nat -> exists x, nth_error edges b = Some x /\ nth_error ws (Nat.div (b * length data + (bins - 1)) bins) = Some x.
Proof. intros A T a data junk left right bins. exact (uniform_lemma T a data junk left right bins). Qed.
Print Assumptions C64_uniform_partial.

Example C64_case_uniform : strict_weak_order (v_lt type_int) [50; 10; 30; 20; 40] /\
  uniform_edges type_int 0%Q Qplus simple_algos Qdiv inject_Z (fun x y => Qle_bool y x) [0; 0; 0; 0] [50; 10; 30; 20; 40] (repeat 1%Q 5) 10 50 3 = Ok [10; 30; 50; 50].
Proof. split; [exact (zlt_swo _)|vm_compute; reflexivity]. Qed.

(** ... the default weights of integers are integers: seven items in four bins are read and
    written out of bounds, and edges of more bins than items are never written. *)
Theorem C64_uniform_refuted :
  uniform_edges type_int 0 Z.add simple_algos Z.quot (fun n => n) (fun x y => y <=? x) [0; 0; 0; 0; 0] [0; 1; 2; 3; 4; 5; 6] [1; 1; 1; 1; 1; 1; 1] 0 6 4 = UB.
Proof. exact uniform_read_lemma. Qed.
Print Assumptions C64_uniform_refuted.
Theorem C64_uniform_few_refuted : forall junk1 junk2 junk3 junk4 : Z, exists e,
  uniform_edges type_int 0 Z.add simple_algos Z.quot (fun n => n) (fun x y => y <=? x) [0; junk1; junk2; junk3; junk4; 0] [3; 8] [5; 5] 3 8 5 = Ok e /\ nth_error e 4 = Some junk4.
Proof. exact uniform_few_lemma. Qed.
Print Assumptions C64_uniform_few_refuted.

(** C64: bin_items(N, weights) spreads N items over the bins: the counts are not
    negative, they add up to N, and each is within one of N times the share of its weight; in
    exact arithmetic. *)
Theorem C64_bin_items_partial : forall (a : algos) (N : Z) (weights : list Q),
  std_ok a -> weights <> [] -> Forall (fun w => (0 <= w)%Q) weights -> (0 < qsum weights)%Q -> 0 <= N -> N + Z.of_nat (length weights) < 2 ^ 63 ->
  exists counts, bin_items exact a N weights = Ok counts /\ length counts = length weights /\ zsum counts = N /\ Forall (fun c => 0 <= c) counts /\
    forall i w c, nth_error weights i = Some w -> nth_error counts i = Some c ->
      (inject_Z N * w / qsum weights - 1 <= inject_Z c /\ inject_Z c < inject_Z N * w / qsum weights + 1)%Q.
Proof. exact bin_items_lemma. Qed.
Print Assumptions C64_bin_items_partial.

Example C64_case_bin_items : Forall (fun w => (0 <= w)%Q) [1%Q; 0%Q; 5%Q; 3%Q; 2%Q] /\ bin_items exact simple_algos 10 [1%Q; 0%Q; 5%Q; 3%Q; 2%Q] = Ok [1; 0; 4; 3; 2].
Proof. split; [repeat constructor; discriminate|vm_compute; reflexivity]. Qed.

(** ... in double arithmetic they do not add up to N. *)
Theorem C64_bin_items_refuted : exists counts, bin_items binary64 simple_algos (2 ^ 53 + 1) [f_of 1; f_of 1] = Ok counts /\ zsum counts <> 2 ^ 53 + 1.
Proof. exact bin_items_rounding_lemma. Qed.
Print Assumptions C64_bin_items_refuted.
