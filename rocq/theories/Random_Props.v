(** Properties C65 and C66: random reordering and random samples. *)
From Coq Require Import List ZArith QArith Bool Lia Permutation Sorted Factorial.
From Verif Require Import Prelude Strides_Model Strides_Spec Container_Model Container_Spec Container_Proofs Reduce_Spec Sort_Spec Sort9_Proofs
  Random_Model Random_Spec Random_Proofs Random2_Proofs Random3_Proofs Random4_Proofs.
Import ListNotations.
Open Scope Z_scope.

(** C65: shuffle(e) of an expression with one dimension, whose elements are at any
    distinct positions of some memory: whatever the engine draws, the elements are the same
    in some order, and nothing else in the memory changes. *)
Theorem C65_one_dimension : forall (G V : Type) (uniform : Z -> G -> Z * G) (pos : list Z) (mem l : list V) (g : G),
  in_range uniform -> NoDup pos -> shows pos mem l -> (1 <= length l)%nat -> Z.of_nat (length l) < 2 ^ 64 ->
  exists mem' l' g', shuffle1 uniform pos mem g = Ok (mem', g') /\ shows pos mem' l' /\ Permutation l' l /\
    length mem' = length mem /\ forall p, ~ In (Z.of_nat p) pos -> nth_error mem' p = nth_error mem p.
Proof. intros G V uniform pos mem l g Hu. exact (shuffle1_lemma uniform Hu pos mem l g). Qed.
Print Assumptions C65_one_dimension.

Example C65_case_one_dimension : in_range lcg /\ NoDup [6; 4; 2; 0] /\ shows [6; 4; 2; 0] [10; 11; 12; 13; 14; 15; 16] [16; 14; 12; 10] /\
  shuffle1 lcg [6; 4; 2; 0] [10; 11; 12; 13; 14; 15; 16] 5 = Ok ([14; 11; 10; 13; 12; 15; 16], 14).
Proof. split; [exact lcg_in_range|]. split; [repeat constructor; cbn; lia|]. split; [repeat (apply Forall2_cons; [split; [lia|reflexivity]|]); apply Forall2_nil|vm_compute; reflexivity]. Qed.

(** C65: every order of the elements comes from exactly one of the sequences of numbers
    that can be drawn: with uniform draws every order is equally likely. *)
Theorem C65_every_order : forall (V : Type) (l p : list V),
  (1 <= length l)%nat -> Z.of_nat (length l) < 2 ^ 64 -> NoDup l -> Permutation p l ->
  exists! ds, countdown (length l - 1) ds /\ shuffle1 scripted (upto (length l)) l ds = Ok (p, []).
Proof. exact @shuffle_uniform_lemma. Qed.
Print Assumptions C65_every_order.

Example C65_case_every_order : NoDup [5; 6; 7; 8] /\ Permutation [7; 5; 8; 6] [5; 6; 7; 8] /\ countdown 3 [(3, 1); (2, 1); (1, 0)] /\
  shuffle1 scripted (upto 4) [5; 6; 7; 8] [(3, 1); (2, 1); (1, 0)] = Ok ([7; 5; 8; 6], []).
Proof.
  split; [repeat constructor; cbn; lia|]. split; [|split; [cbn; lia|vm_compute; reflexivity]].
  apply NoDup_Permutation; [repeat constructor; cbn; lia|repeat constructor; cbn; lia|]. intros x. cbn. lia.
Qed.

(** C65: shuffle(a) of a container with any number of dimensions, at least one, and at least
    one row: the rows along the first axis are the same in the order that a shuffle of 0, 1, ...
    by the same engine gives, and each row keeps its elements. *)
Theorem C65_rows : forall (G V : Type) (uniform : Z -> G -> Z * G) (c : cont V) (n0 : Z) (sh' : list Z) (ev : list Z -> V) (g : G),
  in_range uniform -> consistent c -> ct_shape c = n0 :: sh' -> 1 <= n0 < 2 ^ 64 ->
  (forall jx, in_bounds (ct_shape c) jx -> elt c jx = Ok (ev jx)) ->
  exists c' sigma g', shuffle uniform c g = Ok (c', g') /\ consistent c' /\ ct_shape c' = ct_shape c /\
    shuffle1 uniform (upto (Z.to_nat n0)) (upto (Z.to_nat n0)) g = Ok (sigma, g') /\ Permutation sigma (upto (Z.to_nat n0)) /\
    forall i s ix, nth_error sigma (Z.to_nat i) = Some s -> 0 <= i -> in_bounds sh' ix -> elt c' (i :: ix) = Ok (ev (s :: ix)).
Proof. intros G V uniform c n0 sh' ev g Hu Hc Hs Hn He. refine (shuffle_lemma uniform c n0 sh' _ _ _ ev g Hn He); assumption. Qed.
Print Assumptions C65_rows.

Example C65_case_rows : consistent rows /\ ct_shape rows = 2 :: [3] /\ (forall jx, in_bounds (ct_shape rows) jx -> elt rows jx = Ok (ev_of rows jx)) /\
  exists c', shuffle lcg rows 4 = Ok (c', 23) /\ elt c' [0; 0] = Ok 6 /\ elt c' [1; 2] = Ok 2.
Proof. destruct rows_ok as (H1 & _ & _ & _ & H2 & _). split; [exact H1|]. split; [reflexivity|]. split; [exact H2|]. eexists. split; [vm_compute; reflexivity|]. split; reflexivity. Qed.

(** C65: permutation(n) of a positive number is 0, 1, ..., n - 1 in some order. *)
Theorem C65_permutation : forall (G : Type) (uniform : Z -> G -> Z * G) (e : Z) (g : G), in_range uniform -> 1 <= e < 2 ^ 63 ->
  exists l g', permutation_int uniform e g = Ok (l, g') /\ Permutation l (upto (Z.to_nat e)).
Proof. exact @permutation_int_lemma. Qed.
Print Assumptions C65_permutation.

Example C65_case_permutation : permutation_int lcg 5 3 = Ok ([1; 0; 4; 2; 3], 39).
Proof. vm_compute. reflexivity. Qed.

(** C65: permutation(a) of a container with one dimension leaves it as it is and gives its
    elements in some order. *)
Theorem C65_permutation_container : forall (G V : Type) (uniform : Z -> G -> Z * G) (data : list V) (g : G),
  in_range uniform -> (1 <= length data)%nat -> Z.of_nat (length data) < 2 ^ 64 ->
  exists l g', permutation_container uniform data g = Ok (data, l, g') /\ Permutation l data.
Proof. exact @permutation_container_lemma. Qed.
Print Assumptions C65_permutation_container.

Example C65_case_permutation_container : permutation_container lcg [20; 21; 22] 5 = Ok ([20; 21; 22], [21; 20; 22], 15).
Proof. vm_compute. reflexivity. Qed.

(** C65 is false for permutation(v) of a view: the result refers to the memory of the
    argument, which is shuffled. *)
Theorem C65_permutation_view_refuted :
  ~ (forall (uniform : Z -> Z -> Z * Z) pos (mem l mem' res : list Z) g g', in_range uniform -> NoDup pos -> shows pos mem l -> (1 <= length l)%nat ->
       permutation_view uniform pos mem g = Ok (mem', res, g') -> shows pos mem' l).
Proof. exact permutation_view_false. Qed.
Print Assumptions C65_permutation_view_refuted.

(** C65 is false for expressions with no element: the shuffle reads and writes outside of
    the memory, also for permutation(0) and permutation(n) of a negative number. *)
Theorem C65_empty_refuted : forall (G V : Type) (uniform : Z -> G -> Z * G) (mem : list V) (g : G),
  shuffle1 uniform [] mem g = UB /\ forall e, e <= 0 -> permutation_int uniform e g = UB.
Proof. intros G V uniform mem g. split; [apply shuffle_empty_lemma|]. intros e. apply permutation_int_empty. Qed.
Print Assumptions C65_empty_refuted.

(** Likewise for a container whose first extent is 0. *)
Theorem C65_no_rows_refuted : forall (G V : Type) (uniform : Z -> G -> Z * G) (c : cont V) (sh' : list Z) (g : G),
  consistent c -> ct_shape c = 0 :: sh' -> row_indices sh' <> [] -> shuffle uniform c g = UB.
Proof. exact @no_rows_lemma. Qed.
Print Assumptions C65_no_rows_refuted.

Example C65_case_no_rows : consistent no_rows /\ ct_shape no_rows = 0 :: [2] /\ row_indices [2] <> [].
Proof. split; [exact no_rows_ok|]. split; [reflexivity|discriminate]. Qed.

(** C66: choice(a, n, true) of a container with one dimension: n of its elements. *)
Theorem C66_replace : forall (G V : Type) (uniform : Z -> G -> Z * G) (data junk : list V) (n : nat) (g : G),
  in_range uniform -> (1 <= length data)%nat -> Z.of_nat (length data) < 2 ^ 64 -> length junk = n ->
  exists result g', choice uniform data (Z.of_nat (length data)) n true junk g = Ok (result, g') /\
    length result = n /\ Forall (fun x => In x data) result.
Proof. exact @choice_replace_lemma. Qed.
Print Assumptions C66_replace.

Example C66_case_replace : choice lcg [7; 8; 9] 3 5 true [0; 0; 0; 0; 0] 1 = Ok ([8; 9; 8; 9; 9], 28).
Proof. vm_compute. reflexivity. Qed.

(** C66: choice(a, n, true): the k-th number drawn, between 0 and the number of elements minus one, is the
    position of the k-th element of the sample. *)
Theorem C66_replace_draws : forall (V : Type) (data junk : list V) (ds : list Z),
  Z.of_nat (length data) < 2 ^ 64 -> Forall (fun d => 0 <= d < Z.of_nat (length data)) ds -> length junk = length ds ->
  exists result, choice scripted data (Z.of_nat (length data)) (length ds) true junk (map (fun d => (Z.of_nat (length data) - 1, d)) ds) = Ok (result, []) /\ shows ds data result.
Proof. exact @choice_scripted_lemma. Qed.
Print Assumptions C66_replace_draws.

Example C66_case_replace_draws : choice scripted [7; 8; 9] 3 4 true [0; 0; 0; 0] [(2, 2); (2, 0); (2, 2); (2, 1)] = Ok ([9; 7; 9; 8], []).
Proof. vm_compute. reflexivity. Qed.

(** C66: choice(a, n, false) of a container with one dimension and at least n elements: n of its elements at
    n different positions. *)
Theorem C66_distinct : forall (G V : Type) (uniform : Z -> G -> Z * G) (data junk : list V) (n : nat) (g : G),
  in_range uniform -> (n <= length data)%nat -> length junk = n ->
  exists result idx g', choice uniform data (Z.of_nat (length data)) n false junk g = Ok (result, g') /\ length result = n /\
    NoDup idx /\ Forall (fun p => 0 <= p < Z.of_nat (length data)) idx /\ shows idx data result.
Proof. intros G V uniform data junk n g. exact (choice_distinct_lemma uniform data junk (Z.of_nat (length data)) n g). Qed.
Print Assumptions C66_distinct.

Example C66_case_distinct : choice lcg [7; 8; 9; 10; 11] 5 3 false [0; 0; 0] 4 = Ok ([10; 8; 9], 54).
Proof. vm_compute. reflexivity. Qed.

(** C66: each set of n elements comes from the same number, (N - n)!, of the sequences of
    numbers that can be drawn: with uniform draws every such set is equally likely. *)
Theorem C66_every_sample : forall (data junk s : list Z) (n : nat),
  NoDup data -> (n <= length data)%nat -> length junk = n -> NoDup s -> length s = n -> incl s data ->
  length (filter (fun ds => match choice scripted data (Z.of_nat (length data)) n false junk ds with Ok (r, _) => same_elements r s | _ => false end)
            (all_draws n (length data - n))) = fact (length data - n).
Proof. exact choice_uniform_lemma. Qed.
Print Assumptions C66_every_sample.

Example C66_case_every_sample : NoDup [5; 6; 7; 8] /\ NoDup [8; 6] /\ incl [8; 6] [5; 6; 7; 8] /\ length (all_draws 2 2) = 12%nat /\
  choice scripted [5; 6; 7; 8] 4 2 false [0; 0] [(2, 2); (3, 0)] = Ok ([8; 6], []).
Proof. split; [repeat constructor; cbn; lia|]. split; [repeat constructor; cbn; lia|]. split; [intros x; cbn; lia|]. split; vm_compute; reflexivity. Qed.

(** C66 is false for a view: the sample is taken from the first elements of the array that
    the view refers to. For a view of m different elements from position o >= m on, no element of
    the sample is an element of the view. *)
Theorem C66_view_refuted : forall (G V : Type) (uniform : Z -> G -> Z * G) (storage junk : list V) (o m n : nat) (g : G),
  in_range uniform -> NoDup storage -> (1 <= m <= o)%nat -> (o + m <= length storage)%nat -> Z.of_nat m < 2 ^ 64 -> length junk = n ->
  exists result g', choice uniform storage (Z.of_nat m) n true junk g = Ok (result, g') /\ length result = n /\
    forall x, In x result -> ~ In x (firstn m (skipn o storage)).
Proof. intros G V uniform. exact (choice_view_lemma uniform). Qed.
Print Assumptions C66_view_refuted.

Example C66_case_view : NoDup [0; 1; 2; 3; 4; 5] /\ firstn 2 (skipn 3 [0; 1; 2; 3; 4; 5]) = [3; 4] /\
  choice lcg [0; 1; 2; 3; 4; 5] 2 3 true [9; 9; 9] 4 = Ok ([0; 1; 0], 17).
Proof. split; [repeat constructor; cbn; lia|]. split; [reflexivity|vm_compute; reflexivity]. Qed.

(** C66 is false for a sample with replacement of an empty container: it reads outside. *)
Theorem C66_empty_refuted : forall (G V : Type) (uniform : Z -> G -> Z * G) (n : nat) (junk : list V) (g : G),
  (1 <= n)%nat -> choice uniform [] 0 n true junk g = UB.
Proof. intros G V uniform. exact (choice_empty_lemma uniform). Qed.
Print Assumptions C66_empty_refuted.

(** C66: choice(a, n, weights, true) in exact arithmetic, for weights that are not negative and not
    all zero: for a fraction f of the total weight, the element whose weight covers
    it: the weights before it sum up to at most f times the total, with it to more. *)
Theorem C66_weights_replace_partial : forall (V : Type) (data : list V) (n : nat) (ws : list Q) (junk : list V) (fs : list Q),
  Forall (fun w => (0 <= w)%Q) ws -> (0 < total ws)%Q -> length data = length ws -> Z.of_nat (length ws) < 2 ^ 64 ->
  length fs = n -> Forall (fun f => (0 <= f < 1)%Q) fs -> length junk = n ->
  exists result idx, choice_replace qltb Qplus fractions data n ws junk fs = Ok (result, []) /\
    Forall2 (fun f i => (total (firstn i ws) <= f * total ws < total (firstn (S i) ws))%Q) fs idx /\
    Forall2 (fun i x => nth_error data i = Some x) idx result.
Proof. intros V. exact weighted_lemma. Qed.
Print Assumptions C66_weights_replace_partial.

Example C66_case_weights_replace : Forall (fun w => (0 <= w)%Q) [0; 1; 0; 3]%Q /\ (0 < total [0; 1; 0; 3])%Q /\ Forall (fun f => (0 <= f < 1)%Q) [0; 1 # 4; 1 # 5]%Q /\
  choice_replace qltb Qplus fractions [10; 11; 12; 13] 3 [0; 1; 0; 3]%Q [0; 0; 0] [0; 1 # 4; 1 # 5]%Q = Ok ([11; 13; 11], []).
Proof. split; [repeat constructor; discriminate|]. split; [reflexivity|]. split; [repeat constructor; discriminate|vm_compute; reflexivity]. Qed.

(** When all the weights are zero it reads outside of the container. *)
Theorem C66_weights_zero_refuted : forall (V : Type) (data : list V) (n : nat) (ws : list Q) (junk : list V) (g : list Q),
  Forall (fun w => (w == 0)%Q) ws -> length data = length ws -> (1 <= n)%nat -> choice_replace qltb Qplus fractions data n ws junk g = UB.
Proof. exact @weighted_zero. Qed.
Print Assumptions C66_weights_zero_refuted.

(** C66: choice(a, n, weights, false) in exact arithmetic, with exponentially distributed numbers xs: the n
    elements at different positions with the largest w / x, in decreasing order of it. *)
Theorem C66_weights_distinct_partial : forall (ps : (Z -> Z -> bool) -> nat -> list Z -> list Z) (V : Type) (data : list V) (n : nat) (ws xs : list Q),
  partial_sort_ok ps -> length data = length ws -> length xs = length ws -> (n <= length ws)%nat ->
  exists result idx, choice_distinct qltb Qdiv numbers ps data n ws xs = Ok (result, []) /\ length idx = n /\ NoDup idx /\
    Forall (fun p => 0 <= p < Z.of_nat (length data)) idx /\ shows idx data result /\
    StronglySorted (fun i j => (nth (Z.to_nat j) ws 0 / nth (Z.to_nat j) xs 0 <= nth (Z.to_nat i) ws 0 / nth (Z.to_nat i) xs 0)%Q) idx /\
    (forall i j, In i idx -> ~ In j idx -> 0 <= j < Z.of_nat (length data) ->
       (nth (Z.to_nat j) ws 0 / nth (Z.to_nat j) xs 0 <= nth (Z.to_nat i) ws 0 / nth (Z.to_nat i) xs 0)%Q).
Proof. intros ps V. exact (distinct_lemma ps). Qed.
Print Assumptions C66_weights_distinct_partial.

Example C66_case_weights_distinct : partial_sort_ok full_sort /\
  choice_distinct qltb Qdiv numbers full_sort [10; 11; 12; 13] 2 [1; 2; 0; 3]%Q [1 # 4; 1; 1 # 9; 1 # 2]%Q = Ok ([13; 10], []).
Proof. split; [exact full_sort_ok|vm_compute; reflexivity]. Qed.

(** So when at least n weights are positive, only elements of positive weight are chosen. *)
Theorem C66_weights_positive_partial : forall (ps : (Z -> Z -> bool) -> nat -> list Z -> list Z) (data : list Z) (n : nat) (ws xs : list Q),
  partial_sort_ok ps -> length data = length ws -> length xs = length ws -> Forall (fun w => (0 <= w)%Q) ws -> Forall (fun x => (0 < x)%Q) xs ->
  (n <= length (filter (qltb 0) ws))%nat ->
  exists result idx, choice_distinct qltb Qdiv numbers ps data n ws xs = Ok (result, []) /\ shows idx data result /\ NoDup idx /\ length idx = n /\
    Forall (fun i => (0 < nth (Z.to_nat i) ws 0)%Q) idx.
Proof. exact positive_lemma. Qed.
Print Assumptions C66_weights_positive_partial.

Example C66_case_weights_positive : (2 <= length (filter (qltb 0) [1; 2; 0; 3]%Q))%nat /\ Forall (fun x => (0 < x)%Q) [1 # 4; 1; 1 # 9; 1 # 2]%Q.
Proof. split; [vm_compute; lia|repeat constructor]. Qed.
