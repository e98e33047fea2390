(** What sorting means. *)
From Coq Require Import List ZArith Bool Sorted Permutation.
From Verif Require Import Prelude Strides_Model Strides_Spec Container_Model Container_Spec Sort_Model.
Import ListNotations.
Open Scope Z_scope.

(** [lt] is a strict weak order on the elements of [l]: what the standard requires
    of a comparison (operator< on numbers that are not NaN). *)
Definition strict_weak_order {A} (lt : A -> A -> bool) (l : list A) : Prop :=
  (forall x, In x l -> lt x x = false) /\
  (forall x y z, In x l -> In y l -> In z l -> lt x y = true -> lt y z = true -> lt x z = true) /\
  (forall x y z, In x l -> In y l -> In z l ->
     lt x y = false -> lt y x = false -> lt y z = false -> lt z y = false -> lt x z = false /\ lt z x = false).

(** No element is less than an earlier one. *)
Definition sorted {A} (lt : A -> A -> bool) (l : list A) : Prop := StronglySorted (fun x y => lt y x = false) l.

(** [x] and [y] are equivalent in the order. *)
Definition equiv {A} (lt : A -> A -> bool) (x y : A) : bool := negb (lt x y) && negb (lt y x).

(** No element from position k on is less than one before it. *)
Definition parted {A} (lt : A -> A -> bool) (k : nat) (l : list A) : Prop :=
  forall x y, In x (firstn k l) -> In y (skipn k l) -> lt y x = false.

(** What the C++ standard says of the three algorithms ([alg.sort], [alg.nth.element]). *)
Definition std_ok (a : algos) : Prop :=
  (forall A lt l, strict_weak_order lt l -> Permutation l (std_sort a A lt l) /\ sorted lt (std_sort a A lt l)) /\
  (forall A lt l, strict_weak_order lt l -> Permutation l (std_stable_sort a A lt l) /\ sorted lt (std_stable_sort a A lt l) /\
     forall x, In x l -> filter (equiv lt x) (std_stable_sort a A lt l) = filter (equiv lt x) l) /\
  (forall A lt l k, strict_weak_order lt l -> (k < length l)%nat ->
     Permutation l (std_nth_element a A lt l k) /\ parted lt k (std_nth_element a A lt l k) /\
     parted lt (S k) (std_nth_element a A lt l k)).

(** The lane of an array of elements [ev] along [axis], of extent [n], through the
    index [ix] (whose component on the axis does not matter). *)
Definition lane {V} (ev : list Z -> V) (axis : nat) (n : Z) (ix : list Z) : list V :=
  map (fun k => ev (upd ix axis (Z.of_nat k))) (seq 0 (Z.to_nat n)).

(** [c] is an array of shape [sh] with elements [ev]. *)
Definition array {V} (c : cont V) (sh : list Z) (ev : list Z -> V) : Prop :=
  consistent c /\ ct_shape c = sh /\ forall jx, in_bounds sh jx -> elt c jx = Ok (ev jx).

(** A possibly negative axis. *)
Definition the_axis (dim : nat) (axis : Z) : nat := Z.to_nat (axis mod Z.of_nat dim).
Definition valid_axis (dim : nat) (axis : Z) : Prop := - Z.of_nat dim <= axis < Z.of_nat dim.

(** The element at position k is where it would be in the sorted sequence: nothing
    before it is greater and nothing after it is less. *)
Definition in_place {A} (lt : A -> A -> bool) (k : nat) (l : list A) : Prop :=
  forall x, nth_error l k = Some x ->
    (forall i y, (i < k)%nat -> nth_error l i = Some y -> lt x y = false) /\
    (forall i y, (k < i)%nat -> nth_error l i = Some y -> lt y x = false).

(** Index of the first smallest element. *)
Definition first_min {A} (lt : A -> A -> bool) (l : list A) (i : Z) : Prop :=
  0 <= i < Z.of_nat (length l) /\
  forall x, nth_error l (Z.to_nat i) = Some x ->
    (forall j y, nth_error l j = Some y -> lt y x = false) /\
    (forall j y, (j < Z.to_nat i)%nat -> nth_error l j = Some y -> lt x y = true).

(** [idx] lists every position of [vals] once, and [ws] are the values there. *)
Definition picks {A} (vals : list A) (idx : list Z) (ws : list A) : Prop :=
  Permutation idx (map Z.of_nat (seq 0 (length vals))) /\
  Forall2 (fun i w => nth_error vals (Z.to_nat i) = Some w) idx ws.

(** Sorting by indices, and with equivalent elements in their original order. *)
Definition sorts {A} (lt : A -> A -> bool) (vals : list A) (idx : list Z) : Prop :=
  exists ws, picks vals idx ws /\ sorted lt ws.
Definition keeps_order {A} (lt : A -> A -> bool) (vals : list A) (idx : list Z) : Prop :=
  forall p q i j x y, (p < q)%nat -> nth_error idx p = Some i -> nth_error idx q = Some j ->
    nth_error vals (Z.to_nat i) = Some x -> nth_error vals (Z.to_nat j) = Some y -> equiv lt x y = true -> i < j.

(** Each element is less than every later one. *)
Definition increasing {A} (lt : A -> A -> bool) (l : list A) : Prop := StronglySorted (fun x y => lt x y = true) l.

(** An index, or a shape, without one axis. *)
Definition without_axis (axis : nat) (s : list Z) : list Z := firstn axis s ++ skipn (S axis) s.

(** The type of the array: a static layout [SL], which is that of the array, or an
    xarray (no fixed number of dimensions, [n0] = 0) of dynamic layout holding an
    array of the default layout [DL]. *)
Definition sort_type {V} (SL DL : layout) (n0 : nat) (c : cont V) : Prop :=
  SL = ct_layout c \/ (SL = dynamic /\ DL = ct_layout c /\ n0 = 0%nat).

(** A row major array for which an access with one argument reaches every element. *)
Definition one_argument (sh : list Z) : Prop := last sh 0 <> 1 \/ prod sh <= 1.
