(** C95: the storage of an array with missing values is a sequence of values with flags. *)
From Coq Require Import List ZArith Bool Arith.
From Verif Require Import Prelude Storage_Model Storage_Spec OStore_Model OStore_Spec OStore_Proofs.
Import ListNotations.
Open Scope nat_scope.

(** Every program on two storages does to them what it does to two sequences, and is undefined exactly if it uses an index out of range; values and flags stay in step. *)
Theorem C95_history : forall V (fv : nat -> list V) fb, (forall n, length (fv n) = n) -> (forall n, length (fb n) = n) ->
  forall p (s t : @OStore_Model.storage V), matched s -> matched t ->
  match does_all (fun n => combine (fv n) (fb n)) (elements s) (elements t) p with
  | Some (a, b) => exists s' t', steps fv fb (s, t) p = Ok (s', t') /\ matched s' /\ matched t' /\ elements s' = a /\ elements t' = b
  | None => steps fv fb (s, t) p = UB
  end.
Proof. exact @steps_ok. Qed.
Print Assumptions C95_history.
(** size, empty, operator[], front and back are those of the sequence. *)
Theorem C95_observers : forall V (s : @OStore_Model.storage V), matched s ->
  os_size s = length (elements s) /\ (os_empty s = true <-> elements s = []) /\
  (forall i, os_get s i = match nth_error (elements s) i with Some x => Ok x | None => UB end) /\
  os_front s = match elements s with x :: _ => Ok x | [] => UB end /\
  os_back s = match rev (elements s) with x :: _ => Ok x | [] => UB end.
Proof.
  intros V s M. pose proof (el_length s M) as E. split; [symmetry; exact E|]. split.
  { unfold os_empty. destruct (elements s), (OStore_Model.values s); cbn in E; split; congruence. }
  split; [intros i; exact (get_ok s i M)|]. split; [|exact (back_ok s M)].
  unfold os_front. rewrite (get_ok s 0 M). destruct (elements s); reflexivity.
Qed.
Print Assumptions C95_observers.
(** The iterators visit the elements in order, and backwards; positions behave as numbers. *)
Theorem C95_iteration : forall V (s : @OStore_Model.storage V), matched s ->
  walk (length (elements s)) s (it_begin s) (it_end s) = Ok (elements s) /\
  walk_back (length (elements s)) s (it_end s) (it_begin s) = Ok (rev (elements s)).
Proof. intros V s M. split; [exact (walk_ok s M)|exact (walk_back_ok s M)]. Qed.
Print Assumptions C95_iteration.
Theorem C95_positions : forall V (s : @OStore_Model.storage V) (a b : Z), matched s ->
  let at_pos n := it_plus (it_begin s) n in
  it_end s = at_pos (Z.of_nat (length (elements s))) /\
  it_diff (at_pos a) (at_pos b) = (a - b)%Z /\ it_plus (at_pos a) b = at_pos (a + b)%Z /\ it_minus (at_pos a) b = at_pos (a - b)%Z /\
  it_next (at_pos a) = at_pos (a + 1)%Z /\ it_prev (at_pos a) = at_pos (a - 1)%Z /\
  (it_eq (at_pos a) (at_pos b) = true <-> a = b) /\ (it_less (at_pos a) (at_pos b) = true <-> (a < b)%Z) /\
  (forall n, it_deref s (at_pos (Z.of_nat n)) = match nth_error (elements s) n with Some x => Ok x | None => UB end) /\
  (forall n, (n < 0)%Z -> it_deref s (at_pos n) = UB).
Proof.
  intros V s a b M at_pos. destruct (move_ok s a b) as (H1 & H2 & H3 & H4 & H5 & H6 & H7).
  split; [exact (end_ok s M)|]. repeat (split; [assumption|]). split; [intros n; exact (deref_ok s n M)|exact (deref_neg s)].
Qed.
Print Assumptions C95_positions.
(** Equality is equality of the sequences. *)
Theorem C95_equality : forall V (eqb : V -> V -> bool) (s t : @OStore_Model.storage V), (forall x y, eqb x y = true <-> x = y) -> matched s -> matched t ->
  (os_eq eqb s t = true <-> elements s = elements t) /\ (os_ne eqb s t = true <-> elements s <> elements t).
Proof.
  intros V eqb s t H Ms Mt. pose proof (eq_ok eqb s t H Ms Mt) as E. split; [exact E|]. unfold os_ne. rewrite negb_true_iff, <- not_true_iff_false, E. reflexivity.
Qed.
Print Assumptions C95_equality.
(** <, >, <= and >= are those of the values in lexicographic order, and false if the flags differ. *)
Theorem C95_order : forall V (lt : V -> V -> Prop) (ltb : V -> V -> bool) (s t : @OStore_Model.storage V), total_order lt ltb ->
  let same := map snd (elements s) = map snd (elements t) in
  let vs := map fst (elements s) in let vt := map fst (elements t) in
  matched s -> matched t ->
  (os_lt ltb s t = true <-> same /\ lexi lt vs vt) /\ (os_gt ltb s t = true <-> same /\ lexi lt vt vs) /\
  (os_le ltb s t = true <-> same /\ (lexi lt vs vt \/ vs = vt)) /\ (os_ge ltb s t = true <-> same /\ (lexi lt vt vs \/ vs = vt)).
Proof. exact @order_ok. Qed.
Print Assumptions C95_order.

(** Two storages that show the same can be unequal, and one less than the other: the values of missing elements count. *)
Theorem C95_hidden_refuted : exists s t : @OStore_Model.storage nat, matched s /\ matched t /\ visible s = visible t /\ os_eq Nat.eqb s t = false /\ os_lt Nat.ltb s t = true.
Proof. exists (mk_storage [1; 2] [true; false]), (mk_storage [1; 3] [true; false]). repeat split. Qed.
Print Assumptions C95_hidden_refuted.
(** The order is not total: storages that differ in a flag are in no relation at all. *)
Theorem C95_total_refuted : exists s t : @OStore_Model.storage nat, matched s /\ matched t /\
  os_eq Nat.eqb s t = false /\ os_lt Nat.ltb s t = false /\ os_gt Nat.ltb s t = false /\ os_le Nat.ltb s t = false /\ os_ge Nat.ltb s t = false.
Proof. exists (mk_storage [1] [true]), (mk_storage [1] [false]). repeat split. Qed.
Print Assumptions C95_total_refuted.
(** Parts of different lengths are accepted by the constructor; the iterators then pass the end of the flags. *)
Theorem C95_lengths_refuted : exists s : @OStore_Model.storage nat, os_size s = 2 /\ walk 2 s (it_begin s) (it_end s) = UB.
Proof. exists (mk_storage [1; 2] [true]). split; reflexivity. Qed.
Print Assumptions C95_lengths_refuted.

Example C95_case_history : let s := mk_storage [1; 2; 3] [true; true; false] in let t := mk_storage [7] [true] in
  matched s /\ matched t /\ steps (repeat 0) (repeat false) (s, t) [Put 2 9 true; Miss 0; Swap; Resize 2; Put 1 5 true] = Ok (mk_storage [0; 5] [false; true], mk_storage [1; 2; 9] [false; true; true]).
Proof. repeat split. Qed.
Example C95_case_order : total_order lt Nat.ltb /\ os_lt Nat.ltb (mk_storage [1; 2] [true; true]) (mk_storage [1; 3] [true; true]) = true.
Proof.
  split; [|reflexivity]. split; [intros x y; apply Nat.ltb_lt|]. split; [apply Nat.lt_irrefl|]. split; [apply Nat.lt_trans|]. intros x y. apply Nat.lt_trichotomy.
Qed.
Example C95_case_iteration : walk 3 (mk_storage [1; 2; 3] [true; true; false]) (mk_iter 0 0) (mk_iter 3 3) = Ok [(1, true); (2, true); (3, false)].
Proof. reflexivity. Qed.
