(** Property C49: membership and insertion points. *)
From Coq Require Import List ZArith Bool Lia.
From Verif Require Import Prelude Strides_Model Strides_Spec Container_Model Container_Spec Container_Proofs Semantic_Spec Reduce15_Proofs
  Accum_Spec Accum3_Proofs Sort_Model Sort_Spec Sort5_Proofs Sort9_Proofs SetOp_Model SetOp_Spec SetOp_Proofs.
Import ListNotations.
Open Scope Z_scope.

(** C49: isin(e, test_elements) is true of an element exactly if it is equal to one
    of the test elements. *)
Theorem C49_isin : forall (V : Type) (eqb : V -> V -> bool) (test_elements : list V) (t : V),
  isin eqb test_elements t = true <-> exists y, In y test_elements /\ eqb y t = true.
Proof. exact (@isin_lemma). Qed.
Print Assumptions C49_isin.

Example C49_case_isin : isin Z.eqb [3; 5] 5 = true /\ isin Z.eqb [3; 5] 4 = false.
Proof. split; reflexivity. Qed.

(** C49: searchsorted(a, v, right) for sorted a and a row major v whose last extent
    is not 1 (or which has at most one element): at every index an insertion point
    of the element of v that keeps the order, the first one if [right] is true, the
    last one if it is false.
    Missing, and refuted below: the documented meaning of [right], other v. *)
Theorem C49_searchsorted_partial : forall (V : Type) (fresh : list Z -> Z -> list Z) (n1 : nat) (lt : V -> V -> bool) (vals : list V) (v : cont V) (ev : list Z -> V) (right : bool),
  resizes fresh -> consistent v -> documented v -> ct_layout v = row_major -> one_argument (ct_shape v) ->
  (forall jx, in_bounds (ct_shape v) jx -> elt v jx = Ok (ev jx)) ->
  sorted lt vals -> strict_weak_order lt (ct_data v ++ vals) ->
  exists out, searchsorted row_major fresh n1 lt vals v right = Ok out /\ consistent out /\ ct_shape out = ct_shape v /\
    forall ix, in_bounds (ct_shape v) ix -> exists k, elt out ix = Ok k /\
      if right then first_suitable lt vals (ev ix) k else last_suitable lt vals (ev ix) k.
Proof. exact (@searchsorted_lemma). Qed.
Print Assumptions C49_searchsorted_partial.

Example C49_case_searchsorted : consistent rows /\ documented rows /\ one_argument (ct_shape rows) /\ sorted Z.ltb [2; 2; 4] /\
  (let* r := searchsorted row_major fill_fresh 0 Z.ltb [2; 2; 4] rows true in Ok (ct_data r)) = Ok [2; 0; 0; 3; 3; 2] /\
  (let* r := searchsorted row_major fill_fresh 0 Z.ltb [2; 2; 4] rows false in Ok (ct_data r)) = Ok [2; 0; 2; 3; 3; 3].
Proof.
  destruct rows_ok as (A & B & C & D & E & F). split; [exact A|]. split; [exact B|]. split; [left; cbn; lia|].
  split; [repeat constructor|]. split; vm_compute; reflexivity.
Qed.

(** C49 refuted: "If false, the index of the first suitable location found is
    given": the first suitable location of 2 in 1, 2, 2, 5 is 1, the result is 3. *)
Theorem C49_searchsorted_side_refuted : exists (v r : cont Z), consistent v /\ documented v /\ ct_layout v = row_major /\ ct_shape v = [1] /\ elt v [0] = Ok 2 /\
  searchsorted row_major fill_fresh 0 Z.ltb [1; 2; 2; 5] v false = Ok r /\ elt r [0] = Ok 3 /\ first_suitable Z.ltb [1; 2; 2; 5] 2 1.
Proof. exact searchsorted_side_lemma. Qed.
Print Assumptions C49_searchsorted_side_refuted.

(** C49 refuted: for values of shape 3x1 only one element of the result is written,
    and for a column major 2x2 array the values are read outside the storage. *)
Theorem C49_searchsorted_unit_refuted : exists (v r : cont Z), consistent v /\ documented v /\ ct_layout v = row_major /\ ct_shape v = [3; 1] /\ ct_data v = [2; 0; 6] /\
  searchsorted row_major fill_fresh 0 Z.ltb [1; 2; 2; 5] v true = Ok r /\ elt r [2; 0] = Ok 77.
Proof. exact searchsorted_unit_lemma. Qed.
Print Assumptions C49_searchsorted_unit_refuted.

Theorem C49_searchsorted_column_refuted : exists v : cont Z, consistent v /\ documented v /\ ct_layout v = column_major /\ ct_shape v = [2; 2] /\
  searchsorted row_major fill_fresh 0 Z.ltb [1; 2; 2; 5] v true = UB.
Proof. exact searchsorted_column_lemma. Qed.
Print Assumptions C49_searchsorted_column_refuted.
