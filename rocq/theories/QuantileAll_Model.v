(** Model of quantile without axis: /repo/include/xtensor/misc/xsort.hpp. *)
From Coq Require Import List ZArith Bool QArith Qcanon.
From Verif Require Import Prelude Strides_Model Access_Model Container_Model Container_Spec Stepper_Model Reduce_Model Reduce_Spec Sort_Model Stats_Model Quantile_Model.
Import ListNotations.
Open Scope Z_scope.

(** misc/xmanipulation.hpp 418-428: ravel<T>(e), a view of one dimension on the elements of e in the order of T.
    Simplification: a container with these elements; that the iterators of e go through them in this order is C11. *)
Definition raveled (T : layout) (e : cont Qc) : res (cont Qc) :=
  let* vals := seqM (map (elt e) (indices_of T (ct_shape e))) in
  let n := Z.of_nat (length vals) in
  Ok (mk_cont [n] [if n =? 1 then 0 else 1] [if n =? 1 then 0 else n - 1] T vals).

Section QuantileAll.
(** As in Quantile_Model; the result of partition is an xtensor of one dimension. *)
Variables (T DL : layout) (fresh : list Qc -> Z -> list Qc) (v0 : Qc) (a : algos).
(** xsort.hpp 954-958: quantile(e, probas, alpha, beta) *)
Definition quantile_all (e : cont Qc) (probas : list Qc) (alpha beta : Qc) : res rexp :=
  let* r := raveled T e in quantile T T DL fresh 1 v0 a r probas 0 alpha beta.
(** xsort.hpp 1072-1076: quantile(e, probas, method) *)
Definition quantile_all_by (e : cont Qc) (probas : list Qc) (m : quantile_method) : res rexp :=
  let* r := raveled T e in quantile_by T T DL fresh 1 v0 a r probas 0 m.
End QuantileAll.
