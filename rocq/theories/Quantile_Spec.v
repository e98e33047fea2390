(** What a quantile of a sample is. *)
From Coq Require Import List ZArith Bool QArith Qcanon Qround.
Import ListNotations.
Open Scope Z_scope.

(** A sample in increasing order *)
Definition increasing (s : list Qc) : Prop := forall i j : nat, (i <= j < length s)%nat -> (nth i s 0 <= nth j s 0)%Qc.

(** The order statistic of rank j, counted from 0; the first and the last of them extend
    beyond the ends of the sample. *)
Definition order_statistic (s : list Qc) (j : Z) : Qc := nth (Z.to_nat (Z.max 0 (Z.min j (Z.of_nat (length s) - 1)))) s 0%Qc.

(** Linear interpolation between the two order statistics around a rational rank. *)
Definition interpolate (s : list Qc) (h : Qc) : Qc :=
  let j := Qfloor h in
  let g := (h - Q2Qc (inject_Z j))%Qc in
  ((1 - g) * order_statistic s j + g * order_statistic s (j + 1))%Qc.

(** The quantile of the sample s for the probability p, with the plotting parameters alpha
    and beta: Hyndman and Fan, Sample quantiles in statistical packages (1996); the rank
    there is counted from 1. *)
Definition sample_quantile (alpha beta : Qc) (s : list Qc) (p : Qc) : Qc :=
  let n := Q2Qc (inject_Z (Z.of_nat (length s))) in
  let m := (alpha + p * (1 - alpha - beta))%Qc in
  interpolate s (p * n + m - 1)%Qc.

(** The methods of Hyndman and Fan, by their numbers there: the probability p_k for which
    the quantile of a sample of n numbers is the k-th smallest of them. *)
Definition plotting_position (method : nat) (n k : Z) : Qc :=
  let n := Q2Qc (inject_Z n) in
  let k := Q2Qc (inject_Z k) in
  match method with
  | 4%nat => k / n
  | 5%nat => (k - Q2Qc (1 # 2)) / n
  | 6%nat => k / (n + 1)
  | 7%nat => (k - 1) / (n - 1)
  | 8%nat => (k - Q2Qc (1 # 3)) / (n + Q2Qc (1 # 3))
  | _ => (k - Q2Qc (3 # 8)) / (n + Q2Qc (1 # 4))
  end%Qc.
