(** C38: eye(n, k). *)
From Coq Require Import List ZArith Bool Lia.
From Verif Require Import Prelude Strides_Model Strides_Spec Access_Model SView_Model SView_Spec Manip_Model Manip_Spec
  Builder_Model Builder_Spec Builder_Proofs Builder2_Proofs.
Import ListNotations.
Open Scope Z_scope.

(** eye(n, k) is true exactly on the k-th diagonal of an n x n array. *)
Theorem C38_eye_n : forall n k i j : Z, holdable [n; n] -> is_int k -> 0 <= i < n -> 0 <= j < n ->
  gives (eye_n n k) [i; j] (j - i =? k).
Proof.
  intros n k i j Hn Hk Hi Hj. apply (eye_lemma [] n n k [] i j Hn Hk).
  unfold in_bounds. cbn. repeat constructor; lia.
Qed.
Print Assumptions C38_eye_n.
Example C38_case_eye_n :
  gen_call (eye_n 3 1) [1; 2] = Ok true /\ gen_call (eye_n 3 1) [2; 1] = Ok false /\
  gen_element (eye_n 4 (-2)) [3; 1] = Ok true.
Proof. repeat split; vm_compute; reflexivity. Qed.
