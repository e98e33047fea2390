(** C70: convolutions. C71: piecewise linear interpolation. *)
From Coq Require Import List ZArith Lia Bool QArith.
From Verif Require Import Prelude Line_Model Line_Spec Line_Proofs Line2_Proofs.
Import ListNotations.
Open Scope Z_scope.

(** convolve(a, v, full), whichever is longer: element k is the sum of the products of all the pairs
    of elements whose positions add up to k. *)
Theorem C70_full (a v : list Z) : a <> [] -> v <> [] -> Z.of_nat (length a + length v) < 2 ^ 64 ->
  exists out, convolve 1 a 1 v full = Ok out /\ length out = (length a + length v - 1)%nat /\
    forall k, (k < length out)%nat -> nth_error out k = Some (conv_at a v k).
Proof. exact (full_lemma a v). Qed.
Print Assumptions C70_full.

Example C70_case_full : convolve 1 [1; 2] 1 [0; 1; 5] full = Ok [0; 1; 7; 10] /\ conv_at [1; 2] [0; 1; 5] 2 = 7.
Proof. split; vm_compute; reflexivity. Qed.

(** Expressions with another number of axes are rejected. *)
Theorem C70_dimension (da dv : Z) (a v : list Z) (mode : cmode) : da <> 1 \/ dv <> 1 -> convolve da a dv v mode = Throw runtime_error.
Proof. intros [H|H]; unfold convolve; apply Z.eqb_neq in H; rewrite H; [reflexivity|rewrite orb_true_r; reflexivity]. Qed.
Print Assumptions C70_dimension.

Example C70_case_dimension : 2 <> 1 \/ 1 <> 1.
Proof. left. lia. Qed.

(** convolve(a, v, valid) should give the elements of the convolution where the shorter lies
    entirely within the longer one, positions min - 1 to max - 1. It does for two expressions of the
    same length one of which reads the same in both directions. Missing: everything else, see the
    next two theorems. *)
Theorem C70_valid_partial (a v : list Z) : a <> [] -> length a = length v -> rev v = v -> Z.of_nat (length a) < 2 ^ 64 ->
  convolve 1 a 1 v valid = Ok [conv_at a v (length a - 1)].
Proof. exact (valid_partial_lemma a v). Qed.
Print Assumptions C70_valid_partial.

Example C70_case_valid : rev [1; 4; 1] = [1; 4; 1] /\ convolve 1 [1; 2; 3] 1 [1; 4; 1] valid = Ok [12].
Proof. split; reflexivity. Qed.

(** The second expression is not reversed: the correlation is computed, not the convolution. *)
Theorem C70_valid_flip_refuted : exists a v : list Z, length a = length v /\ convolve 1 a 1 v valid = Ok [7] /\ conv_at a v (length a - 1) = 5.
Proof. exact valid_flip_lemma. Qed.
Print Assumptions C70_valid_flip_refuted.

(** And whenever the lengths differ, the shorter expression is read past its end. *)
Theorem C70_valid_length_refuted (a v : list Z) : a <> [] -> v <> [] -> length a <> length v ->
  Z.of_nat (length a) < 2 ^ 64 -> Z.of_nat (length v) < 2 ^ 64 -> convolve 1 a 1 v valid = UB.
Proof. exact (valid_lemma a v). Qed.
Print Assumptions C70_valid_length_refuted.

Example C70_case_valid_length : [1; 2; 3] <> [] /\ [1; 1] <> [] /\ length [1; 2; 3] <> length [1; 1].
Proof. repeat split; discriminate. Qed.

(** interp(x, xp, fp) for sorted x and strictly sorted xp is the piecewise linear function through
    the points, in exact arithmetic. *)
Theorem C71_interp (junk x xp fp : list Q) :
  increasing x -> strictly_increasing xp -> xp <> [] -> length fp = length xp -> length junk = length x ->
  exists f, interp_default junk x xp fp = Ok f /\ length f = length x /\
    forall i xi, nth_error x i = Some xi -> exists y, nth_error f i = Some y /\ interpolates xp fp xi y.
Proof. exact (default_lemma junk x xp fp). Qed.
Print Assumptions C71_interp.

Example C71_case : interp_default [9; 9; 9; 9]%Q [-1; 1; 3; 9]%Q [0; 2; 4]%Q [5; 7; 3]%Q = Ok [5; 5 + (7 - 5) / (2 - 0) * (1 - 0); 7 + (3 - 7) / (4 - 2) * (3 - 2); 3]%Q.
Proof. vm_compute. reflexivity. Qed.

(** interp(x, xp, fp, left, right): right from the last point on, left up to the first point, and in
    between on the line through two neighbouring points; the points may repeat. *)
Theorem C71_left_right (junk x xp fp : list Q) (left right : Q) :
  increasing x -> increasing xp -> xp <> [] -> length fp = length xp -> length junk = length x ->
  exists f, interp junk x xp fp left right = Ok f /\ length f = length x /\
    forall i xi, nth_error x i = Some xi -> exists y, nth_error f i = Some y /\
      forall x0 xn, nth_error xp 0 = Some x0 -> nth_error xp (length xp - 1) = Some xn ->
        ((xn <= xi)%Q -> y = right) /\ ((xi <= x0)%Q -> (xi < xn)%Q -> y = left) /\
        ((x0 < xi)%Q -> (xi < xn)%Q -> exists k a b c d, nth_error xp k = Some a /\ nth_error fp k = Some b /\ nth_error xp (S k) = Some c /\ nth_error fp (S k) = Some d /\
          (a < xi)%Q /\ (xi <= c)%Q /\ (y == line a b c d xi)%Q).
Proof. exact (interp_lemma junk x xp fp left right). Qed.
Print Assumptions C71_left_right.

(** left and right are documented for x below the first and above the last point. They are also the
    values at these points. *)
Theorem C71_ends_refuted : exists (junk x xp fp f : list Q) (left right : Q), increasing x /\ strictly_increasing xp /\ length fp = length xp /\ length junk = length x /\
  x = [0; 1]%Q /\ xp = [0; 1]%Q /\ fp = [5; 6]%Q /\ left = (-1)%Q /\ right = (-2)%Q /\ interp junk x xp fp left right = Ok f /\ f = [left; right].
Proof. exact ends_lemma. Qed.
Print Assumptions C71_ends_refuted.
