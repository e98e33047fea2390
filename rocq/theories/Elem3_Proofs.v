(** Proofs for C88: extrema, and cases. *)
From Coq Require Import List ZArith Lia Bool QArith Qcanon Qcabs Eqdep_dec.
From Verif Require Import Prelude PreludeFacts Strides_Model Strides_Spec Broadcast_Model Broadcast_Spec Broadcast2_Proofs Broadcast_Props Stepper_Model Stepper_Spec Stepper4_Proofs
  Container_Model Container_Spec
  Reduce_Model Reduce_Spec Reduce3_Proofs Reduce7_Proofs Reduce13_Proofs Reduce_Props Norm_Model Elem_Model Elem_Spec Elem_Proofs Elem2_Proofs.
Import ListNotations.
Open Scope Z_scope.

Lemma amax_ok (A : Type) (lt : A -> A -> bool) (lowest dflt : A) (esh : list Z) (e : sexp A) (ev : list Z -> A) (axes : list Z) (keep : bool) :
  total_order lt -> (forall x, at_least lt x lowest) ->
  Z.of_nat (length esh) < 2 ^ 64 -> is_shape esh -> valid_axes (length esh) axes -> has_elements esh e ev ->
  exists r, make_reducer esh axes keep None = Ok r /\ r_shape r = red_shape keep axes esh /\
    forall ix, in_bounds (red_shape keep axes esh) ix -> exists m,
      rs_element (amax_f lt lowest) dflt esh (x_ops esh e) (x_deref e) r (x_begin e) ix = Ok m /\ extremum lt lowest keep axes esh ev ix m.
Proof.
  intros O B Hl Hs Ha He. destruct (C41_elements A A (amax_f lt lowest) dflt esh e ev axes keep None Hl Hs Ha He (or_intror (amax_law lt O lowest B))) as (r & E & Sh & El & _).
  exists r. split; [exact E|]. split; [exact Sh|]. intros ix Hix. eexists. split; [exact (El [] ix Hix)|]. apply extremum_fold; assumption.
Qed.
Lemma amin_ok (A : Type) (lt : A -> A -> bool) (highest dflt : A) (esh : list Z) (e : sexp A) (ev : list Z -> A) (axes : list Z) (keep : bool) :
  total_order lt -> (forall x, at_least lt highest x) ->
  Z.of_nat (length esh) < 2 ^ 64 -> is_shape esh -> valid_axes (length esh) axes -> has_elements esh e ev ->
  exists r, make_reducer esh axes keep None = Ok r /\ r_shape r = red_shape keep axes esh /\
    forall ix, in_bounds (red_shape keep axes esh) ix -> exists m,
      rs_element (amin_f lt highest) dflt esh (x_ops esh e) (x_deref e) r (x_begin e) ix = Ok m /\ extremum (fun x y => lt y x) highest keep axes esh ev ix m.
Proof.
  intros O B. change (amin_f lt highest) with (amax_f (fun x y => lt y x) highest). apply amax_ok; [apply flip_order; exact O|exact B].
Qed.

(** Integers of a type *)
Definition in_type (t : ity) (z : Z) : bool := (low t <=? z) && (z <=? high t).
Definition int_of (t : ity) : Type := { z : Z | in_type t z = true }.
Definition int_lt (t : ity) (x y : int_of t) : bool := proj1_sig x <? proj1_sig y.
Lemma int_eq t (x y : int_of t) : proj1_sig x = proj1_sig y -> x = y.
Proof. destruct x as [x p], y as [y q]. cbn. intros <-. f_equal. apply UIP_dec. apply Bool.bool_dec. Qed.
Lemma int_order t : total_order (int_lt t).
Proof.
  unfold int_lt. split; [intros x; apply Z.ltb_irrefl|]. split.
  - intros x y z H1 H2. apply Z.ltb_lt in H1, H2. apply Z.ltb_lt. lia.
  - intros x y H1 H2. apply int_eq. apply Z.ltb_ge in H1, H2. lia.
Qed.
Lemma low_in t : in_type t (low t) = true. Proof. destruct t as [[|] []]; vm_compute; reflexivity. Qed.
Lemma high_in t : in_type t (high t) = true. Proof. destruct t as [[|] []]; vm_compute; reflexivity. Qed.
Definition lowest t : int_of t := exist _ (low t) (low_in t).
Definition highest t : int_of t := exist _ (high t) (high_in t).
Lemma lowest_ok t x : at_least (int_lt t) x (lowest t).
Proof. destruct x as [x p]. unfold at_least, int_lt. cbn. apply Z.ltb_ge. unfold in_type in p. apply andb_true_iff in p. destruct p as [p _]. apply Z.leb_le. exact p. Qed.
Lemma highest_ok t x : at_least (int_lt t) (highest t) x.
Proof. destruct x as [x p]. unfold at_least, int_lt. cbn. apply Z.ltb_ge. unfold in_type in p. apply andb_true_iff in p. destruct p as [_ p]. apply Z.leb_le. exact p. Qed.

(** Arrays of 3 elements *)
Definition three {A} (a b c : A) : sexp A := XStrided (mk_container [3] [1] [2] 0) [a; b; c].
Definition three_ev {A} (a b c : A) (ix : list Z) : A := nth (Z.to_nat (nth 0 ix 0)) [a; b; c] a.
Lemma three_elements {A} (a b c : A) : has_elements [3] (three a b c) (three_ev a b c).
Proof.
  split.
  - split; [apply fits_self|]. repeat split; try (cbn in *; lia); cbn in H; destruct j as [|[|j]]; cbn in *; lia.
  - intros jx Hb. assert (X : In jx (row_indices [3])) by (apply row_indices_in; exact Hb). cbn in X.
    repeat (destruct X as [<-|X]; [vm_compute; reflexivity|]). contradiction.
Qed.
Lemma three_axes : valid_axes 1 [0]. Proof. split; repeat constructor; lia. Qed.
(** The extremum of an array of 3 elements *)
Definition extreme {A} (f : rfun A A) (a b c : A) : res A :=
  let* r := make_reducer [3] [0] false None in rs_element f a [3] (x_ops [3] (three a b c)) (x_deref (three a b c)) r (x_begin (three a b c)) [].

Definition q (n : Z) (d : positive) : Qc := Q2Qc (n # d).
Lemma fin_inj a b : a = b -> Fin a = Fin b. Proof. congruence. Qed.

Lemma sign_fl_ok a : sign_fl (Fin a) = Fin (if qlt a 0%Qc then -(1) else if qlt 0%Qc a then 1 else 0)%Qc.
Proof.
  unfold sign_fl, copysign. cbn [is_nan fl_eq fl_lt]. destruct (qlt a 0%Qc) eqn:E1; cbn [negb andb]; [reflexivity|].
  destruct (qlt 0%Qc a) eqn:E2; reflexivity.
Qed.
Lemma sign_int_ok x : sign_int x = Z.sgn x.
Proof. unfold sign_int. destruct (Z.eqb_spec x 0) as [->|N]; [reflexivity|]. destruct (Z.ltb_spec x 0); [symmetry; apply Z.sgn_neg; assumption|symmetry; apply Z.sgn_pos; lia]. Qed.
Lemma sign_uint_ok x : 0 <= x -> sign_uint x = Z.sgn x.
Proof. intros H. unfold sign_uint. destruct (Z.ltb_spec 0 x); [symmetry; apply Z.sgn_pos; assumption|]. replace x with 0 by lia. reflexivity. Qed.

Lemma doc_refuted : exists rtol atol a b : Qc, (0 <= rtol)%Qc /\ (0 <= atol)%Qc /\
  ((Qcabs (a - b) <= atol + rtol * Qcabs b)%Qc /\ isclose (Fin rtol) (Fin atol) false (Fin a) (Fin b) = false).
Proof. exists (q 1 10), (q 1 1), (q 41 20), (q 1 1). repeat split; vm_compute; congruence. Qed.
Lemma doc_refuted2 : exists rtol atol a b : Qc, (0 <= rtol)%Qc /\ (0 <= atol)%Qc /\
  (~ (Qcabs (a - b) <= atol + rtol * Qcabs b)%Qc /\ isclose (Fin rtol) (Fin atol) false (Fin a) (Fin b) = true).
Proof. exists (q 1 2), (q 0 1), (q 10 1), (q 5 1). repeat split; vm_compute; congruence. Qed.
