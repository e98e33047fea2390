(** is_contiguous of containers with computed strides. *)
From Coq Require Import List ZArith Bool Lia.
From Verif Require Import Prelude Strides_Model Strides_Spec Strides_Proofs Layout_Model Stepper_Model Assign_Model.
Import ListNotations.
Open Scope Z_scope.

Lemma find_app {A} (p : A -> bool) l1 l2 :
  find p (l1 ++ l2) = match find p l1 with Some x => Some x | None => find p l2 end.
Proof. induction l1 as [|a l1 IH]; simpl; [reflexivity|]. destruct (p a); auto. Qed.

Lemma last_nonzero_cons x l :
  last_nonzero (x :: l) = match last_nonzero l with Some s => Some s | None => if x =? 0 then None else Some x end.
Proof. unfold last_nonzero. simpl. rewrite find_app. simpl. destruct (x =? 0); reflexivity. Qed.

Lemma row_last sh : (last_nonzero (row_strides sh) = None /\ prod sh = 1) \/ last_nonzero (row_strides sh) = Some 1.
Proof.
  induction sh as [|d sh IH]; [left; split; reflexivity|].
  rewrite row_strides_cons, last_nonzero_cons, prod_cons.
  destruct IH as [(E & P)|E]; rewrite E; [|right; reflexivity].
  rewrite P. destruct (Z.eqb_spec d 1) as [->|N]; [left|right]; simpl; auto.
Qed.

Lemma col_first sh : first_nonzero (col_strides sh) = None \/ first_nonzero (col_strides sh) = Some 1.
Proof.
  induction sh as [|d sh IH]; [left; reflexivity|].
  rewrite col_strides_cons. destruct (Z.eqb_spec d 1) as [->|N]; [|right; reflexivity].
  replace (map (Z.mul 1) (col_strides sh)) with (col_strides sh); [exact IH|].
  rewrite <- (map_id (col_strides sh)) at 1. apply map_ext. intros a. lia.
Qed.

Lemma strides_eq l sh st : length st = length sh -> l = row_major \/ l = column_major ->
  (forall k, (k < length sh)%nat ->
     nth k st 0 = (if nth k sh 0 =? 1 then 0 else match l with row_major => prod (skipn (S k) sh) | _ => prod (firstn k sh) end)) ->
  st = spec_strides l sh.
Proof.
  intros Hn Hl H. apply (nth_ext _ _ 0 0); [rewrite spec_strides_length; exact Hn|].
  intros k Hk. rewrite Hn in Hk. rewrite (H k Hk).
  destruct Hl as [-> | ->]; simpl spec_strides; [rewrite row_strides_nth|rewrite col_strides_nth]; auto.
Qed.
