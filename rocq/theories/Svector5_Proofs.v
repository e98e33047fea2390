(** Witnesses about svector. *)
From Coq Require Import List ZArith Bool Arith Lia.
From Verif Require Import Prelude Svector_Model Svector_Spec.
Import ListNotations.
Open Scope nat_scope.

(** safe_history as a computation. *)
Definition safe_event_b {V} (w : world V) (e : event V) : bool :=
  match e with
  | Act i (PushBack (Elem j _)) | Act i (Insert _ (Elem j _)) =>
      if i =? j then match get w i with Ok o => (o_size o <? o_cap o) || on_stack o | _ => true end else true
  | _ => true
  end.
Fixpoint safe_history_b {V} (N : nat) (zero : V) (triv : bool) (w : world V) (es : list (event V)) : bool :=
  match es with
  | [] => true
  | e :: es' => safe_event_b w e && match step N zero triv w e with Ok w' => safe_history_b N zero triv w' es' | _ => true end
  end.
Lemma safe_event_ok {V} (w : world V) e : safe_event_b w e = true -> safe_event w e.
Proof.
  assert (X : forall i j : nat, (if i =? j then match get w i with Ok o => (o_size o <? o_cap o) || on_stack o | _ => true end else true) = true ->
    i = j -> forall o, get w i = Ok o -> o_size o < o_cap o \/ on_stack o = true).
  { intros i j H -> o E. rewrite Nat.eqb_refl, E in H. apply orb_prop in H. destruct H as [H|H]; [left; apply Nat.ltb_lt; exact H|right; exact H]. }
  destruct e as [| | | | |i a| | | |]; try (intros; exact I). destruct a as [[v|j k]| |p [v|j k]| | | | | | | | |]; try (intros; exact I); cbn; apply X.
Qed.
Lemma safe_history_ok {V} N (zero : V) triv : forall es w, safe_history_b N zero triv w es = true -> safe_history N zero triv w es.
Proof.
  induction es as [|e es IH]; intros w H; cbn [safe_history safe_history_b] in *; [exact I|]. apply andb_prop in H. destruct H as [H1 H2].
  split; [apply safe_event_ok; exact H1|]. intros w' E. rewrite E in H2. apply IH. exact H2.
Qed.

Open Scope Z_scope.
Definition case_history : list (event Z) :=
  [ConstructRange (Lits [1; 2]); Act 0 (Insert 0 (Lit 7)); Construct; Act 1 (PushBack (Lit 5)); Act 1 (PushBack (Elem 1 0));
   Act 1 (AssignRange (Lits [5; 9])); Act 1 (Insert 1 (Elem 0 1)); Act 1 (Insert 1 (Elem 1 1)); SwapWith 0 1; SwapWith 1 0; ConstructMove 1; Destroy 1].
Lemma case_lemma : exists vs, vrun 0 [] case_history = Some vs /\ safe_history 2 0 true world0 case_history /\ vs = [Some [7; 1; 2]; None; Some [5; 1; 1; 9]].
Proof.
  exists [Some [7; 1; 2]; None; Some [5; 1; 1; 9]]. split; [vm_compute; reflexivity|]. split; [|reflexivity].
  apply safe_history_ok. vm_compute. reflexivity.
Qed.

Definition full : list (event Z) := [ConstructRange (Lits [1; 2])].
Lemma self_reference_lemma :
  (exists es vs, vrun 0 [] es = Some vs /\ run 1 0 true world0 es = UB /\ exists es', es = (es' ++ [Act 0 (PushBack (Elem 0 0))])%list) /\
  (exists es vs, vrun 0 [] es = Some vs /\ run 1 0 true world0 es = UB /\ exists es', es = (es' ++ [Act 0 (Insert 0 (Elem 0 0))])%list).
Proof.
  split.
  - exists (full ++ [Act 0%nat (PushBack (Elem 0%nat 0%nat))])%list, [Some [1; 2; 1]]. split; [vm_compute; reflexivity|]. split; [vm_compute; reflexivity|]. exists full. reflexivity.
  - exists (full ++ [Act 0%nat (Insert 0%nat (Elem 0%nat 0%nat))])%list, [Some [1; 1; 2]]. split; [vm_compute; reflexivity|]. split; [vm_compute; reflexivity|]. exists full. reflexivity.
Qed.
Definition one : list (event Z) := [Construct; Act 0%nat (PushBack (Lit 1))].
Lemma nontrivial_lemma :
  (exists es vs, vrun 0 [] es = Some vs /\ safe_history 1 0 false world0 es /\ run 1 0 false world0 es = UB /\
     exists es', es = (es' ++ [Act 0 (PushBack (Lit 2%Z))])%list) /\
  (exists es vs, vrun 0 [] es = Some vs /\ safe_history 2 0 false world0 es /\ run 2 0 false world0 es = UB /\
     exists es', es = (es' ++ [ConstructMove 0; Act 0 (PushBack (Lit 2%Z))])%list).
Proof.
  split.
  - exists (one ++ [Act 0%nat (PushBack (Lit 2))])%list, [Some [1; 2]]. split; [vm_compute; reflexivity|]. split; [apply safe_history_ok; vm_compute; reflexivity|].
    split; [vm_compute; reflexivity|]. exists one. reflexivity.
  - exists (one ++ [ConstructMove 0; Act 0%nat (PushBack (Lit 2))])%list, [Some [2]; Some [1]]. split; [vm_compute; reflexivity|]. split; [apply safe_history_ok; vm_compute; reflexivity|].
    split; [vm_compute; reflexivity|]. exists one. reflexivity.
Qed.
