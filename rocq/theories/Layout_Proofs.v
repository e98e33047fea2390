From Coq Require Import List ZArith Permutation.
From Verif Require Import Prelude Strides_Model Layout_Model.
Import ListNotations.

Lemma compute_layout_cons l ls :
  compute_layout (l :: ls) = match compute_layout ls with Some r => compute_layout2 l r | None => None end.
Proof. destruct ls; simpl; auto. destruct l; reflexivity. Qed.

Definition meet (a b : layout) : layout :=
  match a, b with
  | any, x => x
  | x, any => x
  | row_major, row_major => row_major
  | column_major, column_major => column_major
  | _, _ => dynamic
  end.

Lemma compute_layout2_meet a b : compute_layout2 a b = Some (meet a b).
Proof. destruct a, b; reflexivity. Qed.

Lemma compute_layout_meet ls : compute_layout ls = Some (fold_right meet any ls).
Proof.
  induction ls; auto. rewrite compute_layout_cons, IHls, compute_layout2_meet. reflexivity.
Qed.

Lemma layout_table_lemma a b :
  compute_layout [a; b] =
  Some (match a, b with
        | dynamic, _ => dynamic | _, dynamic => dynamic
        | any, x => x | x, any => x
        | row_major, row_major => row_major
        | column_major, column_major => column_major
        | row_major, column_major => dynamic
        | column_major, row_major => dynamic
        end).
Proof. destruct a, b; reflexivity. Qed.

Lemma compute_layout_spec ls :
  exists r, compute_layout ls = Some r /\
  (r = any <-> Forall (fun l => l = any) ls) /\
  (r = row_major <-> Forall (fun l => l = any \/ l = row_major) ls /\ In row_major ls) /\
  (r = column_major <-> Forall (fun l => l = any \/ l = column_major) ls /\ In column_major ls).
Proof.
  exists (fold_right meet any ls). split; [apply compute_layout_meet|].
  induction ls as [|l ls (IH1 & IH2 & IH3)].
  - simpl. repeat split; intros; auto; try discriminate; try tauto.
  - simpl fold_right. rewrite !Forall_cons_iff. simpl In.
    assert (Hany : fold_right meet any ls = any -> ~ In row_major ls /\ ~ In column_major ls).
    { intros H. apply IH1 in H. rewrite Forall_forall in H. split; intros Hi; apply H in Hi; discriminate. }
    assert (Ham : Forall (fun l => l = any) ls -> Forall (fun l => l = any \/ l = row_major) ls /\
                                                  Forall (fun l => l = any \/ l = column_major) ls).
    { intros H. split; eapply Forall_impl; try exact H; simpl; auto. }
    assert (Hr : Forall (fun l => l = any \/ l = row_major) ls -> fold_right meet any ls = any \/ fold_right meet any ls = row_major).
    { clear. induction 1; simpl; auto. destruct H as [ -> | -> ], IHForall as [ -> | -> ]; simpl; auto. }
    assert (Hc : Forall (fun l => l = any \/ l = column_major) ls -> fold_right meet any ls = any \/ fold_right meet any ls = column_major).
    { clear. induction 1; simpl; auto. destruct H as [ -> | -> ], IHForall as [ -> | -> ]; simpl; auto. }
    destruct (fold_right meet any ls) eqn:E; destruct l; simpl meet;
      repeat split; intros; try discriminate; intuition (try discriminate; try congruence).
Qed.

Lemma fold_meet_app l1 l2 : fold_right meet any (l1 ++ l2) = meet (fold_right meet any l1) (fold_right meet any l2).
Proof.
  induction l1; simpl; [destruct (fold_right meet any l2); reflexivity|].
  rewrite IHl1. destruct a, (fold_right meet any l1), (fold_right meet any l2); reflexivity.
Qed.

Lemma layout_grouping_lemma l1 l2 r1 r2 :
  compute_layout l1 = Some r1 -> compute_layout l2 = Some r2 ->
  compute_layout (l1 ++ l2) = compute_layout [r1; r2].
Proof.
  rewrite !compute_layout_meet. intros H1 H2. inversion H1. inversion H2. rewrite fold_meet_app. simpl.
  f_equal. destruct (fold_right meet any l1), (fold_right meet any l2); reflexivity.
Qed.

Lemma layout_permutation_lemma l1 l2 : Permutation l1 l2 -> compute_layout l1 = compute_layout l2.
Proof.
  intros H. rewrite !compute_layout_meet. f_equal. induction H; simpl; auto; try congruence.
  destruct x, y, (fold_right meet any l); reflexivity.
Qed.

Lemma layout_defaults_lemma : forall def l : layout,
  (l = row_major \/ l = column_major -> default_assignable_layout def l = l) /\
  (l = any \/ l = dynamic -> default_assignable_layout def l = def) /\
  (l <> any -> layout_remove_any def l = l) /\ layout_remove_any def any = def.
Proof. intros def l. destruct l; cbn; intuition congruence. Qed.
