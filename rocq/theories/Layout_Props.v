(** Property C28: layout algebra. *)
From Coq Require Import List ZArith Permutation.
From Verif Require Import Prelude Strides_Model Layout_Model Layout_Proofs.
Import ListNotations.

(** C28. The bit trick implements the documented table. *)
Theorem C28_layout_table :
  forall a b : layout,
  compute_layout [a; b] =
  Some (match a, b with
        | dynamic, _ => dynamic | _, dynamic => dynamic
        | any, x => x | x, any => x
        | row_major, row_major => row_major
        | column_major, column_major => column_major
        | row_major, column_major => dynamic
        | column_major, row_major => dynamic
        end).
Proof. exact layout_table_lemma. Qed.
Print Assumptions C28_layout_table.

(** C28. For any number of operands the result is an enumerator; a static layout
    is reported exactly when all operands are compatible with it and one has it. *)
Theorem C28_layout_of_operands :
  forall ls : list layout,
  exists r, compute_layout ls = Some r /\
  (r = any <-> Forall (fun l => l = any) ls) /\
  (r = row_major <-> Forall (fun l => l = any \/ l = row_major) ls /\ In row_major ls) /\
  (r = column_major <-> Forall (fun l => l = any \/ l = column_major) ls /\ In column_major ls).
Proof. exact compute_layout_spec. Qed.
Print Assumptions C28_layout_of_operands.

(** C28. Grouping and order of the operands do not matter. *)
Theorem C28_layout_grouping :
  forall (l1 l2 : list layout) (r1 r2 : layout),
  compute_layout l1 = Some r1 -> compute_layout l2 = Some r2 ->
  compute_layout (l1 ++ l2) = compute_layout [r1; r2].
Proof. exact layout_grouping_lemma. Qed.
Print Assumptions C28_layout_grouping.

Theorem C28_layout_order :
  forall l1 l2 : list layout, Permutation l1 l2 -> compute_layout l1 = compute_layout l2.
Proof. exact layout_permutation_lemma. Qed.
Print Assumptions C28_layout_order.

(** Where one definite order is needed, a definite layout is kept and any other
    replaced by the default one. *)
Theorem C28_layout_defaults :
  forall def l : layout,
  (l = row_major \/ l = column_major -> default_assignable_layout def l = l) /\
  (l = any \/ l = dynamic -> default_assignable_layout def l = def) /\
  (l <> any -> layout_remove_any def l = l) /\ layout_remove_any def any = def.
Proof. exact layout_defaults_lemma. Qed.
Print Assumptions C28_layout_defaults.

Example C28_case : compute_layout [any; row_major; any; row_major] = Some row_major
  /\ compute_layout [row_major; any; column_major] = Some dynamic.
Proof. split; reflexivity. Qed.
