(** Vocabulary for iterating over views that are not strided. *)
From Coq Require Import List ZArith Bool.
From Verif Require Import Prelude Strides_Model Slice_Model SView_Model.
Import ListNotations.
Open Scope Z_scope.

(** Slices whose step sizes depend on the position: kept indices (other than a
    single one) and dropped indices. *)
Definition sensitive (s : slice) : bool :=
  match s with SKeep ind => negb (Z.of_nat (length ind) =? 1) | SDrop _ _ _ => true | _ => false end.

(** Slices that make an axis of the view and whose last position is left by a step
    of size one. *)
Definition unit_end (s : slice) : bool :=
  match s with
  | SRange _ _ | SAll _ | SDrop _ _ _ => true
  | SStep _ _ step => step =? 1
  | SKeep ind => negb (Z.of_nat (length ind) =? 1)
  | SNewaxis | SInt _ => false
  end.

(** The last axis of the view comes from the last axis of the expression (whose
    shape is [esh]), which has no slice or a slice with [unit_end]. *)
Fixpoint last_from_last (ss : list slice) (esh : list Z) : bool :=
  match ss with
  | [] => match esh with [] => false | _ => true end
  | SNewaxis :: t => last_from_last t esh
  | s :: t => match t, tl esh with
              | [], [] => unit_end s
              | _, _ => last_from_last t (tl esh)
              end
  end.

(** No kept or dropped indices after an integer. *)
Fixpoint no_int_before (ss : list slice) : bool :=
  match ss with
  | [] => true
  | SInt _ :: t => forallb (fun s => negb (sensitive s)) t
  | _ :: t => no_int_before t
  end.

(** The views whose iterators this development shows to move backwards from end(). *)
Definition reverse_ok (l : layout) (ss : list slice) (esh : list Z) : bool :=
  no_int_before ss &&
  match l with
  | row_major =>
      last_from_last ss esh &&
      let axes := filter (fun s => match s with SNewaxis => false | _ => true end) ss in
      ((length esh <=? length axes)%nat ||
       match rev axes with s :: _ => negb (sensitive s) | [] => true end)
  | _ => match ss with [] => true | s :: _ => unit_end s end
  end.
