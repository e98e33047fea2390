(** C82: construction from nested initializer lists. *)
From Coq Require Import List ZArith Bool Lia.
From Verif Require Import Prelude Strides_Model Strides_Spec Container_Model Container_Spec Semantic_Model Semantic_Spec
  Fixed_Model Init_Model Init_Spec Init_Proofs.
Import ListNotations.
Open Scope Z_scope.

(** A rectangular nested list gives a container of its shape with the element list[i][j]...
    at index (i, j, ...), for every layout. (Lengths below an empty list count as 0.) *)
Theorem C82_rectangular_list :
  forall (V : Type) (SL : layout) (D : option nat) (DL : layout) (rs : list V -> Z -> list V) (sh : list Z) (t : nest V),
  is_order DL -> resizes rs -> SL <> any -> regular sh t -> match D with Some n => length sh = n | None => True end ->
  exists a, c_init SL D DL rs (length sh) t = Ok a /\ well_formed SL D a /\ ct_shape a = cut sh /\
    forall ix, in_bounds (cut sh) ix -> exists v, nest_at t ix = Some v /\ elt a ix = Ok v.
Proof. exact (fun V SL D DL rs sh t => c_init_ok SL D DL rs sh t). Qed.
Print Assumptions C82_rectangular_list.

(** The same for an xtensor_fixed, if the list has its shape. *)
Theorem C82_fixed_list_partial :
  forall (V : Type) (L : layout) (X : list Z) (d : list V) (t : nest V),
  is_order L -> is_shape X -> fixed_storage X d -> regular X t ->
  exists a, fixed_init L X d t = Ok a /\ well_formed L (Some (length X)) a /\ ct_shape a = X /\
    forall ix, in_bounds X ix -> exists v, nest_at t ix = Some v /\ elt a ix = Ok v.
Proof. exact (fun V L X d t => fixed_init_ok L X d t). Qed.
Print Assumptions C82_fixed_list_partial.

(** Other lists are not rejected. {{1,2},{3,4,5}} writes past the end of the storage;
    {{1,2,3},{4}} leaves elements with what the storage held. *)
Theorem C82_ragged_refuted :
  exists (rs : list Z -> Z -> list Z) (long short : nest Z) (a : cont Z), resizes rs /\
  long = NList [nums [1; 2]; nums [3; 4; 5]] /\ short = NList [nums [1; 2; 3]; nums [4]] /\
  c_init row_major None row_major rs 2 long = UB /\ c_init column_major (Some 2%nat) row_major rs 2 long = UB /\
  c_init row_major None row_major rs 2 short = Ok a /\ ct_shape a = [2; 3] /\ elt a [1; 1] = Ok 7 /\ nest_at short [1; 1] = None.
Proof. exact ragged_lemma. Qed.
Print Assumptions C82_ragged_refuted.

(** An xtensor_fixed of shape (2,3) from a list of shape (2,2) has 4 where the list has 3; one
    of shape (2,4) is written past the end. *)
Theorem C82_fixed_list_refuted :
  exists (short long : nest Z) (a : cont Z),
  regular [2; 2] short /\ regular [2; 4] long /\
  fixed_init row_major [2; 3] [0; 0; 0; 0; 0; 0] short = Ok a /\ elt a [1; 0] = Ok 4 /\ nest_at short [1; 0] = Some 3 /\
  fixed_init row_major [2; 3] [0; 0; 0; 0; 0; 0] long = UB.
Proof. exact fixed_list_lemma. Qed.
Print Assumptions C82_fixed_list_refuted.

Example C82_case :
  regular [2; 3] (NList [nums [1; 2; 3]; nums [4; 5; 6]]) /\
  c_init column_major None row_major rs_keep 2 (NList [nums [1; 2; 3]; nums [4; 5; 6]]) =
    Ok (mk_cont [2; 3] [1; 2] [1; 4] column_major [1; 4; 2; 5; 3; 6]) /\
  c_init row_major (Some 3%nat) row_major rs_keep 3 (NList [NList []; NList (@nil (nest Z))]) = Ok (mk_cont [2; 0; 0] [0; 0; 1] [0; 0; -1] row_major []) /\
  c_init row_major None row_major rs_keep 0 (NVal 5) = Ok (mk_cont [] [] [] row_major [5]).
Proof. split; [repeat constructor|]. repeat split; vm_compute; reflexivity. Qed.
