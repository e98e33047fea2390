(** Property C79: JSON input and output. *)
From Coq Require Import List ZArith Lia Bool.
From Verif Require Import Prelude Strides_Model Strides_Spec Container_Model Container_Spec
  SView_Model SView_Spec Json_Model Json_Spec Json_Proofs Json2_Proofs Json3_Proofs.
Import ListNotations.
Open Scope Z_scope.

(** C79. to_json of any expression (lazy, view or container) gives the nested lists of its
    elements. [value] reads an element; [T] is the default traversal and [junk] the contents
    of fresh memory. *)
Theorem C79_to_json :
  forall (V : Type) (T : layout) (junk : list Z -> list Z) (e : xexp) (value : cell -> res V) (f : list Z -> V),
  T = row_major \/ T = column_major -> wf_exp e ->
  (forall ix, in_bounds (x_shape e) ix -> value (x_elem e ix) = Ok (f ix)) ->
  to_json T junk e value = Ok (nested f (x_shape e)).
Proof. intros V T junk e value f HT He. exact (to_json_ok T junk e value HT He f). Qed.
Print Assumptions C79_to_json.

(** A lazy 2x3 expression whose elements are computed, a column major container, a scalar
    and an array without rows *)
Example C79_case_to_json :
  let lazy := mk_xexp false [2; 3] [] 0 dynamic in
  let value k := match k with Elem [i; j] => Ok (100 * i + j) | _ => UB end in
  wf_exp lazy /\ (forall ix, in_bounds [2; 3] ix -> value (x_elem lazy ix) = Ok (100 * nth 0 ix 0 + nth 1 ix 0)) /\
  to_json row_major no_junk lazy value
    = Ok (JArr [JArr [JVal 0; JVal 1; JVal 2]; JArr [JVal 100; JVal 101; JVal 102]]) /\
  to_json row_major no_junk (of_cont sheet) (stored sheet)
    = Ok (JArr [JArr [JVal 1; JVal 2; JVal 3]; JArr [JVal 4; JVal 5; JVal 6]]) /\
  to_json row_major no_junk (of_cont fresh) (stored fresh) = Ok (JVal 0) /\
  to_json column_major no_junk (mk_xexp false [0; 3] [] 0 dynamic) value = Ok (JArr []).
Proof.
  cbn zeta. split; [split; [repeat constructor; lia|discriminate]|]. split.
  - intros ix Hix. inversion Hix as [|? i ? ? Hi H2]; subst. inversion H2 as [|? k ? ? Hk H3]; subst. inversion H3; subst. reflexivity.
  - vm_compute. repeat split.
Qed.

(** C79. from_json into any container: it gets the lengths of the list, of its first element
    and so on as its shape, whatever its shape was, and the values that are in the lists at
    the indices of that shape. *)
Theorem C79_from_json :
  forall (V : Type) (T SL DL : layout) (junk : list Z -> list Z) (rs : list V -> Z -> list V) (c : cont V) sh f j,
  T = row_major \/ T = column_major -> (forall d n, 0 <= n -> Z.of_nat (length (rs d n)) = n) ->
  consistent c -> (SL <> dynamic -> ct_layout c = SL) -> leading sh j -> contains f sh j ->
  exists c', from_json T junk SL DL rs j c = Ok c' /\ consistent c' /\ ct_shape c' = sh /\
    (is_order (ct_layout c) -> ct_layout c' = ct_layout c) /\
    forall ix, in_bounds sh ix -> elt c' ix = Ok (f ix).
Proof. intros V T SL DL junk rs c sh f j HT Hrs. exact (from_json_lemma T SL DL junk rs HT Hrs c sh f j). Qed.
Print Assumptions C79_from_json.

Example C79_case_from_json :
  let j := JArr [JArr [num 7; num 8]; JArr [num 9; num 10]; JArr [num 11; num 12]] in
  j = nested (fun ix => 7 + 2 * nth 0 ix 0 + nth 1 ix 0) [3; 2] /\
  leading [3; 2] j /\ contains (fun ix => 7 + 2 * nth 0 ix 0 + nth 1 ix 0) [3; 2] j /\ consistent sheet /\
  (let* c := from_json row_major no_junk dynamic row_major keep_front j sheet in Ok (ct_shape c, ct_strides c, ct_data c))
    = Ok ([3; 2], [1; 3], [7; 9; 11; 8; 10; 12]).
Proof.
  cbn zeta. split; [reflexivity|]. split; [exact (nested_leading [3; 2] (fun ix => 7 + 2 * nth 0 ix 0 + nth 1 ix 0) ltac:(repeat constructor))|].
  split; [exact (nested_contains [3; 2] (fun ix => 7 + 2 * nth 0 ix 0 + nth 1 ix 0) ltac:(repeat constructor; lia))|].
  split; [exact sheet_consistent|vm_compute; reflexivity].
Qed.

(** C79. What is written is read back into any container, with the same shape and elements.
    Missing: arrays without elements, see the refutation. *)
Theorem C79_round_trip_partial :
  forall (V : Type) (T SL DL : layout) (junk : list Z -> list Z) (rs : list V -> Z -> list V) (c c0 : cont V),
  T = row_major \/ T = column_major -> (forall d n, 0 <= n -> Z.of_nat (length (rs d n)) = n) ->
  consistent c -> consistent c0 -> (SL <> dynamic -> ct_layout c0 = SL) -> Forall (fun d => 0 < d) (ct_shape c) ->
  exists j c', to_json T junk (of_cont c) (stored c) = Ok j /\ from_json T junk SL DL rs j c0 = Ok c' /\
    consistent c' /\ ct_shape c' = ct_shape c /\ forall ix, in_bounds (ct_shape c) ix -> elt c' ix = elt c ix.
Proof. intros V T SL DL junk rs c c0 HT Hrs. exact (round_trip_lemma T SL DL junk rs HT Hrs c c0). Qed.
Print Assumptions C79_round_trip_partial.

(** The column major sheet read back into a default constructed row major array *)
Example C79_case_round_trip :
  consistent sheet /\ consistent fresh /\ Forall (fun d => 0 < d) (ct_shape sheet) /\
  (let* j := to_json row_major no_junk (of_cont sheet) (stored sheet) in
   let* c := from_json row_major no_junk row_major row_major keep_front j fresh in Ok (ct_shape c, ct_data c))
    = Ok ([2; 3], [1; 2; 3; 4; 5; 6]).
Proof.
  split; [exact sheet_consistent|]. split; [exact fresh_consistent|]. split; [repeat constructor|vm_compute; reflexivity].
Qed.

(** An array with an extent 0 is never read back: an exception if fewer than four extents
    come before it, otherwise a write outside of the vector that holds the shape. *)
Theorem C79_empty_refuted :
  forall (V : Type) (T SL DL : layout) (junk : list Z -> list Z) (rs : list V -> Z -> list V) (c : cont V) a b f,
  T = row_major \/ T = column_major -> (forall d n, 0 <= n -> Z.of_nat (length (rs d n)) = n) ->
  consistent c -> (SL <> dynamic -> ct_layout c = SL) -> Forall (fun d => 0 < d) a ->
  from_json T junk SL DL rs (nested f (a ++ 0 :: b)) c = if (length a <? 4)%nat then Throw invalid_argument else UB.
Proof. intros V T SL DL junk rs c a b f HT Hrs. exact (empty_lemma T SL DL junk rs HT Hrs c a b f). Qed.
Print Assumptions C79_empty_refuted.

Example C79_case_empty :
  to_json row_major no_junk (mk_xexp true [2; 0] [0; 1] 0 row_major) (stored fresh) = Ok (JArr [JArr []; JArr []]) /\
  nested (fun _ : list Z => 0) [2; 0] = JArr [JArr []; JArr []] /\
  from_json row_major no_junk row_major row_major keep_front (JArr [JArr []; JArr []]) fresh = Throw invalid_argument /\
  from_json row_major no_junk row_major row_major keep_front (JArr [JArr [JArr [JArr [JArr []]]]]) fresh = UB.
Proof. vm_compute. repeat split. Qed.

(** Lists of different lengths: values are dropped, or read where there are none. *)
Theorem C79_ragged_refuted :
  (exists (c : cont Z) j c', consistent c /\ from_json row_major no_junk row_major row_major keep_front j c = Ok c' /\
     (forall f sh, j <> nested f sh) /\ ct_data c' = [1; 2; 3; 4] /\
     j = JArr [JArr [num 1; num 2]; JArr [num 3; num 4; num 5]]) /\
  (exists (c : cont Z), consistent c /\
     from_json row_major no_junk row_major row_major keep_front (JArr [JArr [num 1; num 2]; JArr [num 3]]) c = UB).
Proof.
  split.
  - exists fresh, (JArr [JArr [num 1; num 2]; JArr [num 3; num 4; num 5]]). eexists.
    split; [exact fresh_consistent|]. split; [vm_compute; reflexivity|]. split; [|split; reflexivity].
    intros f [|n [|m sh]] H; cbn [nested] in H; [discriminate| |];
      injection H as H; destruct (Z.to_nat n) as [|[|[|k]]]; cbn in H; try discriminate.
    destruct (Z.to_nat m) as [|[|[|k]]]; cbn in H; discriminate.
  - exists fresh. split; [exact fresh_consistent|vm_compute; reflexivity].
Qed.
Print Assumptions C79_ragged_refuted.

(** C79. from_json into a view whose elements live at different positions of the storage of
    a container: the elements of the view get the values, and no other position changes.
    Missing: lists of more than four levels, and a check of the shapes, see the
    refutations. *)
Theorem C79_into_view_partial :
  forall (V : Type) (T : layout) (junk : list Z -> list Z) (c : cont V) e sh f j,
  T = row_major \/ T = column_major -> wf_exp e -> writable e c -> leading sh j -> (length sh <= 4)%nat ->
  contains f (x_shape e) j ->
  exists c', from_json_view T junk j e c = Ok c' /\ same_frame c c' /\
    (forall ix, in_bounds (x_shape e) ix -> stored c' (x_elem e ix) = Ok (f ix)) /\
    (forall q, (forall ix, in_bounds (x_shape e) ix -> x_elem e ix <> Slot q) -> stored c' (Slot q) = stored c (Slot q)).
Proof. intros V T junk c e sh f j HT. exact (from_json_view_lemma T junk HT c e sh f j). Qed.
Print Assumptions C79_into_view_partial.

Example C79_case_into_view :
  wf_exp column /\ writable column sheet /\ leading [3] (JArr [num 10; num 20; num 30]) /\
  contains (fun ix => 10 * (hd 0 ix + 1)) [2] (JArr [num 10; num 20; num 30]) /\
  (let* c := from_json_view row_major no_junk (JArr [num 10; num 20]) column sheet in Ok (ct_data c))
    = Ok [1; 4; 10; 20; 3; 6].
Proof.
  split; [exact column_wf|]. split; [exact column_writable|].
  split; [exact (leading_row (num 10) [num 20; num 30] [] (leading_scalar 10))|].
  split; [exact contains_column|vm_compute; reflexivity].
Qed.

(** The shape of the lists is not compared with that of the view: longer lists are cut, and
    shorter ones are read past their end. *)
Theorem C79_view_shape_refuted :
  exists (c : cont Z) e, wf_exp e /\ writable e c /\ x_shape e = [2] /\
    from_json_view row_major no_junk (JArr [num 10; num 20; num 30]) e c
      = Ok (mk_cont [2; 3] [1; 2] [1; 4] column_major [1; 4; 10; 20; 3; 6]) /\
    from_json_view row_major no_junk (JArr [num 10]) e c = UB.
Proof.
  exists sheet, column. split; [exact column_wf|]. split; [exact column_writable|]. split; [reflexivity|].
  split; vm_compute; reflexivity.
Qed.
Print Assumptions C79_view_shape_refuted.

(** Lists of more than four levels always write outside of the vector of the shape. *)
Theorem C79_view_depth_refuted :
  forall (V : Type) (T : layout) (junk : list Z -> list Z) (c : cont V) e sh j,
  leading sh j -> (4 < length sh)%nat -> from_json_view T junk j e c = UB.
Proof. intros V T junk. exact (from_json_view_deep T junk). Qed.
Print Assumptions C79_view_depth_refuted.

Example C79_case_depth :
  leading [1; 1; 1; 1; 1] (JArr [JArr [JArr [JArr [JArr [num 3]]]]]) /\
  from_json_view row_major no_junk (JArr [JArr [JArr [JArr [JArr [num 3]]]]]) (mk_xexp true [1; 1; 1; 1; 1] [0; 0; 0; 0; 0] 0 row_major) fresh = UB.
Proof. split; [exact (nested_leading [1; 1; 1; 1; 1] (fun _ => 3) ltac:(repeat constructor))|vm_compute; reflexivity]. Qed.
