(** Cases for JSON input and output. *)
From Coq Require Import List ZArith Lia Bool.
From Verif Require Import Prelude PreludeFacts Strides_Model Strides_Spec Container_Model Container_Spec
  SView_Model SView_Spec SView4_Proofs Json_Model Json_Spec Json_Proofs Json2_Proofs.
Import ListNotations.
Open Scope Z_scope.

Definition no_junk (slices : list Z) : list Z := [7; 7; 7; 7; 7; 7; 7].
Definition keep_front (d : list Z) (n : Z) : list Z := firstn (Z.to_nat n) d ++ repeat 0 (Z.to_nat n - length d).
Lemma keep_front_ok d n : 0 <= n -> Z.of_nat (length (keep_front d n)) = n.
Proof. intros Hn. unfold keep_front. rewrite app_length, repeat_length, firstn_length. lia. Qed.

(** A default constructed array, and a 2x3 one in column major order *)
Definition fresh : cont Z := mk_cont [] [] [] row_major [0].
Definition sheet : cont Z := mk_cont [2; 3] [1; 2] [1; 4] column_major [1; 4; 2; 5; 3; 6].
Lemma fresh_consistent : consistent fresh.
Proof.
  split; [constructor|]. split; [reflexivity|]. split; [reflexivity|]. split; [reflexivity|].
  exists row_major. split; [left; reflexivity|]. split; [reflexivity|]. intros ix Hix. inversion Hix; reflexivity.
Qed.
Lemma sheet_consistent : consistent sheet.
Proof.
  split; [repeat constructor; lia|]. split; [reflexivity|]. split; [reflexivity|]. split; [reflexivity|].
  exists column_major. split; [right; reflexivity|]. split; [reflexivity|].
  intros ix Hix. inversion Hix as [|? i ? ? Hi H2]; subst. inversion H2 as [|? k ? ? Hk H3]; subst. inversion H3; subst.
  unfold element_offset, rank, sheet, ct_strides, ct_shape. cbn. lia.
Qed.

(** Column 1 of the sheet: two elements, at positions 2 and 3 of its storage *)
Definition column : xexp := mk_xexp true [2] [1] 2 dynamic.
Lemma column_wf : wf_exp column.
Proof. split; [repeat constructor; lia|reflexivity]. Qed.
Lemma column_writable : writable column sheet.
Proof.
  assert (H1 : forall ix, in_bounds [2] ix -> exists i, ix = [i] /\ 0 <= i < 2).
  { intros ix H. inversion H as [|? i ? ? Hi H2]; subst. inversion H2; subst. eauto. }
  split; [reflexivity|]. split.
  - intros ix Hix. destruct (H1 ix Hix) as (i & -> & Hi). exists (2 + i). split.
    + unfold x_elem. cbn. f_equal. lia.
    + cbn. lia.
  - intros ix jx Hix Hjx. destruct (H1 ix Hix) as (i & -> & Hi), (H1 jx Hjx) as (k & -> & Hk). unfold x_elem. cbn.
    intros E. injection E as E. f_equal. lia.
Qed.

Definition num (n : Z) : json Z := JVal n.
Lemma contains_column : contains (fun ix => 10 * (hd 0 ix + 1)) [2] (JArr [num 10; num 20; num 30]).
Proof.
  constructor. intros i Hi. destruct i as [|[|i]]; [| |lia]; eexists; (split; [reflexivity|]);
    [change (num 10) with (num ((fun ix : list Z => 10 * (Z.of_nat 0 + 1)) []))|change (num 20) with (num ((fun ix : list Z => 10 * (Z.of_nat 1 + 1)) []))];
    apply (contains_scalar (fun ix : list Z => _)).
Qed.
