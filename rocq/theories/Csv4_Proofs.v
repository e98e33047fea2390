(** Proofs about CSV, continued: the special cases. *)
From Coq Require Import String List ZArith Lia Bool.
From Verif Require Import Prelude PreludeFacts Strides_Model Strides_Spec Strides_Proofs Broadcast_Spec Stepper_Model
  Stepper_Spec Container_Model Container_Spec Container_Proofs Access_Model Npy_Model
  Csv_Model Csv_Spec Csv_Proofs Csv2_Proofs Csv3_Proofs.
Import ListNotations.
Open Scope Z_scope.

Definition int_lo := - 2 ^ 31.
Definition int_hi := 2 ^ 31 - 1.

(** take_until consumes *)
Lemma take_until_length d s : (length (snd (take_until d s)) <= length s - 1)%nat.
Proof.
  induction s as [|c s IH]; [cbn; lia|]. cbn [take_until]. destruct (c =? d); [cbn; lia|]. destruct (take_until d s) as [a r]. cbn [snd] in *. cbn. lia.
Qed.
Lemma empty_mark_loop {T} (cast : bytes -> res T) d skip max : forall fuel text nh, (length text < fuel)%nat ->
  exists nh', load_lines cast fuel d skip max [] text (mk_load [] 0 0 nh) = Ok (mk_load [] 0 0 nh').
Proof.
  induction fuel as [|fuel IH]; intros text nh H; [lia|]. cbn [load_lines]. destruct text as [|c text]; [cbn; eauto|].
  unfold getline. pose proof (take_until_length 10 (c :: text)) as HL. destruct (take_until 10 (c :: text)) as [row s]. cbn [snd length] in *.
  cbn [ld_nhead ld_data ld_nbrow ld_nbcol starts_with bind]. destruct (nh <? skip); apply IH; lia.
Qed.
Lemma empty_mark_lemma {T} (cast : bytes -> res T) d skip max text :
  exists t, load_csv cast d skip max [] text = Ok t /\ ct_shape t = [0; 0] /\ ct_data t = [].
Proof.
  unfold load_csv. destruct (empty_mark_loop cast d skip max (S (length text)) text 0) as (nh & ->); [lia|]. cbn [bind ld_nbrow ld_nbcol ld_data].
  eexists. split; [vm_compute; reflexivity|]. split; reflexivity.
Qed.

Lemma dimension_lemma {V} (show : V -> bytes) sh e : length sh <> 2%nat -> dump_csv show sh e = Throw runtime_error.
Proof. intros H. destruct sh as [|a [|b [|c sh]]]; try reflexivity. contradiction H; reflexivity. Qed.

(** Fixtures *)
Definition csv_case : bytes :=
  str "a,b" ++ [10] ++ str "1,2" ++ [10] ++ str "# note" ++ [10] ++ str " 3,-44" ++ [10] ++ str "x".
Lemma csv_case_file : csv_file 44 1 2 [35] csv_case [[str "1"; str "2"]; [str " 3"; str "-44"]].
Proof.
  exists [str "a,b"], [str "1,2"; str "# note"; str " 3,-44"; str "x"].
  assert (D : forall x l, existsb (Z.eqb x) l = false -> ~ In x l).
  { intros x l H HI. assert (E : existsb (Z.eqb x) l = true) by (apply existsb_exists; exists x; split; [exact HI|apply Z.eqb_refl]). congruence. }
  split; [right; split; [reflexivity|discriminate]|]. split; [repeat (constructor; [apply D; reflexivity|]); constructor|]. split; [left; reflexivity|].
  assert (U : forall c s, c <> 35 -> unlike [35] (c :: s)) by (intros c s H; exists 0%nat, 35, c; repeat split; auto).
  apply holds_row; [apply U; discriminate| |discriminate|].
  - split; [reflexivity|]. split; [repeat (constructor; [apply D; reflexivity|]); constructor|discriminate].
  - apply holds_comment; [exists (str " note"); reflexivity|]. apply holds_row; [apply U; discriminate| |discriminate|].
    + split; [reflexivity|]. split; [repeat (constructor; [apply D; reflexivity|]); constructor|discriminate].
    + apply holds_enough. apply U. discriminate.
Qed.
Lemma one_line_file d mark l cells : ~ In 10 l -> unlike mark l -> is_row d cells l -> csv_file d 0 (-1) mark (l ++ [10]) [cells].
Proof.
  intros H1 H2 H3. exists [], [l]. split; [left; unfold terminated; cbn; rewrite app_nil_r; reflexivity|]. split; [constructor; [exact H1|constructor]|].
  split; [left; reflexivity|]. apply holds_row; [exact H2|exact H3|discriminate|constructor].
Qed.

(** A sum of a column and a row *)
Definition csv_sum : sexp Z :=
  XFun (fun vs => fold_right Z.add 0 vs)
    [XStrided (mk_container [2; 1] [1; 0] [1; 0] 0) [-5; 20]; XStrided (mk_container [3] [1] [2] 0) [1; 2; 3]].
Definition csv_sum_at (i j : Z) : Z := (if i =? 0 then -5 else 20) + (j + 1).
Lemma csv_sum_ok : operands_ok [2; 3] csv_sum.
Proof.
  unfold operands_ok, csv_sum. cbn [all_leaves fold_right k_shape].
  split; [|split; [|exact I]].
  - split.
    + split; [cbn; lia|]. intros [|[|k]]; cbn; auto; destruct k; auto.
    + split; [reflexivity|]. split; [reflexivity|]. intros [|[|j]] H; cbn in *; try lia; split; intros; lia.
  - split.
    + split; [cbn; lia|]. intros [|[|k]]; cbn; auto; destruct k; auto.
    + split; [reflexivity|]. split; [reflexivity|]. intros [|j] H; cbn in *; try lia; split; intros; lia.
Qed.
Lemma csv_sum_value i j : 0 <= i < 2 -> 0 <= j < 3 -> x_value [i; j] csv_sum = Ok (csv_sum_at i j).
Proof.
  intros Hi Hj. assert (Ei : i = 0 \/ i = 1) by lia. assert (Ej : j = 0 \/ j = 1 \/ j = 2) by lia.
  destruct Ei as [ -> | -> ], Ej as [ -> |[ -> | -> ]]; reflexivity.
Qed.
