(** C98: the scope of print options. *)
From Coq Require Import String List ZArith Bool Lia.
From Verif Require Import Prelude Strides_Model Access_Model Container_Model Npy_Model Csv_Model Print_Model PrintOpt_Model PrintOpt_Spec PrintOpt_Proofs.
Import ListNotations.
Open Scope Z_scope.

(** At every point of every program without manipulators of value 0, an array is printed with the options in force there: those given to that stream since the last array printed to it, and
    the global ones for the rest. The precision of the stream is the one in force, or its own when that is -1. Afterwards the stream carries no options, and its precision and flags are those the
    program has set. *)
Theorem C98_text_partial : forall (A St : Type) (pr : printer A St) (scratch : Z -> Z) (past : list (stmt (A := A))) (w : world) (s : nat) (c : cont A),
  no_zero past -> run pr scratch start (rev past) = Ok w ->
  show pr scratch w s c =
    (let* '(text, _) := pretty_print pr (force past s) (mk_options 0 0 0 0) c in
     Ok (text, (if (compute_size (ct_shape c) =? 0) || (in_force past s Precision =? -1) then own_precision past s else in_force past s Precision),
         put w s (mk_stream (mk_options 0 0 0 0) (own_precision past s) (own_flags past s)))).
Proof. intros A St pr scratch past w s c Z H. now apply show_lemma. Qed.
Print Assumptions C98_text_partial.

(** Printing never changes the precision and flags of any stream, nor the options of other streams or the global ones: they are what the program has set, in every program. *)
Theorem C98_format : forall (A St : Type) (pr : printer A St) (scratch : Z -> Z) (past : list (stmt (A := A))) (w : world),
  run pr scratch start (rev past) = Ok w ->
  (forall f, of_field (global w) f = latest past f) /\
  forall s, prec (streams w s) = own_precision past s /\ flags (streams w s) = own_flags past s /\
    forall f, of_field (words (streams w s)) f = match given past s f with Some v => v | None => 0 end.
Proof. intros A St pr scratch past w H. destruct (world_after pr scratch past w H) as (G & S). split; [exact G|]. intros s. destruct (S s) as (S1 & S2 & S3). auto. Qed.
Print Assumptions C98_format.

(** A manipulator of value 0 is as if no manipulator of its kind had been given: the global value is used, in every program. *)
Theorem C98_zero_ignored : forall (A St : Type) (pr : printer A St) (scratch : Z -> Z) (past : list (stmt (A := A))) (w w' : world) (s : nat) (f : field) (c : cont A) (text : bytes) (p : Z),
  run pr scratch start (rev past ++ [Give s f 0]) = Ok w -> show pr scratch w s c = Ok (text, p, w') ->
  exists o, of_field o f = latest past f /\ pretty_print pr o (mk_options 0 0 0 0) c = Ok (text, mk_options 0 0 0 0).
Proof. intros A St pr scratch past w w' s f c text p H Q. now apply (zero_lemma pr scratch past w s f c text p w'). Qed.
Print Assumptions C98_zero_ignored.

(** So out << threshold(0) << edge_items(2) << a prints all of a, which threshold(1) does not; precision(0) is ignored too. *)
Definition eight : cont Z := mk_cont [8] [1] [7] row_major [1; 2; 3; 4; 5; 6; 7; 8].
Theorem C98_zero_refuted :
  (let* w := run (int_printer true 32) (fun x => x) start [Give 0 Threshold 0; Give 0 EdgeItems 2; Give 0 Precision 0] in
   let* '(text, p, _) := show (int_printer true 32) (fun x => x) w 0 eight in Ok (text, p)) = Ok (str "{1, 2, 3, 4, 5, 6, 7, 8}", 6) /\
  (let* w := run (int_printer true 32) (fun x => x) start [Give 0 Threshold 1; Give 0 EdgeItems 2; Give 0 Precision 1] in
   let* '(text, p, _) := show (int_printer true 32) (fun x => x) w 0 eight in Ok (text, p)) = Ok (str "{1, 2, ..., 7, 8}", 1).
Proof. split; vm_compute; reflexivity. Qed.
Print Assumptions C98_zero_refuted.

(** Two streams; a global threshold of 4; edge items given to stream 0 are used once. *)
Definition c98_past : list (stmt (A := Z)) := [Show 0 eight; Format 1 3 5; Give 1 Precision 9; Give 0 EdgeItems 2; SetOption Threshold 4].
Example C98_case : no_zero c98_past /\ exists w, run (int_printer true 32) (fun x => x + 1) start (rev c98_past) = Ok w /\
  force c98_past 0 = mk_options 3 75 4 (-1) /\ force c98_past 1 = mk_options 3 75 4 9 /\ own_precision c98_past 1 = 3 /\ own_flags c98_past 1 = 5 /\
  (let* '(text, p, _) := show (int_printer true 32) (fun x => x + 1) w 0 eight in Ok (text, p)) = Ok (str "{1, 2, 3, ..., 6, 7, 8}", 6) /\
  (let* '(text, p, _) := show (int_printer true 32) (fun x => x + 1) w 1 eight in Ok (text, p)) = Ok (str "{1, 2, 3, ..., 6, 7, 8}", 9).
Proof. split; [unfold no_zero, c98_past; repeat constructor; lia|]. eexists. split; [vm_compute; reflexivity|]. repeat split; vm_compute; reflexivity. Qed.
