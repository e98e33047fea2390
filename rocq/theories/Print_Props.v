(** C85: printing arrays. *)
From Coq Require Import String ZArith Lia Bool List.
From Verif Require Import Prelude Strides_Model Strides_Spec Container_Model Container_Spec Npy_Model Csv_Model Print_Model Print_Spec Print_Proofs Print2_Proofs Print3_Proofs.
Import ListNotations.
Open Scope Z_scope.

(** The text of an array: apart from blanks and line breaks, the nested list in braces of
    the texts of its elements, or of the edge items with an ellipsis on each axis with more of
    them. Options given to the stream are used once. Missing: one edge item (refuted below). *)
Theorem C85_text_partial : forall (A St : Type) (pr : printer A St) (global words : options) (c : cont A) (v : list Z -> A) (st : St),
  let po := chosen global words in let sh := ct_shape c in let e := edges po (prod sh) in
  options_ok po -> Forall (fun n => 0 < n) sh -> (forall ix, in_bounds sh ix -> elt c ix = Ok (v ix)) -> edges_ok e sh ->
  updates pr (pr_start pr) (map v (shown_ix e sh)) = Ok st -> 0 <= pr_width pr st ->
  exists text, pretty_print pr global words c = Ok (text, mk_options 0 0 0 0) /\
    ink text = literal e sh (fun ix => ink (pr_cell pr st (v ix))).
Proof. intros A St pr global words c v st po sh e H1 H2 H3 H4 H5 H6. destruct (print_lemma pr global words c v st H1 H2 H3 H4 H5 H6) as (t & E1 & E2 & _). eauto. Qed.
Print Assumptions C85_text_partial.

Example C85_case_text :
  let global := mk_options 2 75 4 (-1) in
  options_ok (chosen global none) /\ edges_ok (edges (chosen global none) 7) [7] /\
  pretty_print (int_printer true 32) global none (row [1; -2; 3; 44; 5; 6; 7]) = Ok (str "{ 1, -2, ...,  6,  7}", none) /\
  pretty_print bool_printer global none (mk_cont [2] [1] [1] row_major [true; false]) = Ok (str "{ true, false}", none) /\
  pretty_print text_printer default_options none (mk_cont [2] [1] [1] row_major [str "ab"; str "xyz"]) = Ok (str "{ ab, xyz}", none).
Proof.
  split; [repeat split; cbn; lia|]. split; [repeat constructor; cbn; lia|]. split; [vm_compute; reflexivity|]. split; vm_compute; reflexivity.
Qed.

(** An array with no more elements than the threshold, exactly: every element, with line
    breaks after inner arrays and after as many elements as fit on a line. *)
Theorem C85_layout : forall (A St : Type) (pr : printer A St) (global words : options) (c : cont A) (v : list Z -> A) (st : St),
  let po := chosen global words in let sh := ct_shape c in
  options_ok po -> Forall (fun n => 0 < n) sh -> (forall ix, in_bounds sh ix -> elt c ix = Ok (v ix)) -> prod sh <= o_threshold po ->
  updates pr (pr_start pr) (map v (shown_ix 0 sh)) = Ok st -> 0 <= pr_width pr st ->
  pretty_print pr global words c = Ok (layed_out (o_line_width po / (pr_width pr st + 2)) sh 1 (fun ix => pr_cell pr st (v ix)), mk_options 0 0 0 0).
Proof.
  intros A St pr global words c v st po sh H1 H2 H3 H4 H5 H6.
  assert (E : edges po (prod sh) = 0) by (unfold edges; replace (o_threshold po <? prod sh) with false by (symmetry; apply Z.ltb_ge; exact H4); reflexivity).
  destruct (print_lemma pr global words c v st H1 H2 H3) as (t & E1 & _ & E3); fold po sh; rewrite ?E in *; auto.
  - unfold edges_ok. apply Forall_forall. auto.
  - rewrite E1. fold po sh in E3. rewrite E3 by exact E. reflexivity.
Qed.
Print Assumptions C85_layout.

Example C85_case_layout : Forall (fun n => 0 < n) (ct_shape (square [1; 2; 3; 4])) /\
  (forall ix, in_bounds [2; 2] ix -> elt (square [1; 2; 3; 4]) ix = Ok (nth (Z.to_nat (2 * nth 0 ix 0 + nth 1 ix 0)) [1; 2; 3; 4] 0)) /\
  pretty_print (int_printer true 32) default_options none (square [1; 2; 3; 4]) = Ok (str "{{1, 2}," ++ [10] ++ str " {3, 4}}", none) /\
  pretty_print (int_printer true 32) default_options (mk_options 0 9 0 0) (row [10; 20; 30; 40; 50]) = Ok (str "{10, 20," ++ [10] ++ str " 30, 40," ++ [10] ++ str " 50}", none).
Proof. split; [repeat constructor|]. split; [intros ix; apply square_elt|]. split; vm_compute; reflexivity. Qed.

(** Integers: all texts have the same width. *)
Theorem C85_aligned_integers : forall (sg : bool) (b : Z) (l : list Z), 1 < b -> Forall (printable sg b) l ->
  exists st, updates (int_printer sg b) (pr_start (int_printer sg b)) l = Ok st /\ 0 < pr_width (int_printer sg b) st /\
    forall v, In v l -> Z.of_nat (length (pr_cell (int_printer sg b) st v)) = pr_width (int_printer sg b) st /\ ink (pr_cell (int_printer sg b) st v) = show_int v.
Proof.
  intros sg b l Hb Hl. destruct (int_aligned sg b l Hb Hl) as (st & E & W & H). exists st. split; [exact E|]. split; [exact W|]. intros v Hv.
  split; [apply H; exact Hv|]. cbn [pr_cell int_printer]. rewrite ink_pad. apply plain_ink, show_int_plain.
Qed.
Print Assumptions C85_aligned_integers.

Example C85_case_aligned : Forall (printable true 8) [-127; 5; 99] /\
  map (pr_cell (int_printer true 8) (127, true)) [-127; 5; 99] = [str "-127"; str "   5"; str "  99"].
Proof. split; [repeat constructor|vm_compute; reflexivity]. Qed.

(** Strings of at most 20 characters: all texts have the same width. *)
Theorem C85_aligned_texts_partial : forall (l : list bytes), (forall s, In s l -> (length s <= 20)%nat) ->
  exists st, updates text_printer (pr_start text_printer) l = Ok st /\ 0 <= pr_width text_printer st /\
    forall s, In s l -> Z.of_nat (length (pr_cell text_printer st s)) = pr_width text_printer st.
Proof. exact text_aligned. Qed.
Print Assumptions C85_aligned_texts_partial.

Example C85_case_texts : forall s, In s [str "a"; str "bcd"] -> (length s <= 20)%nat.
Proof. intros s [<-|[<-|[]]]; cbn; lia. Qed.

(** With a longer string no element is padded. *)
Theorem C85_aligned_texts_refuted : ~ (forall (l : list bytes) st, updates text_printer (pr_start text_printer) l = Ok st ->
  forall s t, In s l -> In t l -> length (pr_cell text_printer st s) = length (pr_cell text_printer st t)).
Proof.
  intros H. specialize (H [str "abcdefghijklmnopqrstu"; str "x"] _ eq_refl (str "abcdefghijklmnopqrstu") (str "x") (or_introl eq_refl) (or_intror (or_introl eq_refl))).
  discriminate H.
Qed.
Print Assumptions C85_aligned_texts_refuted.

(** Two arrays of integers printed in full with the same text have the same shape and
    the same elements. *)
Theorem C85_faithful : forall (sg : bool) (b : Z) (global words global' words' : options) (c c' : cont Z) (v v' : list Z -> Z) (text : bytes) (left left' : options),
  1 < b -> options_ok (chosen global words) -> options_ok (chosen global' words') ->
  Forall (fun n => 0 < n) (ct_shape c) -> Forall (fun n => 0 < n) (ct_shape c') ->
  prod (ct_shape c) <= o_threshold (chosen global words) -> prod (ct_shape c') <= o_threshold (chosen global' words') ->
  (forall ix, in_bounds (ct_shape c) ix -> elt c ix = Ok (v ix) /\ printable sg b (v ix)) ->
  (forall ix, in_bounds (ct_shape c') ix -> elt c' ix = Ok (v' ix) /\ printable sg b (v' ix)) ->
  pretty_print (int_printer sg b) global words c = Ok (text, left) -> pretty_print (int_printer sg b) global' words' c' = Ok (text, left') ->
  ct_shape c = ct_shape c' /\ forall ix, in_bounds (ct_shape c) ix -> v ix = v' ix.
Proof.
  intros sg b global words global' words' c c' v v' text left left' Hb O O' P P' T T' Hv Hv' E E'.
  assert (G : forall g w (k : cont Z) u, options_ok (chosen g w) -> Forall (fun n => 0 < n) (ct_shape k) -> prod (ct_shape k) <= o_threshold (chosen g w) ->
    (forall ix, in_bounds (ct_shape k) ix -> elt k ix = Ok (u ix) /\ printable sg b (u ix)) ->
    exists t l, pretty_print (int_printer sg b) g w k = Ok (t, l) /\ ink t = literal 0 (ct_shape k) (fun ix => show_int (u ix))).
  { intros g w k u Ok1 Pk Tk Hu.
    assert (E0 : edges (chosen g w) (prod (ct_shape k)) = 0) by (unfold edges; replace (o_threshold (chosen g w) <? prod (ct_shape k)) with false by (symmetry; apply Z.ltb_ge; exact Tk); reflexivity).
    destruct (int_aligned sg b (map u (shown_ix 0 (ct_shape k))) Hb) as (st & U & W & _).
    { apply Forall_forall. intros x Hx. apply in_map_iff in Hx. destruct Hx as (ix & <- & Hi). apply Hu. eapply shown_in_bounds; [|exact Hi]. lia. }
    destruct (print_lemma (int_printer sg b) g w k u st Ok1 Pk) as (t & E1 & E2 & _); rewrite ?E0; auto; [intros ix Hi; apply Hu; exact Hi|apply Forall_forall; auto|lia|].
    exists t, (mk_options 0 0 0 0). split; [exact E1|]. rewrite E2, E0. apply literal_ext. intros ix. cbn [pr_cell int_printer]. rewrite ink_pad. apply plain_ink, show_int_plain. }
  destruct (G _ _ c v O P T Hv) as (t1 & l1 & A1 & B1). destruct (G _ _ c' v' O' P' T' Hv') as (t2 & l2 & A2 & B2).
  rewrite E in A1. rewrite E' in A2. injection A1 as <- <-. injection A2 as <- <-. rewrite B1 in B2.
  destruct (literal_inj (ct_shape c) (ct_shape c') (fun ix => show_int (v ix)) (fun ix => show_int (v' ix)) [] []) as (S1 & S2 & _); auto;
    try (intros; apply show_int_plain); [exact I|exact I|rewrite !app_nil_r; exact B2|].
  split; [exact S1|]. intros ix Hi. apply show_int_inj. apply S2. exact Hi.
Qed.
Print Assumptions C85_faithful.

Example C85_case_faithful : pretty_print (int_printer true 32) default_options none (square [1; 2; 3; 4]) = Ok (str "{{1, 2}," ++ [10] ++ str " {3, 4}}", none) /\
  prod (ct_shape (square [1; 2; 3; 4])) <= o_threshold (chosen default_options none) /\ Forall (printable true 32) [1; 2; 3; 4].
Proof. split; [vm_compute; reflexivity|]. split; [vm_compute; discriminate|repeat constructor]. Qed.

(** Lines of a one-dimensional array printed in full are no longer than the line width, if
    one element fits. Missing: more dimensions, wider elements (refuted below). *)
Theorem C85_line_width_partial : forall (sg : bool) (b : Z) (global words : options) (c : cont Z) (v : list Z -> Z) (n : Z) (text : bytes) (left : options) (st : Z * bool),
  let po := chosen global words in
  1 < b -> options_ok po -> ct_shape c = [n] -> 0 < n <= o_threshold po -> (forall ix, in_bounds [n] ix -> elt c ix = Ok (v ix) /\ printable sg b (v ix)) ->
  updates (int_printer sg b) (0, false) (map v (shown_ix 0 [n])) = Ok st -> pr_width (int_printer sg b) st + 2 <= o_line_width po ->
  pretty_print (int_printer sg b) global words c = Ok (text, left) ->
  Forall (fun l => Z.of_nat (length l) <= o_line_width po) (lines text).
Proof.
  intros sg b global words c v n text left st po Hb O Es [Hn Ht] Hv U Hw E.
  assert (P : prod [n] = n) by (rewrite Strides_Proofs.prod_cons, Strides_Proofs.prod_nil; lia).
  assert (HP : Forall (printable sg b) (map v (shown_ix 0 [n]))).
  { apply Forall_forall. intros x Hx. apply in_map_iff in Hx. destruct Hx as (ix & <- & Hi). apply Hv. eapply shown_in_bounds; [|exact Hi]. lia. }
  destruct (int_aligned sg b _ Hb HP) as (st' & U' & W & A). change (pr_start (int_printer sg b)) with (0, false) in U'. rewrite U in U'. injection U' as <-.
  pose proof (C85_layout Z _ (int_printer sg b) global words c v st) as L. cbv zeta in L. fold po in L. rewrite Es, P in L.
set (lo := layed_out _ _ _ _) in L.
    rewrite L in E; [|exact O|repeat constructor; exact Hn|intros ix Hi; apply Hv; exact Hi|exact Ht|exact U|lia]. injection E as <- _. unfold lo.
  apply (row_lemma _ (pr_width (int_printer sg b) st)); [exact Hn|lia|apply Z.div_str_pos; lia|rewrite Z.mul_comm; apply Z.mul_div_le; lia|].
  intros i Hi. split.
  - rewrite A; [lia|]. apply in_map_iff. exists [i]. split; [reflexivity|]. cbn [shown_ix]. apply in_flat_map. exists i.
    split; [|left; reflexivity]. unfold shown. cbn [Z.eqb orb]. rewrite positions_some. apply zfrom_in. lia.
  - cbn [pr_cell int_printer]. unfold pad. rewrite in_app_iff. intros [X|X]; [apply repeat_spec in X; discriminate X|]. apply (show_int_plain (v [i])) in X. apply X. reflexivity.
Qed.
Print Assumptions C85_line_width_partial.

Example C85_case_line_width : let po := chosen default_options (mk_options 0 9 0 0) in
  updates (int_printer true 32) (0, false) [10; 20; 30; 40; 50] = Ok (50, false) /\ pr_width (int_printer true 32) (50, false) + 2 <= o_line_width po /\
  map (fun l => Z.of_nat (length l)) (lines (str "{10, 20," ++ [10] ++ str " 30, 40," ++ [10] ++ str " 50}")) = [8; 8; 4].
Proof. split; [vm_compute; reflexivity|]. split; [vm_compute; discriminate|reflexivity]. Qed.

(** Lines are longer than the line width in arrays of several dimensions, and are not
    broken at all when an element with its separator does not fit on a line. *)
Theorem C85_line_width_refuted :
  (exists text, pretty_print (int_printer true 32) default_options (mk_options 0 10 0 0) (square [100; 200; 300; 400]) = Ok (text, none) /\
     ~ Forall (fun l => Z.of_nat (length l) <= 10) (lines text)) /\
  (exists text, pretty_print (int_printer true 32) default_options (mk_options 0 4 0 0) (row [100; 200; 300; 400]) = Ok (text, none) /\
     lines text = [text] /\ length text = 20%nat).
Proof.
  split.
  - eexists. split; [vm_compute; reflexivity|]. intros H. vm_compute in H. inversion H as [|? ? X _]; subst. apply X. reflexivity.
  - eexists. split; [vm_compute; reflexivity|]. split; reflexivity.
Qed.
Print Assumptions C85_line_width_refuted.

(** With one edge item, every vector of more than two elements beyond the threshold is
    read out of bounds: the loop passes its end. *)
Theorem C85_edge_one_refuted : forall (A St : Type) (pr : printer A St) (global words : options) (d : list A) (n : Z),
  let po := chosen global words in
  options_ok po -> n = Z.of_nat (length d) -> 2 < n -> o_threshold po < n -> o_edge_items po = 1 -> (forall st x, exists st', pr_update pr st x = Ok st') ->
  pretty_print pr global words (mk_cont [n] [1] [n - 1] row_major d) = UB.
Proof. intros. eapply edge_one; eassumption. Qed.
Print Assumptions C85_edge_one_refuted.

Example C85_case_edge_one : let po := chosen (mk_options 3 75 3 (-1)) (mk_options 1 0 0 0) in
  options_ok po /\ o_threshold po < 4 /\ o_edge_items po = 1 /\ (forall st x, exists st', pr_update bool_printer st x = Ok st') /\
  pretty_print bool_printer (mk_options 3 75 3 (-1)) (mk_options 1 0 0 0) (mk_cont [4] [1] [3] row_major [true; true; false; true]) = UB.
Proof. split; [repeat split; cbn; lia|]. split; [reflexivity|]. split; [reflexivity|]. split; [intros; exists tt; reflexivity|vm_compute; reflexivity]. Qed.

(** The least value of a type: its absolute value is undefined from int on, and wraps in
    narrower types, where the elements are then not aligned. *)
Theorem C85_least_refuted :
  pretty_print (int_printer true 32) default_options none (row [- 2 ^ 31; 5]) = UB /\
  ~ (forall (l : list Z) st, (forall v, In v l -> - 2 ^ 7 <= v < 2 ^ 7) -> updates (int_printer true 8) (0, false) l = Ok st ->
       forall v w, In v l -> In w l -> length (pr_cell (int_printer true 8) st v) = length (pr_cell (int_printer true 8) st w)).
Proof.
  split; [vm_compute; reflexivity|]. intros H.
  specialize (H [-128; 5] (5, true)). assert (X : forall v, In v [-128; 5] -> - 2 ^ 7 <= v < 2 ^ 7) by (intros v [<-|[<-|[]]]; lia).
  specialize (H X ltac:(vm_compute; reflexivity) (-128) 5 (or_introl eq_refl) (or_intror (or_introl eq_refl))). vm_compute in H. discriminate H.
Qed.
Print Assumptions C85_least_refuted.

(** An array without elements, of any shape, is an empty pair of braces. *)
Theorem C85_empty : forall (A St : Type) (pr : printer A St) (global words : options) (c : cont A),
  prod (ct_shape c) = 0 -> pretty_print pr global words c = Ok (str "{}", mk_options 0 0 0 0).
Proof. exact @empty_lemma. Qed.
Print Assumptions C85_empty.

Example C85_case_empty : prod (ct_shape (mk_cont [2; 0; 3] [0; 3; 1] [0; 0; 2] row_major (@nil Z))) = 0.
Proof. reflexivity. Qed.

(** The texts of truth values have the same width. *)
Theorem C85_aligned_booleans : forall b st,
  ink (pr_cell bool_printer st b) = str (if b then "true" else "false") /\ Z.of_nat (length (pr_cell bool_printer st b)) = pr_width bool_printer st.
Proof. intros [|] []; split; reflexivity. Qed.
Print Assumptions C85_aligned_booleans.

Example C85_case_booleans : pr_cell bool_printer tt true = str " true".
Proof. reflexivity. Qed.
