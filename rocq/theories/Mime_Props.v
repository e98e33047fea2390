(** C93: HTML tables of arrays. *)
From Coq Require Import String ZArith Lia Bool List.
From Verif Require Import Prelude Strides_Model Strides_Spec Container_Model Container_Spec Npy_Model Csv_Model Print_Model Print_Spec Print_Proofs Print2_Proofs Print3_Proofs
  Mime_Model Mime_Spec Mime_Proofs Mime2_Proofs.
Import ListNotations.
Open Scope Z_scope.

(** C93. Each cell of the table has the index of an element in its title and the text of that element as contents; the cells are those of the elements shown, in order, and the tags are well nested.
    [raw]: the text of an element written by itself, used for an array without axes. Missing: one edge item and arrays without elements (refuted below); element types with a precision. *)
Theorem C93_cells_partial : forall (A St : Type) (pr : printer A St) (raw : A -> bytes) (po : options) (c : cont A) (v : list Z -> A) (st : St),
  let sh := ct_shape c in let e := edges po (prod sh) in
  options_ok po -> Forall (fun n => 0 < n) sh -> (forall ix, in_bounds sh ix -> elt c ix = Ok (v ix)) -> edges_ok e sh ->
  updates pr (pr_start pr) (map v (shown_ix e sh)) = Ok st ->
  exists page, mime pr raw po c = Ok page /\ well_nested page /\
    cells page = map (fun ix => (ix, match sh with [] => raw (v ix) | _ => pr_cell pr st (v ix) end)) (shown_ix e sh).
Proof. intros A St. exact mime_cells. Qed.
Print Assumptions C93_cells_partial.

(** Seven elements with two edge items beyond the threshold; a matrix in full *)
Example C93_case_cells :
  let po := mk_options 2 75 4 (-1) in
  options_ok po /\ edges_ok (edges po 7) [7] /\
  (let* p := mime (int_printer true 32) show_int po (row [1; -2; 3; 44; 5; 6; 7]) in Ok (cells p))
    = Ok [([0], str " 1"); ([1], str "-2"); ([5], str " 6"); ([6], str " 7")] /\
  (let* p := mime (int_printer true 32) show_int po (square [1; 2; 3; 4]) in Ok (renders p)) =
    Ok (str "<table style='border-style:solid;border-width:1px;'><tbody><tr><td style='font-family:monospace;' title='(0, 0)'><pre>1</pre></td><td style='font-family:monospace;' title='(0, 1)'><pre>2</pre></td></tr><tr><td style='font-family:monospace;' title='(1, 0)'><pre>3</pre></td><td style='font-family:monospace;' title='(1, 1)'><pre>4</pre></td></tr></tbody></table>").
Proof.
  split; [repeat split; cbn; lia|]. split; [repeat constructor; cbn; lia|]. split; vm_compute; reflexivity.
Qed.

(** An array with no more elements than the threshold: every element has exactly one cell. *)
Theorem C93_complete : forall (A St : Type) (pr : printer A St) (raw : A -> bytes) (po : options) (c : cont A) (v : list Z -> A) (st : St),
  let sh := ct_shape c in
  options_ok po -> Forall (fun n => 0 < n) sh -> (forall ix, in_bounds sh ix -> elt c ix = Ok (v ix)) -> prod sh <= o_threshold po ->
  updates pr (pr_start pr) (map v (shown_ix 0 sh)) = Ok st ->
  exists page, mime pr raw po c = Ok page /\ NoDup (map fst (cells page)) /\
    forall ix, in_bounds sh ix -> In (ix, match sh with [] => raw (v ix) | _ => pr_cell pr st (v ix) end) (cells page).
Proof.
  intros A St pr raw po c v st sh H1 H2 H3 H4 H5.
  assert (E : edges po (prod sh) = 0) by (unfold edges; replace (o_threshold po <? prod sh) with false by (symmetry; apply Z.ltb_ge; exact H4); reflexivity).
  destruct (mime_cells pr raw po c v st H1 H2 H3) as (p & P1 & _ & P2); fold sh; rewrite ?E in *; auto.
  - unfold edges_ok. apply Forall_forall. auto.
  - fold sh in P2. rewrite E in P2. exists p. split; [exact P1|]. rewrite P2. split.
    + rewrite map_map. cbn [fst]. rewrite map_id. apply all_nodup.
    + intros ix Hix. apply (in_map (fun ix => (ix, match sh with [] => raw (v ix) | _ => pr_cell pr st (v ix) end))). now apply all_in.
Qed.
Print Assumptions C93_complete.

Example C93_case_complete : prod (ct_shape (square [1; 2; 3; 4])) <= o_threshold default_options /\ options_ok default_options /\
  (let* p := mime (int_printer true 32) show_int default_options (square [1; 2; 3; 4]) in Ok (cells p))
    = Ok [([0; 0], str "1"); ([0; 1], str "2"); ([1; 0], str "3"); ([1; 1], str "4")].
Proof. split; [vm_compute; discriminate|]. split; [repeat split; cbn; lia|vm_compute; reflexivity]. Qed.

(** Different elements of an array have different titles. *)
Theorem C93_titles : forall ix jx, length ix = length jx -> title ix = title jx -> ix = jx.
Proof. exact title_inj. Qed.
Print Assumptions C93_titles.

Example C93_case_titles : title [10; 2; 3] = str " title='(10, 2, 3)'" /\ title [1; 0; 23] <> title [10; 2; 3].
Proof. split; [vm_compute; reflexivity|vm_compute; discriminate]. Qed.

(** The table of a matrix is rectangular, with or without ellipses: every row, that of the ellipses included, has as many columns as there are items shown. *)
Theorem C93_rectangular_partial : forall (A St : Type) (pr : printer A St) (raw : A -> bytes) (po : options) (c : cont A) (v : list Z -> A) (st : St) (r k : Z),
  let sh := ct_shape c in let e := edges po (prod sh) in
  sh = [r; k] ->
  options_ok po -> Forall (fun n => 0 < n) sh -> (forall ix, in_bounds sh ix -> elt c ix = Ok (v ix)) -> edges_ok e sh ->
  updates pr (pr_start pr) (map v (shown_ix e sh)) = Ok st ->
  exists rows, mime pr raw po c = Ok (in_table (flat_map in_row rows)) /\ length rows = length (shown e r) /\
    Forall (fun row => columns row = length (shown e k)) rows.
Proof. intros A St. exact mime_grid. Qed.
Print Assumptions C93_rectangular_partial.

(** 5 x 6 with two edge items: five rows of five columns, the third one with ellipses *)
Example C93_case_rectangular :
  let po := mk_options 2 75 4 (-1) in let c := mk_cont [5; 6] [6; 1] [24; 5] row_major (map Z.of_nat (seq 10 30)) in
  edges_ok (edges po 30) [5; 6] /\ length (shown 2 5) = 5%nat /\ length (shown 2 6) = 5%nat /\
  (let* p := mime (int_printer true 32) show_int po c in Ok (columns p, map snd (cells p)))
    = Ok (25%nat, map str ["10"; "11"; "14"; "15"; "16"; "17"; "20"; "21"; "28"; "29"; "32"; "33"; "34"; "35"; "38"; "39"]%string).
Proof. split; [repeat constructor; cbn; lia|]. split; [reflexivity|]. split; [reflexivity|vm_compute; reflexivity]. Qed.

(** Arrays without elements: elements outside the array are read. *)
Theorem C93_empty_refuted : forall (A St : Type) (pr : printer A St) (raw : A -> bytes) (po : options) (c : cont A),
  In 0 (ct_shape c) -> Forall (fun n => 0 <= n) (ct_shape c) -> mime pr raw po c = UB.
Proof. intros A St. exact mime_empty. Qed.
Print Assumptions C93_empty_refuted.

Example C93_case_empty : In 0 [2; 0; 3] /\ Forall (fun n => 0 <= n) [2; 0; 3] /\
  pretty_print bool_printer default_options (mk_options 0 0 0 0) (mk_cont [2; 0; 3] [0; 3; 1] [0; 0; 0] row_major []) = Ok (str "{}", mk_options 0 0 0 0).
Proof. split; [cbn; auto|]. split; [repeat constructor; lia|vm_compute; reflexivity]. Qed.

(** Texts are not escaped: two arrays of strings with different shapes give the same page. *)
Theorem C93_escape_refuted : exists (c c' : cont bytes) p p',
  ct_shape c = [1] /\ ct_shape c' = [2] /\ mime text_printer (fun s => s) default_options c = Ok p /\ mime text_printer (fun s => s) default_options c' = Ok p' /\
  renders p = renders p'.
Proof.
  exists (words_of [sly]), (words_of [str "a"; str "b"]). eexists. eexists.
  split; [reflexivity|]. split; [reflexivity|]. split; [vm_compute; reflexivity|]. split; [vm_compute; reflexivity|]. vm_compute. reflexivity.
Qed.
Print Assumptions C93_escape_refuted.

(** One edge item, as for the text of the array *)
Theorem C93_edge_one_refuted : exists (po : options) (c : cont Z), options_ok po /\ o_edge_items po = 1 /\ Forall (fun n => 0 < n) (ct_shape c) /\
  (forall ix, in_bounds (ct_shape c) ix -> exists x, elt c ix = Ok x) /\ mime (int_printer true 32) show_int po c = UB.
Proof.
  exists (mk_options 1 75 3 (-1)), (mk_cont [4] [1] [3] row_major [1; 2; 3; 4]). split; [repeat split; cbn; lia|]. split; [reflexivity|]. split; [repeat constructor|].
  split; [|vm_compute; reflexivity]. intros ix H. inversion H as [|? i ? jx Hi Hj]; subst. inversion Hj; subst.
  assert (i = 0 \/ i = 1 \/ i = 2 \/ i = 3) as [ -> | [ -> | [ -> | -> ]]] by lia; eexists; vm_compute; reflexivity.
Qed.
Print Assumptions C93_edge_one_refuted.
