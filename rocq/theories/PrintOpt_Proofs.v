(** Proofs about the scope of print options. *)
From Coq Require Import List ZArith Bool Lia.
From Verif Require Import Prelude Strides_Model Access_Model Container_Model Npy_Model Csv_Model Print_Model PrintOpt_Model PrintOpt_Spec.
Import ListNotations.
Open Scope Z_scope.

Section P.
Context {A St : Type} (pr : printer A St) (scratch : Z -> Z).
Notation stmt := (stmt (A := A)).

Lemma run_app (h1 h2 : list stmt) w : run pr scratch w (h1 ++ h2) = (let* w := run pr scratch w h1 in run pr scratch w h2).
Proof. revert w. induction h1 as [|c h IH]; intros w; cbn; [reflexivity|]. destruct (exec pr scratch w c); cbn; [apply IH|reflexivity|reflexivity]. Qed.

Lemma field_set o f g v : of_field (set_field o g v) f = if same f g then v else of_field o f.
Proof. destruct f, g; reflexivity. Qed.
(** Options picked by get_print_options, for any field *)
Lemma picked g w f : of_field (fst (get_print_options g w)) f = if of_field w f =? 0 then of_field g f else of_field w f.
Proof.
  unfold get_print_options.
  destruct (Z.eqb_spec (o_edge_items w) 0), (Z.eqb_spec (o_line_width w) 0), (Z.eqb_spec (o_threshold w) 0), (Z.eqb_spec (o_precision w) 0), f; cbn;
    repeat match goal with H : _ = 0 |- _ => rewrite H end; repeat match goal with H : _ <> 0 |- _ => apply Z.eqb_neq in H; rewrite H end; reflexivity.
Qed.
Lemma reset g w : snd (get_print_options g w) = mk_options 0 0 0 0.
Proof.
  unfold get_print_options.
  destruct (Z.eqb_spec (o_edge_items w) 0), (Z.eqb_spec (o_line_width w) 0), (Z.eqb_spec (o_threshold w) 0), (Z.eqb_spec (o_precision w) 0); cbn; congruence.
Qed.
Lemma options_ext o p : (forall f, of_field o f = of_field p f) -> o = p.
Proof. intros H. pose proof (H EdgeItems). pose proof (H LineWidth). pose proof (H Threshold). pose proof (H Precision). destruct o, p; cbn in *; congruence. Qed.
Lemma picked_twice g w : get_print_options (fst (get_print_options g w)) (mk_options 0 0 0 0) = (fst (get_print_options g w), mk_options 0 0 0 0).
Proof. destruct (fst (get_print_options g w)); reflexivity. Qed.
Lemma print_same g w (c : cont A) : pretty_print pr g w c = pretty_print pr (fst (get_print_options g w)) (mk_options 0 0 0 0) c.
Proof.
  unfold pretty_print. rewrite picked_twice. pose proof (reset g w) as R. destruct (get_print_options g w) as (po, r). cbn [fst snd] in *. subst r. reflexivity.
Qed.
Lemma print_rest g w (c : cont A) text rest : pretty_print pr g w c = Ok (text, rest) -> rest = mk_options 0 0 0 0.
Proof.
  unfold pretty_print. pose proof (reset g w) as R. destruct (get_print_options g w) as (po, r). cbn [snd] in R. subst r.
  destruct (compute_size (ct_shape c) =? 0); [congruence|]. cbv zeta. destruct (recurser_run _ _ _ _ _ _) as [(st, cache)| |]; cbn [bind]; try discriminate.
  destruct (xoutput _ _ _ _ _ _) as [(out, k)| |]; cbn [bind]; congruence.
Qed.
Lemma show_world w s c text p w' : show pr scratch w s c = Ok (text, p, w') -> w' = put w s (mk_stream (mk_options 0 0 0 0) (prec (streams w s)) (flags (streams w s))).
Proof.
  unfold show. destruct (pretty_print pr (global w) (words (streams w s)) c) as [(t, r)| |] eqn:E; cbn [bind]; try discriminate. apply print_rest in E. subst r.
  destruct (compute_size (ct_shape c) =? 0); cbn; intros H; congruence.
Qed.
(** What a stream carries: as [given], but 0 when nothing is *)
Definition carried (past : list stmt) (s : nat) (f : field) : Z := match given past s f with Some v => v | None => 0 end.
Lemma world_after (past : list stmt) w : run pr scratch start (rev past) = Ok w ->
  (forall f, of_field (global w) f = latest past f) /\ forall s, (forall f, of_field (words (streams w s)) f = carried past s f) /\ prec (streams w s) = own_precision past s /\ flags (streams w s) = own_flags past s.
Proof.
  revert w. induction past as [|c past IH]; intros w.
  - cbn. intros H. injection H as <-. split; [intros []; reflexivity|]. intros s. split; [intros []; reflexivity|split; reflexivity].
  - cbn [rev]. rewrite run_app. destruct (run pr scratch start (rev past)) as [w0| |] eqn:E; cbn [bind]; try discriminate. destruct (IH w0 eq_refl) as (G & S). cbn [run].
    destruct c as [g v|t g v|t a|t p fl]; cbn [exec].
    + cbn [bind]. intros H. injection H as <-. split; [intros f; cbn [global latest]; rewrite field_set; destruct (same f g); [reflexivity|apply G]|exact S].
    + cbn [bind]. intros H. injection H as <-. split; [exact G|]. intros s. unfold put, carried. cbn [streams given own_precision own_flags]. destruct (Nat.eqb_spec s t) as [ -> |N].
      * cbn [words prec flags andb]. destruct (S t) as (S1 & S2 & S3). split; [|split; [exact S2|exact S3]]. intros f. rewrite field_set. destruct (same f g); [reflexivity|apply S1].
      * cbn [andb]. apply S.
    + destruct (show pr scratch w0 t a) as [((text, p), w1)| |] eqn:H1; cbn [bind]; try discriminate. intros H. injection H as <-. apply show_world in H1. subst w1. split; [exact G|].
      intros s. unfold put, carried. cbn [streams given own_precision own_flags]. destruct (Nat.eqb_spec s t) as [ -> |N].
      * destruct (S t) as (S1 & S2 & S3). split; [intros []; reflexivity|split; [exact S2|exact S3]].
      * apply S.
    + cbn [bind]. intros H. injection H as <-. split; [exact G|]. intros s. unfold put, carried. cbn [streams given own_precision own_flags]. destruct (Nat.eqb_spec s t) as [ -> |N].
      * destruct (S t) as (S1 & S2 & S3). split; [exact S1|split; reflexivity].
      * apply S.
Qed.
Lemma given_no_zero (past : list stmt) s f : no_zero past -> given past s f <> Some 0.
Proof.
  unfold no_zero. induction 1 as [|c past Hc H IH]; [discriminate|]. destruct c as [g v|t g v|t a|t p fl]; cbn [given]; try exact IH.
  - destruct (Nat.eqb s t && same f g); [congruence|exact IH].
  - destruct (Nat.eqb s t); [discriminate|exact IH].
Qed.
Lemma chosen_force (past : list stmt) w s : no_zero past -> run pr scratch start (rev past) = Ok w -> fst (get_print_options (global w) (words (streams w s))) = force past s.
Proof.
  intros Z H. destruct (world_after past w H) as (G & S). destruct (S s) as (S1 & _). apply options_ext. intros f. rewrite picked, S1, G. unfold carried.
  pose proof (given_no_zero past s f Z) as N. assert (E : of_field (force past s) f = in_force past s f) by (destruct f; reflexivity). rewrite E. unfold in_force.
  destruct (given past s f) as [v|]; [|reflexivity]. destruct (Z.eqb_spec v 0); [congruence|reflexivity].
Qed.
Lemma show_lemma (past : list stmt) w s c : no_zero past -> run pr scratch start (rev past) = Ok w ->
  show pr scratch w s c =
    (let* '(text, _) := pretty_print pr (force past s) (mk_options 0 0 0 0) c in
     Ok (text, (if (compute_size (ct_shape c) =? 0) || (in_force past s Precision =? -1) then own_precision past s else in_force past s Precision),
         put w s (mk_stream (mk_options 0 0 0 0) (own_precision past s) (own_flags past s)))).
Proof.
  intros Z H. pose proof (chosen_force past w s Z H) as C. destruct (world_after past w H) as (G & S). destruct (S s) as (_ & S2 & S3).
  unfold show. rewrite print_same, C. destruct (pretty_print pr (force past s) (mk_options 0 0 0 0) c) as [(t, r)| |] eqn:E; cbn [bind]; try reflexivity. apply print_rest in E. subst r.
  rewrite S2, S3. change (o_precision (force past s)) with (in_force past s Precision). destruct (compute_size (ct_shape c) =? 0); reflexivity.
Qed.
End P.
Lemma zero_lemma {A St} (pr : printer A St) scratch (past : list (stmt (A := A))) w s f c text p w' : run pr scratch start (rev past ++ [Give s f 0]) = Ok w ->
  show pr scratch w s c = Ok (text, p, w') -> exists o, of_field o f = latest past f /\ pretty_print pr o (mk_options 0 0 0 0) c = Ok (text, mk_options 0 0 0 0).
Proof.
  intros H Q. change (rev past ++ [Give s f 0]) with (rev (Give s f 0 :: past)) in H. destruct (world_after pr scratch _ _ H) as (G & S). destruct (S s) as (S1 & _).
  unfold show in Q. rewrite print_same in Q. exists (fst (get_print_options (global w) (words (streams w s)))). split.
  - rewrite picked, S1, G. unfold carried. cbn [given latest]. rewrite Nat.eqb_refl. destruct f; reflexivity.
  - destruct (pretty_print pr _ _ c) as [(t, r)| |] eqn:E; cbn [bind] in Q; try discriminate. pose proof (print_rest pr _ _ _ _ _ E) as R. subst r.
    destruct (compute_size (ct_shape c) =? 0); congruence.
Qed.
