(** Proofs about HTML tables. *)
From Coq Require Import String ZArith Lia Bool List.
From Verif Require Import Prelude Strides_Model Strides_Spec Access_Model Container_Model Container_Spec Npy_Model Csv_Model Print_Model Print_Spec Print_Proofs Print2_Proofs Strides_Proofs Mime_Model Mime_Spec.
Import ListNotations.
Open Scope Z_scope.

Section S.
Context {A : Type} (cell : A -> bytes) (e : Z).
Hypothesis He : 0 <= e < 2 ^ 31.

Lemma span_zfrom a b : span a b = zfrom a (b - a).
Proof. reflexivity. Qed.
Lemma each_exact (each : Z -> @stream A -> res stream) vs P : forall l out rest,
  (forall i, In i l -> forall out rest, each i (out, vs i ++ rest) = Ok (out ++ P i, rest)) ->
  for_each each l (out, flat_map vs l ++ rest) = Ok (out ++ flat_map P l, rest).
Proof.
  induction l as [|i l IH]; intros out rest H; cbn [for_each flat_map app].
  - now rewrite app_nil_r.
  - rewrite <- app_assoc. rewrite H by (left; reflexivity). cbn [bind]. rewrite IH by (intros j Hj; apply H; right; exact Hj). now rewrite app_assoc.
Qed.
Definition over (P : Z -> list piece) (D : list piece) (o : option Z) : list piece := match o with Some i => P i | None => D end.
Lemma flat_map_some {B} (f : option Z -> list B) l : flat_map f (map Some l) = flat_map (fun i => f (Some i)) l.
Proof. induction l as [|x l IH]; cbn; [reflexivity|]. now rewrite IH. Qed.
Lemma positions_some l : positions (map Some l) = l.
Proof. unfold positions. rewrite flat_map_some. induction l as [|x l IH]; cbn; [reflexivity|]. now rewrite IH. Qed.
Lemma axis_exact n (each : Z -> @stream A -> res stream) vs P D out rest :
  (forall i, In i (positions (shown e n)) -> forall out rest, each i (out, vs i ++ rest) = Ok (out ++ P i, rest)) ->
  axis e n each (put D) (out, flat_map vs (positions (shown e n)) ++ rest) = Ok (out ++ flat_map (over P D) (shown e n), rest).
Proof.
  intros H. unfold axis. assert (E2 : to_size_t (2 * e) = 2 * e) by (unfold to_size_t; rewrite Z.mod_small; lia). rewrite E2.
  unfold shown in *. destruct ((e =? 0) || (n <=? 2 * e)) eqn:E.
  - rewrite positions_some in *. rewrite span_zfrom. replace (n - 0) with n by lia. rewrite (each_exact each vs P) by exact H.
    now rewrite flat_map_some.
  - change (positions (map Some (zfrom 0 e) ++ None :: map Some (zfrom (n - e) e))) with (flat_map (fun o : option Z => match o with Some i => [i] | None => [] end) (map Some (zfrom 0 e) ++ None :: map Some (zfrom (n - e) e))) in *.
    rewrite flat_map_app in *. cbn [flat_map app] in *. fold (positions (map Some (zfrom 0 e))) in *. fold (positions (map Some (zfrom (n - e) e))) in *.
    rewrite !positions_some in *. rewrite flat_map_app, <- app_assoc. rewrite !span_zfrom. replace (e - 0) with e by lia. replace (n - (n - e)) with e by lia.
    rewrite (each_exact each vs P); [|intros i Hi; apply H; apply in_app_iff; auto]. cbn [bind put fst snd].
    unfold put; cbn [fst snd]. rewrite (each_exact each vs P); [|intros i Hi; apply H; apply in_app_iff; auto].
    rewrite flat_map_app. cbn [flat_map over]. rewrite !flat_map_some. cbn [over]. now rewrite <- !app_assoc.
Qed.

(* the pages *)
Definition page_1d (f : list Z -> A) (n : Z) : list piece :=
  in_table (flat_map (over (fun i => in_row [Cell [i] (cell (f [i]))]) (in_row (dots_cell vertical))) (shown e n)).
Definition row_page (f : list Z -> A) (c : Z) (ix : list Z) (i : Z) : list piece :=
  flat_map (over (fun j => [Cell (ix ++ [i; j]) (cell (f [i; j]))]) (dots_cell horizontal)) (shown e c).
Definition page_2d (f : list Z -> A) (r c : Z) (ix : list Z) : list piece :=
  in_table (flat_map (over (fun i => in_row (row_page f c ix i)) (dots_row e c)) (shown e r)).
Fixpoint page_nd (sh : list Z) (f : list Z -> A) (ix : list Z) : list piece :=
  match sh with
  | [r; c] => page_2d f r c ix
  | n :: sh =>
      [Open (str "table")] ++
      flat_map (over (fun i => [Open (str "tr"); Open (str "td")] ++ page_nd sh (fun jx => f (i :: jx)) (ix ++ [i]) ++ [Close (str "td"); Close (str "tr")])
                     ([Open (str "tr")] ++ dots_cell horizontal ++ [Close (str "tr")])) (shown e n) ++
      [Close (str "table")]
  | [] => []
  end.

Lemma put_app (l : list piece) (out : list piece) (c : list A) : put l (out, c) = (out ++ l, c).
Proof. reflexivity. Qed.
Lemma flat_map_ext_in {B C} (f g : B -> list C) l : (forall x, In x l -> f x = g x) -> flat_map f l = flat_map g l.
Proof. induction l as [|x l IH]; intros H; cbn; [reflexivity|]. rewrite H by (left; reflexivity). rewrite IH; [reflexivity|]. intros y Hy. apply H. now right. Qed.
Lemma shown_ix_1 (f : list Z -> A) n : map f (shown_ix e [n]) = flat_map (fun i => [f [i]]) (positions (shown e n)).
Proof. cbn [shown_ix map]. induction (positions (shown e n)) as [|i l IH]; cbn; [reflexivity|]. now rewrite IH. Qed.
Lemma shown_ix_cons (f : list Z -> A) n sh : map f (shown_ix e (n :: sh)) = flat_map (fun i => map (fun jx => f (i :: jx)) (shown_ix e sh)) (positions (shown e n)).
Proof. cbn [shown_ix]. induction (positions (shown e n)) as [|i l IH]; cbn [flat_map map]; [reflexivity|]. rewrite map_app, map_map, IH. reflexivity. Qed.

Lemma table_1d_exact f n out rest :
  table_1d cell e n (out, map f (shown_ix e [n]) ++ rest) = Ok (out ++ page_1d f n, rest).
Proof.
  unfold table_1d. rewrite put_app, shown_ix_1.
  rewrite (axis_exact n (row_1d cell) (fun i => [f [i]]) (fun i => in_row [Cell [i] (cell (f [i]))]) ([Open (str "tr")] ++ dots_cell vertical ++ [Close (str "tr")])).
  - cbn [bind]. rewrite put_app. unfold page_1d, in_table. now rewrite <- !app_assoc.
  - intros i _ o r. unfold row_1d, put_cell, put, in_row. cbn [fst snd app bind]. now rewrite <- !app_assoc.
Qed.
Lemma row_2d_exact f c ix i out rest :
  row_2d cell e c ix i (out, map (fun jx => f (i :: jx)) (shown_ix e [c]) ++ rest) = Ok (out ++ in_row (row_page f c ix i), rest).
Proof.
  unfold row_2d. rewrite put_app, shown_ix_1.
  rewrite (axis_exact c (fun j => put_cell cell (ix ++ [i; j])) (fun j => [f [i; j]]) (fun j => [Cell (ix ++ [i; j]) (cell (f [i; j]))]) (dots_cell horizontal)).
  - cbn [bind]. rewrite put_app. unfold in_row, row_page. now rewrite <- !app_assoc.
  - intros j _ o r. reflexivity.
Qed.
Lemma table_2d_exact f r c ix out rest :
  table_2d cell e r c ix (out, map f (shown_ix e [r; c]) ++ rest) = Ok (out ++ page_2d f r c ix, rest).
Proof.
  unfold table_2d. rewrite put_app, shown_ix_cons.
  rewrite (axis_exact r (row_2d cell e c ix) (fun i => map (fun jx => f (i :: jx)) (shown_ix e [c])) (fun i => in_row (row_page f c ix i)) (dots_row e c)).
  - cbn [bind]. rewrite put_app. unfold page_2d, in_table. now rewrite <- !app_assoc.
  - intros i _ o q. apply row_2d_exact.
Qed.
Lemma table_nd_exact : forall sh, (2 <= length sh)%nat -> forall f ix out rest,
  table_nd cell e sh ix (out, map f (shown_ix e sh) ++ rest) = Ok (out ++ page_nd sh f ix, rest).
Proof.
  induction sh as [|n sh IH]; intros L f ix out rest; cbn [length] in L; [lia|].
  destruct sh as [|c [|d sh]]; cbn [length] in L; [lia|apply table_2d_exact|].
  assert (L' : (2 <= length (c :: d :: sh))%nat) by (cbn [length]; lia). specialize (IH L').
  set (q := c :: d :: sh) in *.
  assert (M : forall st, table_nd cell e (n :: q) ix st =
    let st := put [Open (str "table")] st in
    let* st := axis e n (fun i st => let* st := table_nd cell e q (ix ++ [i]) (put [Open (str "tr"); Open (str "td")] st) in Ok (put [Close (str "td"); Close (str "tr")] st))
      (put ([Open (str "tr")] ++ dots_cell horizontal ++ [Close (str "tr")])) st in
    Ok (put [Close (str "table")] st)) by (destruct sh; reflexivity).
  rewrite M. cbv zeta. rewrite put_app, shown_ix_cons.
  rewrite (axis_exact n _ (fun i => map (fun jx => f (i :: jx)) (shown_ix e q))
    (fun i => [Open (str "tr"); Open (str "td")] ++ page_nd q (fun jx => f (i :: jx)) (ix ++ [i]) ++ [Close (str "td"); Close (str "tr")])
    ([Open (str "tr")] ++ dots_cell horizontal ++ [Close (str "tr")])).
  - cbn [bind]. rewrite put_app. replace (page_nd (n :: q) f ix) with
      ([Open (str "table")] ++ flat_map (over (fun i => [Open (str "tr"); Open (str "td")] ++ page_nd q (fun jx => f (i :: jx)) (ix ++ [i]) ++ [Close (str "td"); Close (str "tr")])
                     ([Open (str "tr")] ++ dots_cell horizontal ++ [Close (str "tr")])) (shown e n) ++ [Close (str "table")]) by (destruct sh; reflexivity).
    now rewrite <- !app_assoc.
  - intros i _ o r. rewrite put_app, IH. cbn [bind]. rewrite put_app. now rewrite <- !app_assoc.
Qed.

(* cells *)
Lemma cells_app a b : cells (a ++ b) = cells a ++ cells b.
Proof. apply flat_map_app. Qed.
Lemma cells_over P D l : cells D = [] -> cells (flat_map (over P D) l) = flat_map (fun i => cells (P i)) (positions l).
Proof.
  intros HD. induction l as [|[i|] l IH]; cbn [flat_map over]; [reflexivity| |]; rewrite cells_app, IH; [|rewrite HD]; reflexivity.
Qed.
Lemma cells_dots_row c : cells (dots_row e c) = [].
Proof.
  unfold dots_row. rewrite !cells_app. cbn [cells flat_map app]. rewrite app_nil_r.
  match goal with |- cells (flat_map _ (span 0 ?nb)) = [] => induction (span 0 nb) as [|j l IH] end; [reflexivity|].
  cbn [flat_map]. rewrite cells_app, IH. reflexivity.
Qed.
Definition shown_cells (f : list Z -> A) (ix sh : list Z) := map (fun jx => (ix ++ jx, cell (f jx))) (shown_ix e sh).
Lemma shown_cells_cons f ix n sh : shown_cells f ix (n :: sh) = flat_map (fun i => shown_cells (fun jx => f (i :: jx)) (ix ++ [i]) sh) (positions (shown e n)).
Proof.
  unfold shown_cells. cbn [shown_ix]. induction (positions (shown e n)) as [|i l IH]; cbn [flat_map map]; [reflexivity|].
  rewrite map_app, map_map, IH. f_equal. apply map_ext. intros jx. now rewrite <- app_assoc.
Qed.
Lemma cells_1d f n : cells (page_1d f n) = shown_cells f [] [n].
Proof.
  unfold page_1d, in_table. rewrite !cells_app. cbn [cells flat_map app]. rewrite app_nil_r. fold (cells (flat_map (over (fun i => in_row [Cell [i] (cell (f [i]))]) (in_row (dots_cell vertical))) (shown e n))).
  rewrite cells_over by reflexivity. rewrite shown_cells_cons. apply flat_map_ext_in. intros i _. reflexivity.
Qed.
Lemma cells_row f c ix i : cells (row_page f c ix i) = shown_cells (fun jx => f (i :: jx)) (ix ++ [i]) [c].
Proof.
  unfold row_page. rewrite cells_over by reflexivity. rewrite shown_cells_cons. apply flat_map_ext_in. intros j _. cbn. rewrite <- !app_assoc. reflexivity.
Qed.
Lemma cells_in_row l : cells (in_row l) = cells l.
Proof. unfold in_row. rewrite !cells_app. cbn [cells flat_map app]. apply app_nil_r. Qed.
Lemma cells_in_table l : cells (in_table l) = cells l.
Proof. unfold in_table. rewrite !cells_app. cbn [cells flat_map app]. apply app_nil_r. Qed.
Lemma cells_2d f r c ix : cells (page_2d f r c ix) = shown_cells f ix [r; c].
Proof.
  unfold page_2d. rewrite cells_in_table, cells_over by apply cells_dots_row. rewrite shown_cells_cons. apply flat_map_ext_in.
  intros i _. rewrite cells_in_row. apply cells_row.
Qed.
Lemma cells_nd : forall sh, (2 <= length sh)%nat -> forall f ix, cells (page_nd sh f ix) = shown_cells f ix sh.
Proof.
  induction sh as [|n sh IH]; intros L f ix; cbn [length] in L; [lia|].
  destruct sh as [|c [|d sh]]; cbn [length] in L; [lia|apply cells_2d|].
  assert (L' : (2 <= length (c :: d :: sh))%nat) by (cbn [length]; lia). specialize (IH L').
  set (q := c :: d :: sh) in *.
  replace (page_nd (n :: q) f ix) with
      ([Open (str "table")] ++ flat_map (over (fun i => [Open (str "tr"); Open (str "td")] ++ page_nd q (fun jx => f (i :: jx)) (ix ++ [i]) ++ [Close (str "td"); Close (str "tr")])
                     ([Open (str "tr")] ++ dots_cell horizontal ++ [Close (str "tr")])) (shown e n) ++ [Close (str "table")]) by (destruct sh; reflexivity).
  rewrite !cells_app. rewrite cells_over by reflexivity. rewrite shown_cells_cons. change (cells [Open (str "table")]) with (@nil (list Z * bytes)).
  change (cells [Close (str "table")]) with (@nil (list Z * bytes)). rewrite app_nil_r. apply flat_map_ext_in.
  intros i _. rewrite !cells_app, IH. change (cells [Open (str "tr"); Open (str "td")]) with (@nil (list Z * bytes)).
  change (cells [Close (str "td"); Close (str "tr")]) with (@nil (list Z * bytes)). apply app_nil_r.
Qed.

(* nesting *)
Lemma wn_app p q : well_nested p -> well_nested q -> well_nested (p ++ q).
Proof.
  intros Hp Hq. induction Hp as [|t p p' Hp _ _ IH|ix b p _ IH|b p _ IH]; cbn [app]; [exact Hq| |now constructor|now constructor].
  rewrite <- app_assoc. cbn [app]. exact (wn_tag t p (p' ++ q) Hp IH).
Qed.
Lemma wn_wrap t p : well_nested p -> well_nested ([Open t] ++ p ++ [Close t]).
Proof. intros H. cbn [app]. apply wn_tag; [exact H|constructor]. Qed.
Lemma wn_dots b : well_nested (dots_cell b).
Proof.
  unfold dots_cell. change (well_nested ([Open (str "td")] ++ ([Open (str "center")] ++ [Text b] ++ [Close (str "center")]) ++ [Close (str "td")])).
  repeat apply wn_wrap. repeat constructor.
Qed.
Lemma wn_over P D l : (forall i, well_nested (P i)) -> well_nested D -> well_nested (flat_map (over P D) l).
Proof. intros HP HD. induction l as [|[i|] l IH]; cbn [flat_map over]; [constructor| |]; apply wn_app; auto. Qed.
Lemma wn_in_row l : well_nested l -> well_nested (in_row l).
Proof. apply wn_wrap. Qed.
Lemma wn_in_table l : well_nested l -> well_nested (in_table l).
Proof.
  intros H. unfold in_table. replace ([Open (str "table"); Open (str "tbody")] ++ l ++ [Close (str "tbody"); Close (str "table")])
    with ([Open (str "table")] ++ ([Open (str "tbody")] ++ l ++ [Close (str "tbody")]) ++ [Close (str "table")]); [now repeat apply wn_wrap|].
  rewrite <- !app_assoc. reflexivity.
Qed.
Lemma wn_dots_row c : well_nested (dots_row e c).
Proof.
  unfold dots_row. apply wn_wrap. match goal with |- well_nested (flat_map _ (span 0 ?nb)) => induction (span 0 nb) as [|j l IH] end; [constructor|].
  cbn [flat_map]. apply wn_app; [apply wn_dots|exact IH].
Qed.
Lemma wn_1d f n : well_nested (page_1d f n).
Proof. apply wn_in_table, wn_over; [intros i; apply wn_in_row; repeat constructor|apply wn_in_row, wn_dots]. Qed.
Lemma wn_2d f r c ix : well_nested (page_2d f r c ix).
Proof.
  apply wn_in_table, wn_over; [intros i; apply wn_in_row|apply wn_dots_row].
  apply wn_over; [intros j; repeat constructor|apply wn_dots].
Qed.
Lemma wn_nd : forall sh f ix, well_nested (page_nd sh f ix).
Proof.
  induction sh as [|n sh IH]; intros f ix; [constructor|].
  assert (G : well_nested ([Open (str "table")] ++ flat_map (over (fun i => [Open (str "tr"); Open (str "td")] ++ page_nd sh (fun jx => f (i :: jx)) (ix ++ [i]) ++ [Close (str "td"); Close (str "tr")])
                     ([Open (str "tr")] ++ dots_cell horizontal ++ [Close (str "tr")])) (shown e n) ++ [Close (str "table")])).
  { apply wn_wrap, wn_over; [|apply wn_wrap, wn_dots]. intros i.
    replace ([Open (str "tr"); Open (str "td")] ++ page_nd sh (fun jx => f (i :: jx)) (ix ++ [i]) ++ [Close (str "td"); Close (str "tr")])
      with ([Open (str "tr")] ++ ([Open (str "td")] ++ page_nd sh (fun jx => f (i :: jx)) (ix ++ [i]) ++ [Close (str "td")]) ++ [Close (str "tr")]);
      [repeat apply wn_wrap; apply IH|rewrite <- !app_assoc; reflexivity]. }
  destruct sh as [|c [|d sh]]; [exact G|apply wn_2d|exact G].
Qed.

(* columns *)
Lemma columns_app a b : columns (a ++ b) = (columns a + columns b)%nat.
Proof. unfold columns. now rewrite filter_app, app_length. Qed.
Lemma columns_over P D l : (forall i, columns (P i) = 1%nat) -> columns D = 1%nat -> columns (flat_map (over P D) l) = length l.
Proof. intros HP HD. induction l as [|[i|] l IH]; cbn [flat_map over length]; [reflexivity| |]; rewrite columns_app, IH, ?HP, ?HD; reflexivity. Qed.
Lemma columns_dots b : columns (dots_cell b) = 1%nat.
Proof. reflexivity. Qed.
Lemma zfrom_length a n : length (zfrom a n) = Z.to_nat n.
Proof. unfold zfrom. now rewrite map_length, seq_length. Qed.
Lemma grid f r c ix : 0 <= c ->
  exists rows, page_2d f r c ix = in_table (flat_map in_row rows) /\ Forall (fun row => columns row = length (shown e c)) rows /\ length rows = length (shown e r).
Proof.
  intros Hc. set (nb := if c <=? to_size_t (2 * e + 1) then c else to_size_t (2 * e + 1)).
  set (D := flat_map (fun j => dots_cell (if (j =? e) && negb (nb =? c) then diagonal else vertical)) (span 0 nb)).
  destruct ((e =? 0) || (r <=? 2 * e)) eqn:E.
  - exists (map (row_page f c ix) (zfrom 0 r)). unfold page_2d, shown at 1. rewrite E. split; [|split].
    + f_equal. rewrite flat_map_some. cbn [over]. rewrite flat_map_concat_map, flat_map_concat_map, map_map. reflexivity.
    + apply Forall_forall. intros row H. apply in_map_iff in H. destruct H as (i & <- & _). apply columns_over; reflexivity.
    + unfold shown. rewrite E. now rewrite !map_length.
  - exists (map (row_page f c ix) (zfrom 0 e) ++ D :: map (row_page f c ix) (zfrom (r - e) e)). unfold page_2d, shown at 1. rewrite E. split; [|split].
    + f_equal. rewrite !flat_map_app. cbn [flat_map over]. rewrite !flat_map_some. cbn [over]. rewrite !flat_map_concat_map, !map_map. reflexivity.
    + apply Forall_forall. intros row H. apply in_app_iff in H. destruct H as [H|[H|H]].
      * apply in_map_iff in H. destruct H as (i & <- & _). apply columns_over; reflexivity.
      * subst row. assert (CD : columns D = Z.to_nat nb).
        { unfold D. rewrite <- (zfrom_length 0 nb). rewrite span_zfrom. replace (nb - 0) with nb by lia. induction (zfrom 0 nb) as [|j l IH]; [reflexivity|].
          cbn [flat_map length]. rewrite columns_app, columns_dots, IH. reflexivity. }
        rewrite CD. unfold nb, shown. apply orb_false_iff in E. destruct E as [E0 _]. rewrite E0. cbn [orb].
        replace (to_size_t (2 * e + 1)) with (2 * e + 1) by (unfold to_size_t; rewrite Z.mod_small; lia). apply Z.eqb_neq in E0.
        destruct (Z.leb_spec c (2 * e)).
        -- replace (c <=? 2 * e + 1) with true by (symmetry; apply Z.leb_le; lia). now rewrite map_length, zfrom_length.
        -- rewrite app_length. cbn [length]. rewrite !map_length, !zfrom_length. destruct (Z.leb_spec c (2 * e + 1)); lia.
      * apply in_map_iff in H. destruct H as (i & <- & _). apply columns_over; reflexivity.
    + unfold shown. rewrite E. rewrite !app_length. cbn [length]. now rewrite !map_length.
Qed.
End S.

(** The page of an array *)
Lemma mime_exact {A St} (pr : printer A St) raw (po : options) (c : cont A) v st : let sh := ct_shape c in let e := edges po (prod sh) in
  options_ok po -> Forall (fun n => 0 < n) sh -> (forall ix, in_bounds sh ix -> elt c ix = Ok (v ix)) -> edges_ok e sh ->
  updates pr (pr_start pr) (map v (shown_ix e sh)) = Ok st ->
  0 <= e < 2 ^ 31 /\
  mime pr raw po c = Ok (match sh with
    | [] => in_table (in_row [Cell [] (raw (v []))])
    | [n] => page_1d (pr_cell pr st) e v n
    | _ => page_nd (pr_cell pr st) e sh v [] end).
Proof.
  intros sh e (O1 & O2 & O3) Hp Hv He Hu.
  assert (Sz : forall x, 0 <= x < 2 ^ 31 -> to_size_t x = x) by (intros x Hx; unfold to_size_t; apply Z.mod_small; lia).
  assert (Hl : 0 <= e < 2 ^ 31) by (unfold e, edges; destruct (_ <? _); lia). split; [exact Hl|].
  unfold mime. fold sh. rewrite compute_size_prod. rewrite (Sz (o_threshold po)), (Sz (o_edge_items po)) by assumption.
  fold (edges po (prod sh)). fold e. rewrite visit_lemma by assumption.
  assert (EV : for_each (fun ix st0 => let* v0 := rdz (ct_data c) (element_offset (ct_strides c) ([] ++ ix)) in
      (fun '(s, cache) x => let* s' := pr_update pr s x in Ok (s', cache ++ [x])) st0 v0) (shown_ix e sh) (pr_start pr, []) = Ok (st, map v (shown_ix e sh))).
  { rewrite (for_each_ext _ (fun ix '(s, cache) => let* x := elt c ix in let* s := pr_update pr s x in Ok (s, cache ++ [x]))) by (intros ix [s cc] _; reflexivity).
    rewrite (cached_lemma pr (elt c) v); [rewrite Hu; reflexivity|]. intros ix Hi. apply Hv. eapply shown_in_bounds; [|exact Hi]. lia. }
  match goal with |- context [for_each ?f ?l ?s] => replace (for_each f l s) with (Ok (st, map v (shown_ix e sh))) by (symmetry; exact EV) end.
  cbn [bind]. rewrite <- (app_nil_r (map v (shown_ix e sh))). unfold nd_table. destruct sh as [|n [|m q]].
  - change (rdz (ct_data c) (element_offset (ct_strides c) [])) with (elt c []). rewrite (Hv []) by constructor. reflexivity.
  - rewrite (table_1d_exact (pr_cell pr st) e Hl v n [] []). reflexivity.
  - rewrite (table_nd_exact (pr_cell pr st) e Hl (n :: m :: q) ltac:(cbn [length]; lia) v [] [] []). reflexivity.
Qed.

Lemma mime_cells {A St} (pr : printer A St) raw (po : options) (c : cont A) v st : let sh := ct_shape c in let e := edges po (prod sh) in
  options_ok po -> Forall (fun n => 0 < n) sh -> (forall ix, in_bounds sh ix -> elt c ix = Ok (v ix)) -> edges_ok e sh ->
  updates pr (pr_start pr) (map v (shown_ix e sh)) = Ok st ->
  exists page, mime pr raw po c = Ok page /\ well_nested page /\
    cells page = map (fun ix => (ix, match sh with [] => raw (v ix) | _ => pr_cell pr st (v ix) end)) (shown_ix e sh).
Proof.
  intros sh e H1 H2 H3 H4 H5. destruct (mime_exact pr raw po c v st H1 H2 H3 H4 H5) as (Hl & E). fold sh in E. fold e in E, Hl.
  eexists. split; [exact E|]. destruct sh as [|n [|m q]].
  - split; [apply wn_in_table, wn_in_row; repeat constructor|reflexivity].
  - split; [apply wn_1d|]. rewrite cells_1d. reflexivity.
  - split; [apply wn_nd|]. rewrite cells_nd by (cbn [length]; lia). reflexivity.
Qed.

(* all indices, each once *)
Lemma positions_all n : positions (shown 0 n) = zfrom 0 n.
Proof. unfold shown. rewrite Z.eqb_refl. cbn [orb]. apply positions_some. Qed.
Lemma zfrom_nodup a n : NoDup (zfrom a n).
Proof. unfold zfrom. apply FinFun.Injective_map_NoDup; [intros x y H; lia|apply seq_NoDup]. Qed.
Lemma nodup_app {B} : forall a b : list B, NoDup a -> NoDup b -> (forall x, In x a -> ~ In x b) -> NoDup (a ++ b).
Proof.
  induction a as [|x a IH]; intros b Ha Hb H; cbn [app]; [exact Hb|]. inversion Ha; subst. constructor.
  - rewrite in_app_iff. intros [?|?]; [contradiction|]. apply (H x); [left; reflexivity|assumption].
  - apply IH; auto. intros y Hy. apply H. right. exact Hy.
Qed.
Lemma nodup_flat : forall (l : list Z) (q : list (list Z)), NoDup l -> NoDup q -> NoDup (flat_map (fun i => map (cons i) q) l).
Proof.
  induction l as [|i l IH]; intros q Hl Hq; cbn [flat_map]; [constructor|]. inversion Hl as [|? ? Ni Nl]; subst.
  apply nodup_app; [apply FinFun.Injective_map_NoDup; [intros x y H; congruence|exact Hq]|apply IH; assumption|].
  intros x Hx Hy. apply in_map_iff in Hx. destruct Hx as (a & <- & _). apply in_flat_map in Hy. destruct Hy as (k & Hk & Hy).
  apply in_map_iff in Hy. destruct Hy as (b & E & _). injection E as -> _. contradiction.
Qed.
Lemma all_nodup sh : NoDup (shown_ix 0 sh).
Proof.
  induction sh as [|n sh IH]; cbn [shown_ix]; [repeat constructor; intros []|]. rewrite positions_all. apply nodup_flat; [apply zfrom_nodup|exact IH].
Qed.
Lemma all_in sh : forall ix, in_bounds sh ix -> In ix (shown_ix 0 sh).
Proof.
  induction sh as [|n sh IH]; intros ix H; inversion H as [|? i ? jx Hi Hj]; subst; cbn [shown_ix]; [left; reflexivity|].
  rewrite positions_all. apply in_flat_map. exists i. split; [apply zfrom_in; lia|]. apply in_map. apply IH. exact Hj.
Qed.
Lemma mime_grid {A St} (pr : printer A St) raw (po : options) (c : cont A) v st r k : let sh := ct_shape c in let e := edges po (prod sh) in
  sh = [r; k] ->
  options_ok po -> Forall (fun n => 0 < n) sh -> (forall ix, in_bounds sh ix -> elt c ix = Ok (v ix)) -> edges_ok e sh ->
  updates pr (pr_start pr) (map v (shown_ix e sh)) = Ok st ->
  exists rows, mime pr raw po c = Ok (in_table (flat_map in_row rows)) /\ length rows = length (shown e r) /\ Forall (fun row => columns row = length (shown e k)) rows.
Proof.
  intros sh e Esh H1 H2 H3 H4 H5. destruct (mime_exact pr raw po c v st H1 H2 H3 H4 H5) as (Hl & E). fold sh in E. fold e in E, Hl.
  rewrite Esh in E, H2. inversion H2 as [|? ? _ H2']; subst. inversion H2' as [|? ? Hk _]; subst.
  destruct (grid (pr_cell pr st) e Hl v r k [] ltac:(lia)) as (rows & G1 & G2 & G3). exists rows. split; [|split; [exact G3|exact G2]].
  rewrite E. f_equal. exact G1.
Qed.

(* arrays without elements *)
Lemma run_zero {St'} lim (each last : Z -> St' -> res St') st : run_axis (Z.to_nat 0) 0 lim (fun st => st) each last 0 st = UB.
Proof. reflexivity. Qed.
Lemma visit_empty {A St'} (get : list Z -> res A) (update : St' -> A -> res St') lim : forall sh sl st,
  In 0 sh -> Forall (fun n => 0 <= n) sh -> recurser_run get update lim sh sl st = UB.
Proof.
  induction sh as [|n sh IH]; intros sl st I F; [destruct I|]. inversion F as [|? ? Hn F']; subst.
  cbn [recurser_run]. destruct (Z.eq_dec n 0) as [ -> |N]; [apply run_zero|].
  assert (I' : In 0 sh) by (destruct I as [I|I]; [congruence|exact I]).
  replace (Z.to_nat n) with (S (Z.to_nat (n - 1))) by lia. cbn [run_axis]. destruct (Z.eqb_spec 0 (n - 1)); [apply IH; assumption|].
  destruct (negb (lim =? 0) && (to_size_t (lim * 2) <? n) && (0 =? lim)); rewrite IH by assumption; reflexivity.
Qed.
Lemma mime_empty {A St} (pr : printer A St) raw (po : options) (c : cont A) : In 0 (ct_shape c) -> Forall (fun n => 0 <= n) (ct_shape c) -> mime pr raw po c = UB.
Proof. intros I F. unfold mime. rewrite visit_empty by assumption. reflexivity. Qed.
