From Coq Require Import String ZArith Lia Bool List.
From Verif Require Import Prelude PreludeFacts Strides_Model Strides_Spec Strides_Proofs Access_Model Container_Model Container_Spec Container_Proofs Npy_Model Csv_Model Print_Model Print_Spec Print_Proofs.
Import ListNotations.
Open Scope Z_scope.

(** ** The layout when everything is printed *)

Lemma path_full n : path n 0 = map Some (zfrom 0 (n - 1)).
Proof. reflexivity. Qed.
Lemma positions_some l : positions (map Some l) = l.
Proof. unfold positions. induction l as [|x t IH]; [reflexivity|]. cbn. f_equal. exact IH. Qed.

Lemma mod_step ll m k : 0 < ll -> 1 <= k <= ll -> k mod ll = m mod ll -> (k = ll <-> m mod ll = 0).
Proof.
  intros Hl Hk E. rewrite <- E. split; [intros ->; apply Z.mod_same; lia|].
  intros H. destruct (Z.eq_dec k ll); [assumption|]. rewrite Z.mod_small in H by lia. lia.
Qed.

Lemma layout_lemma {A} (cell : A -> bytes) ll : 0 <= ll -> forall sh, Forall (fun n => 0 < n) sh ->
  forall w blanks out rest, xoutput cell 0 ll sh blanks (out, map w (shown_ix 0 sh) ++ rest) = Ok (out ++ layed_out ll sh blanks (fun ix => cell (w ix)), rest).
Proof.
  intros Hll. induction sh as [|n r IH]; intros Hp w blanks out rest; [reflexivity|].
  inversion Hp as [|? ? Hn Hp']; subst. specialize (IH Hp').
  cbn [xoutput]. rewrite axis_lemma by (try exact Hn; try lia; left; reflexivity).
  set (inner := match r with [] => false | _ :: _ => true end).
  assert (Ei : match r with [] => true | _ :: _ => false end = negb inner) by (unfold inner; destruct r; reflexivity).
  set (sub := fun i => map (fun ix => w (i :: ix)) (shown_ix 0 r)).
  set (txt := fun i => layed_out ll r (S blanks) (fun ix => cell (w (i :: ix)))).
  rewrite Ei.
  match goal with |- context [for_each (stepo ?s ?e) _ _] => set (skip := s); set (each := e) end.
  rewrite path_full.
  assert (EC : map w (shown_ix 0 (n :: r)) ++ rest = flat_map sub (zfrom 0 (n - 1)) ++ sub (n - 1) ++ rest).
  { cbn [shown_ix]. rewrite shown_path by (try exact Hn; try lia; left; reflexivity). rewrite path_full. unfold positions. rewrite flat_map_app.
    fold (positions (map Some (zfrom 0 (n - 1)))). rewrite positions_some. cbn [flat_map app].
    rewrite flat_map_app. cbn [flat_map]. rewrite app_nil_r, map_app, <- app_assoc. f_equal.
    - unfold sub. induction (zfrom 0 (n - 1)) as [|i t IHt]; [reflexivity|]. cbn [flat_map]. rewrite map_app, IHt, map_map. reflexivity.
    - unfold sub. rewrite map_map. reflexivity. }
  rewrite EC.
  set (full := fun k => negb inner && negb (ll =? 0) && (ll <=? k)).
  assert (G : forall m (o : bytes) rest, exists o' k, for_each (stepo skip each) (map Some (zfrom 0 (Z.of_nat m))) (o, flat_map sub (zfrom 0 (Z.of_nat m)) ++ rest, 0) = Ok (o ++ o', rest, k) /\
     o' ++ (if full k then indent blanks else []) = flat_map (fun i => txt i ++ str "," ++ gap ll inner blanks i) (zfrom 0 (Z.of_nat m)) /\
     (m = 0%nat /\ k = 0 \/ (0 < m)%nat /\ (inner = false -> 0 < ll -> 1 <= k <= ll /\ k mod ll = Z.of_nat m mod ll))).
  { induction m as [|m IHm]; intros o rest'.
    - exists [], 0. split; [cbn; rewrite app_nil_r; reflexivity|]. split; [|left; auto].
      cbn [app]. unfold full. destruct (ll =? 0) eqn:E0; [rewrite andb_false_r; reflexivity|]. apply Z.eqb_neq in E0.
      replace (ll <=? 0) with false by (symmetry; apply Z.leb_gt; lia). rewrite andb_false_r. reflexivity.
    - rewrite (zfrom_snoc 0) by lia. replace (0 + Z.of_nat (S m) - 1) with (Z.of_nat m) by lia. replace (Z.of_nat (S m) - 1) with (Z.of_nat m) by lia.
      rewrite map_app, for_each_app, flat_map_app. cbn [flat_map map]. rewrite app_nil_r, <- app_assoc.
      destruct (IHm o (sub (Z.of_nat m) ++ rest')) as (o1 & k & E & Eo & Hk). rewrite E. cbn [bind for_each stepo].
      unfold each at 1.
      match goal with |- context [if ?b then ((o ++ o1) ++ indent blanks, 0) else _] => change b with (full k) end.
      set (k1 := if full k then 0 else k).
      assert (E1 : (if full k then ((o ++ o1) ++ indent blanks, 0) else (o ++ o1, k)) = ((o ++ o1) ++ (if full k then indent blanks else []), k1)).
      { unfold k1. destruct (full k); [reflexivity|rewrite app_nil_r; reflexivity]. }
      rewrite E1. pose proof (IH (fun ix => w (Z.of_nat m :: ix)) (S blanks) ((o ++ o1) ++ (if full k then indent blanks else [])) rest') as E2.
      rw_out E2. cbn [bind].
      rewrite negb_involutive. change (negb inner && negb (ll =? 0) && (ll <=? k1 + 1)) with (full (k1 + 1)).
      assert (Hk1 : inner = false -> 0 < ll -> 0 <= k1 < ll /\ k1 mod ll = Z.of_nat m mod ll).
      { intros Hi Hl. unfold k1, full. rewrite Hi. cbn [negb andb]. replace (ll =? 0) with false by (symmetry; apply Z.eqb_neq; lia). cbn [negb andb].
        destruct Hk as [[-> ->]|[_ Hk]].
        - replace (ll <=? 0) with false by (symmetry; apply Z.leb_gt; lia). split; [lia|reflexivity].
        - destruct (Hk Hi Hl) as [B M]. pose proof (mod_step ll (Z.of_nat m) k Hl B M) as S1. destruct (ll <=? k) eqn:L.
          + apply Z.leb_le in L. split; [lia|]. rewrite (proj1 S1) by lia. apply Z.mod_0_l. lia.
          + apply Z.leb_gt in L. split; [lia|exact M]. }
      exists ((o1 ++ (if full k then indent blanks else [])) ++ txt (Z.of_nat m) ++ str "," ++ (if negb inner && negb (full (k1 + 1)) then str " " else if inner then indent blanks else [])), (k1 + 1).
      split; [|split].
      + f_equal. f_equal. f_equal. fold (txt (Z.of_nat m)). rewrite <- !app_assoc. f_equal. f_equal. f_equal. f_equal.
        destruct inner; cbn [negb andb]; [|destruct (full (k1 + 1)); cbn [negb]]; rewrite <- ?app_assoc, ?app_nil_r; reflexivity.
      + rewrite Eo. rewrite flat_map_app. cbn [flat_map]. rewrite app_nil_r. rewrite <- !app_assoc. do 3 f_equal. unfold gap.
        destruct inner eqn:Hi; cbn [negb andb orb].
        * unfold full. cbn [negb andb]. rewrite app_nil_r. reflexivity.
        * unfold full in *. cbn [negb andb] in *. destruct (ll =? 0) eqn:E0; [reflexivity|]. cbn [negb andb]. apply Z.eqb_neq in E0. destruct (Hk1 eq_refl) as [B M]; [lia|].
          assert (X : (ll <=? k1 + 1) = ((Z.of_nat m + 1) mod ll =? 0)).
          { assert (M1 : (k1 + 1) mod ll = (Z.of_nat m + 1) mod ll) by (rewrite (Zplus_mod k1), M, <- Zplus_mod; reflexivity).
            pose proof (mod_step ll (Z.of_nat m + 1) (k1 + 1) ltac:(lia) ltac:(lia) M1) as S1.
            destruct (Z.eqb_spec ((Z.of_nat m + 1) mod ll) 0) as [Z1|Z1].
            - apply Z.leb_le. rewrite (proj2 S1 Z1). lia.
            - apply Z.leb_gt. assert (k1 + 1 <> ll) by (intros X; apply Z1, S1, X). lia. }
          rewrite X. destruct ((Z.of_nat m + 1) mod ll =? 0); reflexivity.
      + right. split; [lia|]. intros Hi Hl. destruct (Hk1 Hi Hl) as [B M]. split; [lia|].
        rewrite (Zplus_mod k1), M, <- Zplus_mod. f_equal. lia. }
  destruct (G (Z.to_nat (n - 1)) (out ++ str "{") (sub (n - 1) ++ rest)) as (o1 & k & E & Eo & _). rewrite !Z2Nat.id in E, Eo by lia.
  match type of E with _ = ?R => match goal with |- context [for_each ?a ?b ?c] => replace (for_each a b c) with R by (symmetry; exact E) end end. cbn [bind].
  change (negb inner && negb (ll =? 0) && (ll <=? k)) with (full k).
  assert (E1 : (if full k then ((out ++ str "{") ++ o1) ++ indent blanks else (out ++ str "{") ++ o1) = (out ++ str "{") ++ flat_map (fun i => txt i ++ str "," ++ gap ll inner blanks i) (zfrom 0 (n - 1))).
  { rewrite <- Eo. destruct (full k); rewrite <- ?app_assoc, ?app_nil_r; reflexivity. }
  rewrite E1. pose proof (IH (fun ix => w (n - 1 :: ix)) (S blanks) ((out ++ str "{") ++ flat_map (fun i => txt i ++ str "," ++ gap ll inner blanks i) (zfrom 0 (n - 1))) rest) as E2.
  rw_out E2. cbn [bind layed_out]. f_equal. f_equal. rewrite <- !app_assoc. reflexivity.
Qed.

(** ** pretty_print *)

Lemma pos_prod sh : Forall (fun n => 0 < n) sh -> 0 < prod sh.
Proof. induction 1; [rewrite prod_nil; lia|rewrite prod_cons; nia]. Qed.

Lemma print_lemma {A St} (pr : printer A St) global words (c : cont A) v st : let po := chosen global words in let sh := ct_shape c in let e := edges po (prod sh) in
  options_ok po -> Forall (fun n => 0 < n) sh -> (forall ix, in_bounds sh ix -> elt c ix = Ok (v ix)) -> edges_ok e sh ->
  updates pr (pr_start pr) (map v (shown_ix e sh)) = Ok st -> 0 <= pr_width pr st ->
  exists text, pretty_print pr global words c = Ok (text, mk_options 0 0 0 0) /\
    ink text = literal e sh (fun ix => ink (pr_cell pr st (v ix))) /\
    (e = 0 -> text = layed_out (o_line_width po / (pr_width pr st + 2)) sh 1 (fun ix => pr_cell pr st (v ix))).
Proof.
  intros po sh e (O1 & O2 & O3) Hp Hv He Hu Hw.
  assert (EG : get_print_options global words = (po, mk_options 0 0 0 0)).
  { unfold get_print_options, po, chosen. cbn.
    destruct (o_edge_items words =? 0) eqn:E1, (o_line_width words =? 0) eqn:E2, (o_threshold words =? 0) eqn:E3, (o_precision words =? 0) eqn:E4;
      rewrite ?Z.eqb_eq in *; rewrite ?E1, ?E2, ?E3, ?E4; reflexivity. }
  assert (Sz : forall x, 0 <= x < 2 ^ 31 -> to_size_t x = x) by (intros x Hx; unfold to_size_t; apply Z.mod_small; lia).
  assert (Hl : 0 <= e < 2 ^ 31) by (unfold e, edges; destruct (_ <? _); lia).
  unfold pretty_print. rewrite EG. fold sh. rewrite compute_size_prod. pose proof (pos_prod sh Hp) as Hpos.
  replace (prod sh =? 0) with false by (symmetry; apply Z.eqb_neq; lia). rewrite (Sz (o_threshold po)), (Sz (o_edge_items po)), (Sz (o_line_width po)) by assumption.
  fold (edges po (prod sh)). fold e.
  rewrite visit_lemma by assumption.
  assert (EV : for_each (fun ix st0 => let* v0 := rdz (ct_data c) (element_offset (ct_strides c) ([] ++ ix)) in
      (fun '(s, cache) x => let* s' := pr_update pr s x in Ok (s', cache ++ [x])) st0 v0) (shown_ix e sh) (pr_start pr, []) = Ok (st, map v (shown_ix e sh))).
  { rewrite (for_each_ext _ (fun ix '(s, cache) => let* x := elt c ix in let* s := pr_update pr s x in Ok (s, cache ++ [x]))) by (intros ix [s cc] _; reflexivity).
    rewrite (cached_lemma pr (elt c) v); [rewrite Hu; reflexivity|]. intros ix Hi. apply Hv. eapply shown_in_bounds; [|exact Hi]. lia. }
  match goal with |- context [for_each ?f ?l ?s] => replace (for_each f l s) with (Ok (st, map v (shown_ix e sh))) by (symmetry; exact EV) end.
  cbn [bind]. set (ll := o_line_width po / (pr_width pr st + 2)).
  destruct (output_lemma (pr_cell pr st) e ll Hl sh Hp He v 1%nat [] []) as (o & Eo & Io). rewrite app_nil_r in Eo. rw_out Eo. cbn [bind app].
  exists o. split; [reflexivity|]. split; [rewrite Io; apply ink_literal|].
  intros E0. pose proof (layout_lemma (pr_cell pr st) ll ltac:(apply Z.div_pos; lia) sh Hp v 1%nat [] []) as Ex. rewrite app_nil_r, <- E0 in Ex.
  pose proof (eq_trans (eq_sym Eo) Ex) as X. injection X as ->. reflexivity.
Qed.

(** ** Lines *)

Fixpoint narrow (lw k : Z) (s : bytes) : Prop :=
  match s with [] => k <= lw | c :: t => if c =? 10 then k <= lw /\ narrow lw 0 t else narrow lw (k + 1) t end.
Lemma lines_cons s : exists l r, lines s = l :: r.
Proof. destruct s as [|c t]; [exists [], []; reflexivity|]. cbn. destruct (c =? 10); [eexists; eexists; reflexivity|]. destruct (lines t); eexists; eexists; reflexivity. Qed.
Lemma narrow_lines lw : forall s k, narrow lw k s -> match lines s with l :: r => k + Z.of_nat (length l) <= lw /\ Forall (fun l => Z.of_nat (length l) <= lw) r | [] => False end.
Proof.
  induction s as [|c t IH]; intros k H; cbn [lines narrow] in *; [split; [cbn; lia|constructor]|].
  destruct (c =? 10).
  - destruct H as [H1 H2]. apply IH in H2. destruct (lines t) as [|l r]; [destruct H2|]. split; [cbn; lia|]. constructor; [lia|apply H2].
  - apply IH in H. destruct (lines t) as [|l r]; [destruct H|]. destruct H as [H1 H2]. split; [cbn [length]; lia|exact H2].
Qed.
Lemma narrow_app lw a : ~ In 10 a -> forall k s, narrow lw (k + Z.of_nat (length a)) s -> narrow lw k (a ++ s).
Proof.
  induction a as [|c t IH]; intros Hn k s H; cbn [app].
  - cbn in H. rewrite Z.add_0_r in H. exact H.
  - cbn [narrow]. destruct (Z.eqb_spec c 10) as [->|_]; [elim Hn; left; reflexivity|]. apply IH; [intros X; apply Hn; right; exact X|].
    cbn [length] in H. replace (k + 1 + Z.of_nat (length t)) with (k + Z.of_nat (S (length t))) by lia. exact H.
Qed.
Lemma narrow_mono lw s : forall k k', k' <= k -> narrow lw k s -> narrow lw k' s.
Proof.
  induction s as [|c t IH]; intros k k' Hk H; cbn [narrow] in *; [lia|]. destruct (c =? 10); [split; [lia|apply H]|]. eapply IH; [|exact H]. lia.
Qed.
Lemma row_lemma ll w lw (item : list Z -> bytes) n : 0 < n -> 0 <= w -> 0 < ll -> ll * (w + 2) <= lw ->
  (forall i, 0 <= i < n -> Z.of_nat (length (item [i])) <= w /\ ~ In 10 (item [i])) ->
  Forall (fun l => Z.of_nat (length l) <= lw) (lines (layed_out ll [n] 1 item)).
Proof.
  intros Hn Hw Hll Hlw Hi.
  assert (G : forall m i k, 0 <= i -> i + Z.of_nat m = n - 1 -> k <= 1 + (i mod ll) * (w + 2) ->
     narrow lw k (flat_map (fun i => item [i] ++ str "," ++ gap ll false 1 i) (zfrom i (Z.of_nat m)) ++ item [n - 1] ++ str "}")).
  { induction m as [|m IH]; intros i k H0 Hm Hk.
    - rewrite zfrom_nil by lia. cbn [flat_map app]. destruct (Hi (n - 1)) as [L1 N1]; [lia|]. apply narrow_app; [exact N1|]. cbn.
      replace (n - 1) with i in * by lia. pose proof (Z.mod_pos_bound i ll Hll). nia.
    - rewrite zfrom_cons by lia. cbn [flat_map]. rewrite <- !app_assoc. destruct (Hi i) as [L1 N1]; [lia|]. apply narrow_app; [exact N1|].
      replace (Z.of_nat (S m) - 1) with (Z.of_nat m) by lia. apply (narrow_app _ (str ",")); [cbn; lia|]. change (Z.of_nat (length (str ","))) with 1.
      pose proof (Z.mod_pos_bound i ll Hll) as B. assert (Eg : gap ll false 1 i = if (i + 1) mod ll =? 0 then indent 1 else str " ").
      { unfold gap. cbn [orb]. replace (ll =? 0) with false by (symmetry; apply Z.eqb_neq; lia). reflexivity. }
      rewrite Eg.
      assert (M : (i + 1) mod ll = if i mod ll + 1 =? ll then 0 else i mod ll + 1).
      { rewrite <- Zplus_mod_idemp_l. destruct (Z.eqb_spec (i mod ll + 1) ll) as [E|E]; [rewrite E; apply Z.mod_same; lia|apply Z.mod_small; lia]. }
      destruct (Z.eqb_spec ((i + 1) mod ll) 0) as [E|E].
      + destruct (Z.eqb_spec (i mod ll + 1) ll) as [X|X]; [|lia]. split; [nia|]. change (narrow lw 1 (flat_map (fun i0 : Z => item [i0] ++ str "," ++ gap ll false 1 i0) (zfrom (i + 1) (Z.of_nat m)) ++ item [n - 1] ++ str "}")). apply IH; [lia|lia|]. rewrite E. lia.
      + apply (narrow_app _ (str " ")); [cbn; lia|]. change (Z.of_nat (length (str " "))) with 1. apply IH; [lia|lia|]. rewrite M in E |- *. destruct (_ =? ll); [lia|nia]. }
  cbn [layed_out]. specialize (G (Z.to_nat (n - 1)) 0 1 ltac:(lia) ltac:(lia)). rewrite Z2Nat.id in G by lia.
  assert (N : narrow lw 0 (str "{" ++ flat_map (fun i => item [i] ++ str "," ++ gap ll false 1 i) (zfrom 0 (n - 1)) ++ item [n - 1] ++ str "}")).
  { apply (narrow_app _ (str "{")); [cbn; lia|]. apply G. rewrite Z.mod_0_l by lia. lia. }
  apply narrow_lines in N. destruct (lines _) as [|l r]; [destruct N|]. destruct N as [N1 N2]. constructor; [lia|exact N2].
Qed.
