(** Proofs about CSV: reading. *)
From Coq Require Import List ZArith Lia Bool.
From Verif Require Import Prelude PreludeFacts Strides_Model Strides_Spec Strides_Proofs Container_Model Container_Spec
  Container_Proofs SView_Proofs Npy_Model Csv_Model Csv_Spec.
Import ListNotations.
Open Scope Z_scope.

(** * getline *)
Lemma take_until_mid d a r : ~ In d a -> take_until d (a ++ d :: r) = (a, r).
Proof.
  induction a as [|c a IH]; intros H; cbn [app take_until].
  - rewrite Z.eqb_refl. reflexivity.
  - destruct (Z.eqb_spec c d) as [E|E]; [exfalso; apply H; left; exact E|]. rewrite IH; [reflexivity|]. intros HI. apply H. right. exact HI.
Qed.
Lemma take_until_end d a : ~ In d a -> take_until d a = (a, []).
Proof.
  induction a as [|c a IH]; intros H; cbn [take_until]; [reflexivity|].
  destruct (Z.eqb_spec c d) as [E|E]; [exfalso; apply H; left; exact E|]. rewrite IH; [reflexivity|]. intros HI. apply H. right. exact HI.
Qed.
Lemma getline_mid d a r : ~ In d a -> getline d (a ++ d :: r) = Some (a, r).
Proof. intros H. unfold getline. rewrite take_until_mid by exact H. destruct a; reflexivity. Qed.
Lemma getline_end d a : ~ In d a -> a <> [] -> getline d a = Some (a, []).
Proof. intros H Hn. unfold getline. rewrite take_until_end by exact H. destruct a; [contradiction|reflexivity]. Qed.

(** * Lines *)
Lemma terminated_cons l ls : terminated (l :: ls) = l ++ 10 :: terminated ls.
Proof. unfold terminated. cbn [map concat]. rewrite <- app_assoc. reflexivity. Qed.
Lemma text_nil text : text_of [] text -> text = [].
Proof. intros [H|[H _]]; [exact H|]. destruct text; discriminate. Qed.
Lemma snoc_split {A} (x : A) s a b : s ++ [x] = a ++ x :: b -> b <> [] -> exists b', s = a ++ x :: b' /\ b = b' ++ [x].
Proof.
  revert a. induction s as [|c s IH]; intros a H Hb.
  - destruct a as [|y a]; cbn in H; [injection H as H; contradiction Hb; symmetry; exact H|]. injection H as H1 H2. destruct a; discriminate.
  - destruct a as [|y a]; cbn in H; injection H as H1 H2.
    + subst. exists s. split; [reflexivity|reflexivity].
    + subst y. destruct (IH a H2 Hb) as (b' & E1 & E2). exists b'. subst s. split; [reflexivity|exact E2].
Qed.
Lemma text_cons l ls text : text_of (l :: ls) text -> ~ In 10 l ->
  exists text', getline 10 text = Some (l, text') /\ text_of ls text' /\ (length text' < length text)%nat.
Proof.
  intros H Hl. unfold text_of in H. rewrite terminated_cons in H. destruct H as [ -> |[H HL]].
  - exists (terminated ls). split; [apply getline_mid; exact Hl|]. split; [left; reflexivity|]. rewrite app_length. cbn. lia.
  - destruct ls as [|l2 ls].
    + cbn in HL. cbn [terminated map concat] in H. change (l ++ 10 :: []) with (l ++ [10]) in H. apply app_inv_tail in H. subst text.
      exists []. split; [apply getline_end; assumption|]. split; [left; reflexivity|]. destruct l; [contradiction|cbn; lia].
    + destruct (snoc_split 10 text l (terminated (l2 :: ls)) H) as (b' & -> & E2).
      { rewrite terminated_cons. destruct l2; discriminate. }
      exists b'. split; [apply getline_mid; exact Hl|]. split; [right; split; [symmetry; exact E2|exact HL]|]. rewrite app_length. cbn. lia.
Qed.

Lemma starts_comment mark l : is_comment mark l -> starts_with mark l = Ok true.
Proof. intros (r & ->). induction mark as [|a mark IH]; cbn; [reflexivity|]. rewrite Z.eqb_refl. exact IH. Qed.
Lemma starts_unlike mark l : unlike mark l -> starts_with mark l = Ok false.
Proof.
  intros (k & a & b & H1 & H2 & H3). revert mark l H1 H2. induction k as [|k IH]; intros [|x mark] [|y l] H1 H2; try discriminate; cbn in *.
  - injection H1 as ->. injection H2 as ->. destruct (Z.eqb_spec a b); [contradiction|reflexivity].
  - destruct (x =? y); [apply IH; assumption|reflexivity].
Qed.

Section Read.
Context {T : Type}.
Variable cast : bytes -> res T.
Notation casts := (Forall2 (fun cell v => cast cell = Ok v)).

(** * Rows *)
Lemma row_loop d cells vs : casts cells vs -> Forall (fun c => ~ In d c) cells -> last cells [] <> [] ->
  forall fuel data n, (length (join d cells) < fuel)%nat ->
  load_csv_row cast fuel d (join d cells) data n = Ok (data ++ vs, n + Z.of_nat (length vs)).
Proof.
  intros HC. induction HC as [|c v cells vs Hc HC IH]; intros HD HL fuel data n Hf; [contradiction HL; reflexivity|].
  inversion HD as [|? ? Hd HD']; subst. destruct fuel as [|fuel]; [lia|]. cbn [join load_csv_row] in *.
  destruct cells as [|c2 cells].
  - cbn in HL. rewrite getline_end by assumption. rewrite Hc. cbn [bind]. inversion HC; subst. destruct fuel as [|fuel]; [destruct c; [contradiction|cbn in Hf; lia]|].
    cbn [load_csv_row getline]. reflexivity.
  - rewrite getline_mid by exact Hd. rewrite Hc. cbn [bind]. rewrite IH; [|exact HD'|exact HL|rewrite app_length in Hf; cbn in Hf |- *; lia].
    rewrite <- app_assoc. do 2 f_equal. cbn [length]. lia.
Qed.
Lemma row_loop_bad d ok vs bad more x : casts ok vs -> cast bad = Throw x ->
  Forall (fun c => ~ In d c) (ok ++ bad :: more) -> last (ok ++ bad :: more) [] <> [] ->
  forall fuel data n, (length (join d (ok ++ bad :: more)) < fuel)%nat ->
  load_csv_row cast fuel d (join d (ok ++ bad :: more)) data n = Throw x.
Proof.
  intros HC Hx. induction HC as [|c v ok vs Hc HC IH]; intros HD HL fuel data n Hf; inversion HD as [|? ? Hd HD']; subst;
    (destruct fuel as [|fuel]; [lia|]).
  - cbn [app] in *. cbn [join load_csv_row] in *. destruct more as [|m more].
    + cbn in HL. rewrite getline_end by assumption. rewrite Hx. reflexivity.
    + rewrite getline_mid by assumption. rewrite Hx. reflexivity.
  - cbn [app] in *. assert (E : join d (c :: ok ++ bad :: more) = c ++ d :: join d (ok ++ bad :: more)) by (destruct ok; reflexivity).
    rewrite E in *. cbn [load_csv_row]. rewrite getline_mid by assumption. rewrite Hc. cbn [bind]. apply IH.
    + exact HD'.
    + destruct ok; exact HL.
    + rewrite app_length in Hf. cbn in Hf. lia.
Qed.

(** * The loop over the lines *)
Notation lines_loop := (load_lines cast).
Lemma head_loop d skip max mark head rest text : text_of (head ++ rest) text -> Forall (fun l => ~ In 10 l) head ->
  forall fuel data nr nc nh, (length text < fuel)%nat -> nh + Z.of_nat (length head) <= skip ->
  exists fuel' text', text_of rest text' /\ (length text' < fuel')%nat /\
    lines_loop fuel d skip max mark text (mk_load data nr nc nh) =
    lines_loop fuel' d skip max mark text' (mk_load data nr nc (nh + Z.of_nat (length head))).
Proof.
  revert text. induction head as [|l head IH]; intros text HT HN fuel data nr nc nh Hf Hs.
  - exists fuel, text. split; [exact HT|]. split; [exact Hf|]. cbn. rewrite Z.add_0_r. reflexivity.
  - inversion HN as [|? ? Hl HN']; subst. cbn [app] in HT. destruct (text_cons _ _ _ HT Hl) as (text1 & G & HT1 & L1).
    cbn [length] in Hs. destruct fuel as [|fuel]; [lia|]. destruct (IH text1 HT1 HN' fuel data nr nc (nh + 1)) as (f' & t' & A & B & C); [lia|lia|].
    exists f', t'. split; [exact A|]. split; [exact B|]. cbn [load_lines]. rewrite G. cbn [ld_nhead].
    replace (nh <? skip) with true by (symmetry; apply Z.ltb_lt; lia). cbn [ld_data ld_nbrow ld_nbcol]. rewrite C. do 2 f_equal. cbn [length]. lia.
Qed.

Definition remaining (max nr : Z) : option nat := if 0 <? max then Some (Z.to_nat (max - nr)) else None.

Lemma body_loop d skip max mark limit body rows : holds d mark limit body rows -> Forall (fun l => ~ In 10 l) body ->
  forall vs, Forall2 casts rows vs ->
  forall text fuel data nr nc, text_of body text -> (length text < fuel)%nat -> 0 <= nr -> limit = remaining max nr ->
  lines_loop fuel d skip max mark text (mk_load data nr nc skip) =
  Ok (mk_load (data ++ concat vs) (nr + Z.of_nat (length vs)) (last (map (fun r => Z.of_nat (length r)) vs) nc) skip).
Proof.
  intros H. induction H as [limit|limit l ls rows Hc H IH|limit l ls cells rows Hu Hr Hlim H IH|l ls Hu];
    intros HN vs HV text fuel data nr nc HT Hf Hnr HL; (destruct fuel as [|fuel]; [lia|]); cbn [load_lines].
  - apply text_nil in HT. subst text. inversion HV; subst. cbn [getline concat length map last]. rewrite app_nil_r, Z.add_0_r. reflexivity.
  - inversion HN as [|? ? Hl HN']; subst. destruct (text_cons _ _ _ HT Hl) as (text1 & G & HT1 & L1). rewrite G. cbn [ld_nhead].
    rewrite Z.ltb_irrefl. rewrite (starts_comment _ _ Hc). cbn [bind]. apply IH; auto. lia.
  - inversion HN as [|? ? Hl HN']; subst. destruct (text_cons _ _ _ HT Hl) as (text1 & G & HT1 & L1). rewrite G. cbn [ld_nhead].
    rewrite Z.ltb_irrefl. rewrite (starts_unlike _ _ Hu). cbn [bind ld_nbrow ld_data]. inversion HV as [|? v ? vs' Hv HV']; subst.
    destruct Hr as (E & HD & HLast). rewrite E at 1 2. rewrite (row_loop d cells v Hv HD HLast) by lia. cbn [bind].
    assert (B : (0 <? max) && (max <=? nr) = false).
    { unfold remaining in Hlim. destruct (Z.ltb_spec 0 max); [|reflexivity]. cbn. apply Z.leb_gt. destruct (Z_le_gt_dec max nr); [|lia].
      exfalso. apply Hlim. f_equal. lia. }
    rewrite B. rewrite (IH HN' vs' HV'); [|exact HT1|lia|lia|].
    2: { unfold remaining. destruct (0 <? max); [|reflexivity]. cbn [option_map]. f_equal. lia. }
    cbn [concat length map]. rewrite <- app_assoc. do 2 f_equal.
    + lia.
    + destruct vs'; [cbn; lia|]. cbn [map last]. clear. generalize (0 + Z.of_nat (length v)). generalize (Z.of_nat (length l0)). revert nc.
      generalize (map (fun r : list T => Z.of_nat (length r)) vs'). intros l. induction l as [|a l IH]; intros; [reflexivity|].
      cbn [last]. destruct l; [reflexivity|]. apply (IH nc a z0).
  - inversion HN as [|? ? Hl HN']; subst. destruct (text_cons _ _ _ HT Hl) as (text1 & G & HT1 & L1). rewrite G. cbn [ld_nhead].
    rewrite Z.ltb_irrefl. rewrite (starts_unlike _ _ Hu). cbn [bind ld_nbrow ld_data]. inversion HV; subst.
    unfold remaining in HL. destruct (Z.ltb_spec 0 max) as [Hm|Hm]; [|discriminate]. injection HL as HL.
    replace (max <=? nr) with true by (symmetry; apply Z.leb_le; lia). cbn. rewrite app_nil_r, Z.add_0_r. reflexivity.
Qed.

Lemma limit_remaining max : limit_of max = remaining max 0.
Proof. unfold limit_of, remaining. rewrite Z.sub_0_r. reflexivity. Qed.

Lemma lines_ok d skip max mark text rows vs : csv_file d skip max mark text rows -> Forall2 casts rows vs ->
  exists nh, lines_loop (S (length text)) d skip max mark text (mk_load [] 0 0 0) =
    Ok (mk_load (concat vs) (Z.of_nat (length vs)) (last (map (fun r => Z.of_nat (length r)) vs) 0) nh).
Proof.
  intros (head & body & HT & HN & HS & HB) HV. apply Forall_app in HN. destruct HN as [HN1 HN2].
  destruct (head_loop d skip max mark head body text HT HN1 (S (length text)) [] 0 0 0) as (f & t & A & B & C); [lia|lia|].
  rewrite C. rewrite Z.add_0_l. destruct HS as [HS|[ -> HS]].
  - rewrite HS. exists skip. apply (body_loop d skip max mark (limit_of max) body rows HB HN2 vs HV); [exact A|exact B|lia|apply limit_remaining].
  - inversion HB; subst. inversion HV; subst. apply text_nil in A. subst t. destruct f; [lia|]. cbn. eauto.
Qed.

(** * The tensor *)
Lemma adapted_row sh : adapted sh (row_strides sh) = row_strides sh.
Proof.
  induction sh as [|n sh IH]; [reflexivity|]. rewrite row_strides_cons, adapted_cons, IH. f_equal. destruct (n =? 1); reflexivity.
Qed.
Lemma tensor_ok (data : list T) sh : tensor_of data sh (row_strides sh) =
  Ok (mk_cont sh (row_strides sh) (spec_backstrides (row_strides sh) sh) row_major data).
Proof.
  unfold tensor_of. rewrite adapt_strides_ok by (rewrite ?repeat_length; try apply row_strides_length; reflexivity). cbn [bind]. rewrite adapted_row. reflexivity.
Qed.

Definition csv_result (vs : list (list T)) : res (cont T) :=
  let sh := [Z.of_nat (length vs); last (map (fun r => Z.of_nat (length r)) vs) 0] in
  if Z.of_nat (length (concat vs)) =? prod sh
  then Ok (mk_cont sh (row_strides sh) (spec_backstrides (row_strides sh) sh) row_major (concat vs)) else Throw runtime_error.
Lemma load_ok d skip max mark text rows vs : csv_file d skip max mark text rows -> Forall2 casts rows vs ->
  load_csv cast d skip max mark text = csv_result vs.
Proof.
  intros HF HV. unfold load_csv. destruct (lines_ok d skip max mark text rows vs HF HV) as (nh & ->). cbn [bind ld_nbrow ld_nbcol ld_data].
  rewrite compute_strides_ok by reflexivity. cbn [layout_eqb orb some_bs bind]. rewrite tensor_ok. unfold csv_result. destruct (_ =? _); reflexivity.
Qed.
End Read.
