From Coq Require Import List ZArith Bool Lia Permutation Sorted QArith Qround Lqa.
From Verif Require Import Prelude PreludeFacts Strides_Model Access_Model Container_Model Manip_Model Sort_Model Sort_Spec Sort5_Proofs Hist_Model Hist_Spec Hist_Proofs Hist2_Proofs Hist3_Proofs.
Import ListNotations.
Open Scope Z_scope.

Lemma firstn_S_combine {V W} (l : list V) (w : list W) i x y : nth_error l i = Some x -> nth_error w i = Some y ->
  firstn (S i) (combine l w) = firstn i (combine l w) ++ [(x, y)].
Proof.
  revert w i. induction l as [|a l IH]; intros w i Hx Hy; [destruct i; discriminate|]. destruct w as [|b w]; [destruct i; discriminate|].
  destruct i as [|i]; cbn in *; [congruence|]. f_equal. exact (IH w i Hx Hy).
Qed.

Lemma In_nth_error_first {V} (l : list V) : l <> [] -> exists x, In x l.
Proof. destruct l as [|x l]; [congruence|]. exists x. left. reflexivity. Qed.

Section Loop.
Context {W : Type} (zero : W) (add : W -> W -> W) (lo hi left right : Q) (bins : nat).
Hypothesis Hlr : (left <= right)%Q.
Hypothesis Hlo : (lo <= left)%Q.
Hypothesis Hhi : (right <= hi)%Q.
Hypothesis Hb : (1 <= bins)%nat.
Hypothesis Hb64 : Z.of_nat bins < 2 ^ 64.
Let T := type_exact lo hi.
Context (edges : list Q).
Hypothesis Ee : equal_edges left right bins edges.
Notation qn := (inject_Z (Z.of_nat bins)).

Lemma equal_loop_ok (l' r' : Q) data weights count : (l' == left)%Q -> (r' == right)%Q -> length weights = length data -> length count = bins ->
  exists count', equal_loop T add (Z.of_nat bins) l' r' (1 / (r' - l'))%Q data weights count = Ok count' /\
    adds add (in_bin q_lt edges) (combine data weights) count count'.
Proof.
  intros Hl Hr Lw Lc. unfold equal_loop.
  pose (Inv := fun (k : nat) (c : list W) => adds add (in_bin q_lt edges) (firstn k (combine data weights)) count c).
  match goal with |- exists c, for_up ?b _ _ _ = _ /\ _ => destruct (for_up_inv Inv b 0 (length data) count) as (count' & E & H) end.
  - apply adds_nil.
  - intros i c Hi Hc. destruct (nth_error data i) as [x|] eqn:Ex; [|apply nth_error_None in Ex; lia].
    destruct (nth_error weights i) as [w|] eqn:Ew; [|apply nth_error_None in Ew; lia].
    rewrite (rd_ok _ _ _ Ex). cbn [bind]. cbn [v_dbl type_exact T a_le a_lt exact a_eq].
    assert (Step : forall b, (b < bins)%nat -> in_bin q_lt edges b x = true ->
      exists s', (let* w := rd weights i in count_add add (Z.of_nat b) w c) = Ok s' /\ Inv (S i) s').
    { intros b Hbb Hin. rewrite (rd_ok _ _ _ Ew). cbn [bind].
      destruct (adds_one add (in_bin q_lt edges) x w c b) as (c' & E' & A').
      - destruct Hc. lia.
      - exact Hin.
      - intros b' _ Hb'. apply (in_bin_unique' q_lt edges bins (x :: edges) (q_swo _)) with (x := x); try assumption.
        + intros z Hz. right. exact Hz.
        + exact (equal_sorted left right bins Hlr Hb edges Ee).
        + exact (proj1 Ee).
        + left. reflexivity.
      - exists c'. split; [exact E'|]. unfold Inv. rewrite (firstn_S_combine data weights i x w Ex Ew). exact (adds_trans _ _ _ _ _ _ _ Hc A'). }
    change (negb (Qle_bool r' x)) with (q_lt x r').
    destruct (Qle_bool l' x && q_lt x r') eqn:E1.
    + apply andb_true_iff in E1. destruct E1 as [E1 E2]. apply Qle_bool_iff in E1. apply q_lt_true in E2.
      destruct (bin_of left right bins Hb edges Ee l' r' x Hl Hr ltac:(lra) ltac:(lra)) as [B1 B2].
      unfold a_size. cbn [a_trunc exact a_mul a_of a_sub bind]. set (b := Qtrunc _) in *.
      rewrite (proj2 (Z.leb_le 0 b)) by lia. rewrite (proj2 (Z.ltb_lt b (2 ^ 64))) by lia. cbn [andb bind].
      destruct (Step (Z.to_nat b) ltac:(lia) B2) as (s' & S1 & S2). rewrite Z2Nat.id in S1 by lia. exists s'. split; assumption.
    + destruct (Qeq_bool x r') eqn:E2.
      * apply Qeq_bool_iff in E2.
        destruct (Step (bins - 1)%nat ltac:(lia)) as (s' & S1 & S2).
        { destruct (equal_edge left right bins Hb edges Ee (bins - 1) ltac:(lia)) as (e0 & E0 & Q0).
          destruct (equal_edge left right bins Hb edges Ee bins ltac:(lia)) as (e1 & E1' & Q1).
          unfold in_bin. replace (S (bins - 1)) with bins by lia. rewrite E0, E1'.
          pose proof (h_n left right bins Hb) as Hn. pose proof (h_nonneg left right bins Hlr Hb) as Hh.
          assert (Hq1 : (inject_Z (Z.of_nat (bins - 1)) <= qn)%Q) by (rewrite <- Zle_Qle; lia).
          assert (X0 : q_lt x e0 = false). { apply q_lt_false. rewrite Q0, E2, Hr. nra. }
          assert (X1 : q_lt e1 x = false). { apply q_lt_false. rewrite Q1, E2, Hr. nra. }
          rewrite X0, X1. rewrite (proj1 Ee), Nat.eqb_refl. cbn. apply orb_true_r. }
        replace (Z.of_nat (bins - 1)) with (Z.of_nat bins - 1) in S1 by lia. exists s'. split; assumption.
      * exists c. split; [reflexivity|]. unfold Inv. rewrite (firstn_S_combine data weights i x w Ex Ew). apply (adds_trans _ _ _ _ _ _ _ Hc).
        apply adds_none. intros b _.
        assert (N : ~ (x == r')%Q) by (intros HH; apply Qeq_bool_iff in HH; congruence).
        apply andb_false_iff in E1.
        destruct (equal_edge left right bins Hb edges Ee 0 ltac:(lia)) as (e0 & E0 & Q0).
        destruct (equal_edge left right bins Hb edges Ee bins ltac:(lia)) as (e1 & E1' & Q1).
        pose proof (h_n left right bins Hb) as Hn. change (inject_Z (Z.of_nat 0)) with 0%Q in Q0.
        assert (U1 : incl edges (x :: edges)) by (intros z Hz; right; exact Hz).
        destruct E1 as [E1|E1].
        -- apply (below q_lt edges bins (x :: edges) (q_swo _) U1 (equal_sorted left right bins Hlr Hb edges Ee) (proj1 Ee) b x e0); [left; reflexivity|exact E0|].
           apply q_lt_true. assert (~ (l' <= x)%Q) by (intros HH; apply Qle_bool_iff in HH; congruence). nra.
        -- apply (above q_lt edges bins (x :: edges) (q_swo _) U1 (equal_sorted left right bins Hlr Hb edges Ee) (proj1 Ee) b x e1); [left; reflexivity|exact E1'|].
           apply q_lt_true. apply q_lt_false in E1. nra.
  - exists count'. split; [exact E|]. unfold Inv in H. rewrite firstn_all2 in H; [exact H|]. rewrite combine_length. lia.
Qed.

Context {R : Type} (r_of : W -> R) (r_width : Q -> Q -> R) (r_size : Z -> R) (r_mul r_div : R -> R -> R) (a : algos).
Lemma imp_exact data weights density : length weights = length data ->
  exists count, outcome T r_of r_width r_size r_mul r_div density data edges count
      (histogram_imp T zero add r_of r_width r_size r_mul r_div a data edges weights density true) /\
    is_histogram zero add q_lt edges data weights count.
Proof.
  intros Hw. unfold histogram_imp. rewrite (proj2 (Nat.ltb_ge _ 2)) by (change (2 <= length edges)%nat; rewrite (proj1 Ee); lia).
  assert (Ln : (@length (val T) edges - 1)%nat = bins) by (change (@length Q edges - 1 = bins)%nat; pose proof (proj1 Ee); lia).
  cbv zeta. rewrite Ln.
  cbn [v_lt v_max v_low type_exact T v_dbl exact a_div a_of a_sub].
  change (fun x y : Q => negb (Qle_bool y x)) with q_lt.
  destruct (equal_bounds lo hi left right bins Hlr Hlo Hhi Hb edges Ee) as [B1 B2].
  destruct (equal_loop_ok (fst (minmax q_lt hi lo edges)) (snd (minmax q_lt hi lo edges)) data weights (repeat zero bins) B1 B2 Hw (repeat_length _ _)) as (count & E & Ha).
  exists count. split.
  - match type of E with ?l = _ => match goal with |- outcome _ _ _ _ _ _ _ _ _ _ (bind ?m _) => change m with l end end. rewrite E. cbn [bind].
    unfold outcome. destruct density; [|reflexivity]. 
    apply (density_ok T r_of r_width r_size r_mul r_div data edges count bins); [exact (proj1 Ee)|]. destruct Ha as [L _]. rewrite L. apply repeat_length.
  - apply (adds_hist T zero add edges data weights (combine data weights)); [|reflexivity|].
    + change (2 <= length edges)%nat. rewrite (proj1 Ee). lia.
    + rewrite Ln. exact Ha.
Qed.
End Loop.

Lemma between_lemma {W R : Type} (zero : W) (add : W -> W -> W) (r_of : W -> R) (r_width : Q -> Q -> R) (r_size : Z -> R) (r_mul r_div : R -> R -> R) (a : algos)
    (lo hi left right : Q) (bins : nat) (data : list Q) (weights : list W) density :
  (lo <= left)%Q -> (left <= right)%Q -> (right <= hi)%Q -> (1 <= bins)%nat -> Z.of_nat bins < 2 ^ 64 -> length weights = length data ->
  exists edges count, equal_edges left right bins edges /\
    outcome (type_exact lo hi) r_of r_width r_size r_mul r_div density data edges count
      (histogram_between (type_exact lo hi) zero add r_of r_width r_size r_mul r_div a data bins weights left right density) /\
    is_histogram zero add q_lt edges data weights count.
Proof.
  intros Hlo Hlr Hhi Hb Hb64 Hw. destruct (linspace_exact lo hi left right bins Hb) as (edges & E & Ee).
  destruct (imp_exact zero add lo hi left right bins Hlr Hlo Hhi Hb Hb64 edges Ee r_of r_width r_size r_mul r_div a data weights density Hw) as (count & H1 & H2).
  exists edges, count. split; [exact Ee|]. split; [|exact H2]. unfold histogram_between. rewrite E. exact H1.
Qed.

(** The number of bins only: the bounds are those of the data. *)
Lemma bins_lemma {W R : Type} (zero : W) (add : W -> W -> W) (r_of : W -> R) (r_width : Q -> Q -> R) (r_size : Z -> R) (r_mul r_div : R -> R -> R) (a : algos)
    (lo hi : Q) (bins : nat) (data : list Q) (weights : list W) density :
  Forall (fun x => (lo <= x <= hi)%Q) data -> data <> [] -> (1 <= bins)%nat -> Z.of_nat bins < 2 ^ 64 -> length weights = length data ->
  exists left right edges count, Forall (fun x => (left <= x <= right)%Q) data /\ Exists (fun x => (x == left)%Q) data /\ Exists (fun x => (x == right)%Q) data /\
    equal_edges left right bins edges /\
    outcome (type_exact lo hi) r_of r_width r_size r_mul r_div density data edges count
      (histogram_bins (type_exact lo hi) zero add r_of r_width r_size r_mul r_div a data bins weights density) /\
    is_histogram zero add q_lt edges data weights count.
Proof.
  intros Hd Hne Hb Hb64 Hw. unfold histogram_bins.
  change (minmax (v_lt (type_exact lo hi)) (v_max (type_exact lo hi)) (v_low (type_exact lo hi)) data) with (minmax q_lt hi lo data).
  destruct (minmax_spec data hi lo) as (A1 & A2 & A3 & B1 & B2 & B3). set (b := minmax q_lt hi lo data) in *. cbv zeta.
  destruct (In_nth_error_first data Hne) as (x0 & H0). rewrite Forall_forall in Hd, A2, B2.
  pose proof (Hd _ H0). pose proof (A2 _ H0). pose proof (B2 _ H0).
  destruct (between_lemma zero add r_of r_width r_size r_mul r_div a lo hi (fst b) (snd b) bins data weights density) as (edges & count & E1 & E2 & E3);
    try assumption.
  - destruct A3 as [A3|A3]; [rewrite A3; lra|]. apply Hd in A3. lra.
  - lra.
  - destruct B3 as [B3|B3]; [rewrite B3; lra|]. apply Hd in B3. lra.
  - exists (fst b), (snd b), edges, count. split; [rewrite Forall_forall; intros x Hx; split; [apply A2|apply B2]; exact Hx|].
    split; [|split; [|split; [exact E1|split; [exact E2|exact E3]]]].
    + apply Exists_exists. destruct A3 as [A3|A3]; [exists x0; split; [exact H0|rewrite A3 in *; lra]|]. exists (fst b). split; [exact A3|reflexivity].
    + apply Exists_exists. destruct B3 as [B3|B3]; [exists x0; split; [exact H0|rewrite B3 in *; lra]|]. exists (snd b). split; [exact B3|reflexivity].
Qed.
