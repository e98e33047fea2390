From Coq Require Import List ZArith Bool Lia Permutation Sorted.
From Verif Require Import Prelude PreludeFacts Strides_Model Container_Model Manip_Model Sort_Model Sort_Spec Sort5_Proofs Hist_Model Hist_Spec Hist_Proofs.
Import ListNotations.
Open Scope Z_scope.

Section Fin.
Context {A : arith} (T : vtype A) {W : Type} (zero : W) (add : W -> W -> W).
Context {R : Type} (r_of : W -> R) (r_width : val T -> val T -> R) (r_size : Z -> R) (r_mul r_div : R -> R -> R) (a : algos).

Notation heights := (heights r_of r_width r_size r_mul r_div).

Lemma density_ok data edges count n : length edges = S n -> length count = n ->
  exists probs, for_up (fun i prob =>
      let* p := rd prob i in
      let* e1 := rd edges (i + 1) in
      let* e0 := rd edges i in
      wr prob i (r_div p (r_mul (r_width e1 e0) (r_size (Z.of_nat (length data)))))) 0 n (map r_of count) = Ok probs /\
    heights data edges count probs.
Proof.
  intros Le Lc.
  pose (Inv := fun (k : nat) (prob : list R) => length prob = n /\ forall i p, nth_error prob i = Some p -> exists c e0 e1,
    nth_error count i = Some c /\ nth_error edges i = Some e0 /\ nth_error edges (S i) = Some e1 /\
    p = if (i <? k)%nat then r_div (r_of c) (r_mul (r_width e1 e0) (r_size (Z.of_nat (length data)))) else r_of c).
  destruct (for_up_inv Inv (fun i prob =>
      let* p := rd prob i in
      let* e1 := rd edges (i + 1) in
      let* e0 := rd edges i in
      wr prob i (r_div p (r_mul (r_width e1 e0) (r_size (Z.of_nat (length data)))))) 0 n (map r_of count)) as (probs & E & [L H]).
  - split; [rewrite map_length; exact Lc|]. intros i p Hp. rewrite nth_error_map in Hp. destruct (nth_error count i) as [c|] eqn:Ec; [|discriminate].
    injection Hp as <-. assert (Hi : (i < length count)%nat) by (apply nth_error_Some; rewrite Ec; discriminate).
    destruct (nth_error edges i) as [e0|] eqn:E0; [|apply nth_error_None in E0; lia].
    destruct (nth_error edges (S i)) as [e1|] eqn:E1; [|apply nth_error_None in E1; lia].
    exists c, e0, e1. repeat split; assumption.
  - intros i prob Hi [L H]. destruct (nth_error prob i) as [p|] eqn:Ep; [|apply nth_error_None in Ep; lia].
    destruct (H i p Ep) as (c & e0 & e1 & Ec & E0 & E1 & Hp). rewrite (Nat.ltb_irrefl i) in Hp.
    rewrite (rd_ok _ _ _ Ep). cbn [bind]. rewrite (rd_ok edges (i + 1) e1) by (rewrite Nat.add_1_r; exact E1). cbn [bind]. rewrite (rd_ok _ _ _ E0). cbn [bind].
    rewrite wr_ok by lia. eexists. split; [reflexivity|]. split; [rewrite upd_length; exact L|].
    intros j q Hq. destruct (Nat.eq_dec i j) as [<-|Hn].
    + rewrite nth_error_upd_same in Hq by lia. injection Hq as <-. exists c, e0, e1. repeat split; try assumption.
      rewrite (proj2 (Nat.ltb_lt i (S i))) by lia. rewrite Hp. reflexivity.
    + rewrite nth_error_upd_other in Hq by exact Hn. destruct (H j q Hq) as (c' & e0' & e1' & X1 & X2 & X3 & X4).
      exists c', e0', e1'. repeat split; try assumption. rewrite X4. destruct (Nat.ltb_spec j i), (Nat.ltb_spec j (S i)); try reflexivity; lia.
  - exists probs. split; [exact E|]. split; [congruence|]. intros i p Hp. destruct (H i p Hp) as (c & e0 & e1 & X1 & X2 & X3 & X4).
    exists c, e0, e1. repeat split; try assumption. rewrite X4. rewrite (proj2 (Nat.ltb_lt i (0 + n))); [reflexivity|].
    assert (i < length probs)%nat by (apply nth_error_Some; rewrite Hp; discriminate). lia.
Qed.

Definition outcome (density : bool) (data edges : list (val T)) (count : list W) (r : res (list R)) : Prop :=
  if density then exists probs, r = Ok probs /\ heights data edges count probs else r = Ok (map r_of count).

Lemma adds_hist edges data weights pairs count :
  (2 <= length edges)%nat -> Permutation pairs (combine data weights) ->
  adds add (in_bin (v_lt T) edges) pairs (repeat zero (length edges - 1)) count ->
  is_histogram zero add (v_lt T) edges data weights count.
Proof.
  intros He P [L H]. split; [rewrite L; apply repeat_length|]. intros b c Hb.
  assert (Hz : nth_error (repeat zero (length edges - 1)) b = Some zero).
  { rewrite nth_error_repeat; [reflexivity|]. rewrite repeat_length in L. rewrite <- L. apply nth_error_Some. rewrite Hb. discriminate. }
  rewrite (H b zero Hz) in Hb. injection Hb as <-. eexists. split; [|reflexivity].
  apply Permutation_map. clear - P. induction P; cbn [filter].
  - constructor.
  - destruct (in_bin _ _ _ _); [constructor|]; assumption.
  - destruct (in_bin (v_lt T) edges b (fst x)), (in_bin (v_lt T) edges b (fst y)); repeat constructor; reflexivity.
  - etransitivity; eassumption.
Qed.

Lemma edges_lemma data edges weights density : std_ok a -> (2 <= length edges)%nat -> sorted (v_lt T) edges ->
  strict_weak_order (v_lt T) (data ++ edges) -> length weights = length data ->
  exists count, outcome density data edges count (histogram_edges T zero add r_of r_width r_size r_mul r_div a data edges weights density) /\
    is_histogram zero add (v_lt T) edges data weights count.
Proof.
  intros Ha He Hs Sw Hw. unfold histogram_edges, histogram_imp. rewrite (proj2 (Nat.ltb_ge _ 2)) by exact He.
  cbv zeta. set (n := (length edges - 1)%nat). assert (Hn : length edges = S n) by lia. assert (H1 : (1 <= n)%nat) by lia.
  assert (Li : length (iota (length data)) = length data) by (unfold iota; rewrite map_length, seq_length; reflexivity).
  destruct (argsort_iter_ok a (v_lt T) false data (iota (length data)) Ha) as (sorter & Es & _ & (ws & (Pp & Fp) & Sp) & _).
  { lia. }
  { rewrite Li, firstn_all. apply (swo_incl _ _ _ Sw). apply incl_appl, incl_refl. }
  rewrite Li, firstn_all in Pp, Fp. rewrite Es. cbn [bind].
  (* the weights in the same order *)
  assert (Pairs : exists pairs, Forall2 (fun i p => nth_error data (Z.to_nat i) = Some (fst p) /\ nth_error weights (Z.to_nat i) = Some (snd p) /\ 0 <= i) sorter pairs /\ map fst pairs = ws).
  { assert (Hb : Forall (fun i => 0 <= i < Z.of_nat (length data)) sorter).
    { rewrite Forall_forall. intros i Hi. apply (Permutation_in _ Pp) in Hi. apply in_map_iff in Hi. destruct Hi as (k & <- & Hk). apply in_seq in Hk. lia. }
    clear - Fp Hb Hw. induction Fp as [|i w idx ws E F IH]; [exists []; split; [constructor|reflexivity]|].
    inversion Hb as [|? ? Hi Hb']; subst. destruct (IH Hb') as (ps & Fs & Ms).
    destruct (nth_error weights (Z.to_nat i)) as [v|] eqn:Ev; [|apply nth_error_None in Ev; lia].
    exists ((w, v) :: ps). split; [constructor; [cbn; repeat split; try assumption; lia|exact Fs]|]. cbn. congruence. }
  destruct Pairs as (pairs & Fq & <-).
  destruct (sorted_loop_ok T add edges data weights n Sw Hs Hn H1 sorter pairs 0 (repeat zero n) Fq Sp) as (count & Ec & Hc).
  { apply repeat_length. }
  { lia. }
  { left. reflexivity. }
  rewrite Ec. cbn [bind].
  assert (Pc : Permutation pairs (combine data weights)).
  { apply (nth_perm _ sorter).
    - clear - Fq. induction Fq as [|i p idx ps (E1 & E2 & _) F IH]; constructor; [|exact IH]. destruct p as [x w]. cbn [fst snd] in *.
      clear - E1 E2. revert weights E1 E2. generalize (Z.to_nat i). intros k. revert k. induction data as [|y l IH]; intros k ws E1 E2; [destruct k; discriminate|].
      destruct ws as [|v ws]; [destruct k; discriminate|]. destruct k as [|k]; cbn in *; [congruence|]. exact (IH k ws E1 E2).
    - rewrite combine_length, Hw, Nat.min_id. exact Pp. }
  exists count. split; [|exact (adds_hist edges data weights pairs count He Pc Hc)].
  unfold outcome. destruct density; [|reflexivity].
  apply density_ok; [exact Hn|]. destruct Hc as [L _]. rewrite L. apply repeat_length.
Qed.
End Fin.
