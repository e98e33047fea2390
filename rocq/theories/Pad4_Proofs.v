From Coq Require Import List ZArith Lia Bool Arith.
From Verif Require Import Prelude PreludeFacts Strides_Model Strides_Spec Strides_Proofs Access_Model Slice_Model Container_Model Container_Spec Container_Proofs
  Semantic_Spec Reduce_Spec Reduce15_Proofs Select_Model Select_Spec Pad_Model Pad_Spec Pad2_Proofs Pad3_Proofs.
Import ListNotations.
Open Scope Z_scope.

(** Elements 0..5 in two rows. *)
Definition grid6 (ix : list Z) : Z := row_pos [2; 3] ix.
Definition never (ss : list slice) := false.

Lemma pad_wide_lemma : ~ forall V TL tmp SL DL fresh n0 (v0 : V) mode esh e ev pw x, is_order TL -> resizes fresh -> mode <> p_constant -> is_shape esh ->
  Forall2 (fun n w => 1 <= n /\ 0 <= fst w /\ 0 <= snd w) esh pw -> (forall j, in_bounds esh j -> e j = Ok (ev j)) ->
  exists c, pad TL tmp SL DL fresh n0 v0 mode esh e pw x = Ok c /\ holds c (padded_shape esh pw) (fun ix => ev (pad_source mode esh pw ix)).
Proof.
  intros H. destruct (H Z row_major never row_major row_major fill_fresh 0%nat 0 p_symmetric [2] (fun ix => Ok (nth 0 ix 0)) (fun ix => nth 0 ix 0) [(3, 1)] 0) as (c & E & Hc).
  - left. reflexivity.
  - intros d n Hn. apply fill_fresh_length. exact Hn.
  - discriminate.
  - repeat (constructor; [discriminate|]). constructor.
  - constructor; [cbn; lia|constructor].
  - reflexivity.
  - vm_compute in E. injection E as <-. destruct Hc as (_ & _ & He). specialize (He [0]). vm_compute in He.
    assert (B : in_bounds [6] [0]) by (constructor; [lia|constructor]). specialize (He B). discriminate He.
Qed.
Lemma tile_zero_lemma : tile row_major never row_major row_major fill_fresh 0 0 [2; 3] (fun ix => Ok (grid6 ix)) [1; 0] = Throw broadcast_error.
Proof. vm_compute. reflexivity. Qed.

Lemma tile_zero_lemma' : exists (e : list Z -> Z) c,
  tile row_major never row_major row_major fill_fresh 0 0 [2; 3] (fun ix => Ok (e ix)) [1; 0] = Throw broadcast_error /\
  holds c (tiled_shape [2; 3] [1; 0]) (fun ix => e (mods ix [2; 3])) /\
  tile_first row_major never row_major row_major fill_fresh 0 0 [] (fun ix => Ok (e ix)) 2 = UB.
Proof.
  exists grid6, (mk_cont [2; 0] [0; 0] [0; 0] row_major (@nil Z)). split; [exact tile_zero_lemma|]. split; [|reflexivity].
  assert (N : forall ix, ~ in_bounds [2; 0] ix).
  { intros ix B. inversion B as [|? x ? t _ Ht]; subst. inversion Ht as [|? y ? t' Hy _]; subst. lia. }
  split; [|split; [reflexivity|intros ix B; destruct (N ix B)]].
  split; [repeat (constructor; [cbn; discriminate|]); constructor|]. split; [reflexivity|]. split; [reflexivity|]. split; [reflexivity|].
  exists row_major. split; [left; reflexivity|]. split; [reflexivity|]. intros ix B. destruct (N ix B).
Qed.
Lemma widths_constant : forall (esh : list Z) pw, Forall2 (fun _ w => 0 <= fst w /\ 0 <= snd w) esh pw -> Forall2 (width_ok p_constant) esh pw.
Proof. induction 1 as [|n w esh pw [H1 H2] H IH]; constructor; [|exact IH]. split; [exact H1|]. split; [exact H2|exact I]. Qed.
Lemma reflect_widths : Forall2 (width_ok p_reflect) [2; 3] [(1, 0); (1, 2)].
Proof. repeat (constructor; [split; [|split]; cbn; lia|]). constructor. Qed.
Lemma pad_same_lemma : forall V TL tmp SL DL fresh n0 (v0 : V) mode esh e ev w x, is_order TL -> resizes fresh -> mode <> p_constant -> is_shape esh ->
  Forall (fun n => width_ok mode n w) esh -> (forall j, in_bounds esh j -> e j = Ok (ev j)) ->
  exists c, pad_same TL tmp SL DL fresh n0 v0 mode esh e w x = Ok c /\
    holds c (map (fun n => fst w + n + snd w) esh) (fun ix => ev (pad_source mode esh (map (fun _ => w) esh) ix)).
Proof.
  intros V TL tmp SL DL fresh n0 v0 mode esh e ev w x HT Hf Hm Hs Hw He.
  assert (R : repeat w (length esh) = map (fun _ => w) esh) by (clear; induction esh as [|a l IH]; cbn; [reflexivity|rewrite IH; reflexivity]).
  unfold pad_same. rewrite R. destruct (pad_lemma TL tmp HT SL DL fresh Hf n0 v0 mode esh e ev (map (fun _ => w) esh) x Hm Hs) as (c & E & H).
  - clear - Hw. induction Hw; constructor; assumption.
  - exact He.
  - exists c. split; [exact E|]. replace (map (fun n => fst w + n + snd w) esh) with (padded_shape esh (map (fun _ => w) esh)); [exact H|].
    clear. induction esh as [|a l IH]; cbn; [reflexivity|rewrite IH; reflexivity].
Qed.
