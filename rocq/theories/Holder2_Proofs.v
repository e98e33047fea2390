(** Writing one holder and reading the result into another; fixtures. *)
From Coq Require Import List ZArith Bool Lia Arith.
From Verif Require Import Prelude Strides_Model Strides_Spec Container_Model Container_Spec SView_Model SView_Spec Semantic_Model Json_Model Json_Spec Json_Proofs Json2_Proofs Json3_Proofs Holder_Model Holder_Spec Holder_Proofs.
Import ListNotations.
Open Scope nat_scope.

Section S.
Context {V : Type} (T SL DL : layout) (junk : list Z -> list Z) (rs : list V -> Z -> list V) (kind_of : V -> kind) (empty : kind -> cont V).
Hypothesis HT : T = row_major \/ T = column_major.
Hypothesis Hrs : forall d n, (0 <= n)%Z -> Z.of_nat (length (rs d n)) = n.
Notation write := (fun c : cont V => to_json T junk (of_cont c) (stored c)).
Notation read := (from_json T junk SL DL rs).

Lemma consistent_data (c : cont V) : consistent c -> Forall (fun d => (0 < d)%Z) (ct_shape c) -> exists x d, ct_data c = x :: d.
Proof.
  intros Hc Hp. destruct (ct_data c) as [|x0 d] eqn:Ed; [|eauto].
  exfalso. destruct Hc as (H1 & _ & _ & H4 & _). rewrite Ed in H4. cbn in H4. clear -Hp H4.
  assert (H : (0 < prod (ct_shape c))%Z); [|lia]. clear H4. induction Hp; [reflexivity|]. cbn [prod fold_right] in *. apply Z.mul_pos_pos; assumption.
Qed.
Lemma written (c : cont V) : consistent c -> Forall (fun d => (0 < d)%Z) (ct_shape c) -> exists f, write c = Ok (nested f (ct_shape c)).
Proof.
  intros Hc Hp. destruct (consistent_data c Hc Hp) as (x0 & d & _). destruct (consistent_elements c Hc x0) as (f & Hf).
  exists f. apply to_json_container; assumption.
Qed.
Lemma holder_round (s : state) h1 h2 p1 p2 (c c0 : cont V) :
  denotes s h1 p1 c -> denotes s h2 p2 c0 -> p1 <> p2 ->
  consistent c -> consistent c0 -> (SL <> dynamic -> ct_layout c0 = SL) -> Forall (fun d => (0 < d)%Z) (ct_shape c) -> ct_shape c <> [] ->
  exists j s' c', h_to_json write s h1 = Ok j /\ h_from_json kind_of empty read s h2 j = Done s' /\
    denotes s' h1 p1 c /\ denotes s' h2 p2 c' /\ ct_shape c' = ct_shape c /\
    (forall ix, in_bounds (ct_shape c) ix -> elt c' ix = elt c ix).
Proof.
  intros D1 D2 N Hc Hc0 Hl Hp Hn.
  destruct (round_trip_lemma T SL DL junk rs HT Hrs c c0 Hc Hc0 Hl Hp) as (j & c' & E1 & E2 & _ & E3 & E4).
  destruct (written c Hc Hp) as (f & Ef).
  assert (A : is_array j = true).
  { assert (Ej : Ok j = Ok (nested f (ct_shape c))) by congruence. injection Ej as ->. destruct (ct_shape c); [congruence|reflexivity]. }
  destruct (from_json_ok kind_of empty read s h2 p2 c0 j c' D2 A E2) as (s' & F1 & F2 & F3 & _).
  exists j, s', c'. split; [rewrite (to_json_ok write s h1 p1 c D1); exact E1|]. split; [exact F1|].
  split; [apply F3; assumption|]. split; [now apply F2|]. split; [exact E3|exact E4].
Qed.
Lemma holder_scalar (s : state) h1 h2 p1 (c : cont V) :
  denotes s h1 p1 c -> consistent c -> ct_shape c = [] ->
  exists j, h_to_json write s h1 = Ok j /\ h_from_json kind_of empty read s h2 j = Threw runtime_error s.
Proof.
  intros D1 Hc Hn. assert (Hp : Forall (fun d => (0 < d)%Z) (ct_shape c)) by (rewrite Hn; constructor).
  destruct (written c Hc Hp) as (f & Ef). rewrite Hn in Ef. eexists. split; [rewrite (to_json_ok write s h1 p1 c D1); exact Ef|].
  now apply from_json_scalar.
Qed.
End S.

Definition w_cont (c : cont Z) := to_json row_major no_junk (of_cont c) (stored c).
Definition r_cont := @from_json Z row_major no_junk row_major row_major keep_front.
Definition kind_num (_ : Z) := Number.
Definition e_cont (_ : kind) : cont Z := fresh.
