(** Proofs about holders. *)
From Coq Require Import List ZArith Bool Lia Arith.
From Verif Require Import Prelude Semantic_Model Json_Model Holder_Model Holder_Spec.
Import ListNotations.
Open Scope nat_scope.

Lemma set_nth_length {A} (l : list A) i x : i < length l -> length (set_nth l i x) = length l.
Proof. intros H. unfold set_nth. rewrite app_length, firstn_length. cbn [length]. rewrite skipn_length. lia. Qed.
Lemma set_nth_same {A} (l : list A) i x : i < length l -> nth_error (set_nth l i x) i = Some x.
Proof. intros H. unfold set_nth. rewrite nth_error_app2; rewrite firstn_length; [|lia]. replace (i - Nat.min i (length l)) with 0 by lia. reflexivity. Qed.
Lemma set_nth_other {A} : forall (l : list A) i x k, i < length l -> k <> i -> nth_error (set_nth l i x) k = nth_error l k.
Proof.
  induction l as [|a l IH]; intros i x k H N; cbn [length] in H; [lia|].
  destruct i as [|i]; destruct k as [|k]; try lia; cbn; try reflexivity.
  change (nth_error (set_nth l i x) k = nth_error l k). apply IH; lia.
Qed.
Lemma list_ext {A} : forall l l' : list A, (forall k, nth_error l k = nth_error l' k) -> l = l'.
Proof.
  induction l as [|a l IH]; intros [|b l'] H; [reflexivity|specialize (H 0); discriminate|specialize (H 0); discriminate|].
  pose proof (H 0) as H0. cbn in H0. injection H0 as ->. f_equal. apply IH. intros k. exact (H (S k)).
Qed.
Lemma set_nth_replaced {A} (l : list A) i x l' : i < length l -> replaced l i x l' -> l' = set_nth l i x.
Proof.
  intros H (L & E & O). apply list_ext. intros k. destruct (Nat.eq_dec k i) as [ -> |N].
  - rewrite E, set_nth_same; auto.
  - rewrite set_nth_other by auto. auto.
Qed.
Lemma nth_lt {A} (l : list A) i x : nth_error l i = Some x -> i < length l.
Proof. intros H. apply nth_error_Some. congruence. Qed.
Lemma set_nth_map {A B} (f : A -> B) (l : list A) i x : set_nth (map f l) i (f x) = map f (set_nth l i x).
Proof. unfold set_nth. rewrite map_app, firstn_map. cbn [map]. now rewrite skipn_map. Qed.

Section S.
Context {V X : Type} (kind_of : V -> kind) (empty : kind -> X) (write : X -> res (json V)) (read : json V -> X -> res X).
Notation st := (@state X).

Inductive chain (s : st) : nat -> list nat -> place -> X -> Prop :=
| chain_own h x : holder s h = Some (Some (Own x)) -> chain s h [h] (AtHolder h) x
| chain_var h v x : holder s h = Some (Some (Var v)) -> nth_error (vars s) v = Some x -> chain s h [h] (AtVar v) x
| chain_hold h h' l p x : holder s h = Some (Some (Hold h')) -> chain s h' l p x -> chain s h (h :: l) p x.

Lemma denotes_chain (s : st) h p x : denotes s h p x -> exists l, chain s h l p x.
Proof. induction 1 as [h x H|h v x H E|h h' p x H D [l C]]; eexists; [eapply chain_own|eapply chain_var|eapply chain_hold]; eauto. Qed.
Lemma chain_denotes (s : st) h l p x : chain s h l p x -> denotes s h p x.
Proof. induction 1; [eapply denotes_own|eapply denotes_var|eapply denotes_hold]; eauto. Qed.
Lemma chain_fun (s : st) h l p x : chain s h l p x -> forall l' p' x', chain s h l' p' x' -> l = l' /\ p = p' /\ x = x'.
Proof.
  induction 1 as [h x H|h v x H E|h h' l p x H C IH]; intros l' p' x' C'; inversion C'; subst; try congruence.
  - rewrite H in H0. injection H0 as ->. auto.
  - rewrite H in H0. injection H0 as ->. assert (x = x') by congruence. auto.
  - rewrite H in H0. injection H0 as ->. destruct (IH _ _ _ H1) as (-> & -> & ->). auto.
Qed.
Lemma denotes_fun (s : st) h p x p' x' : denotes s h p x -> denotes s h p' x' -> p = p' /\ x = x'.
Proof.
  intros D D'. destruct (denotes_chain _ _ _ _ D) as [l C]. destruct (denotes_chain _ _ _ _ D') as [l' C'].
  now destruct (chain_fun _ _ _ _ _ C _ _ _ C') as (_ & E & F).
Qed.
Lemma chain_in (s : st) h l p x : chain s h l p x -> forall k, In k l -> exists l', chain s k l' p x /\ length l' <= length l.
Proof.
  induction 1 as [h x H|h v x H E|h h' l p x H C IH]; intros k I.
  - destruct I as [ <- |[]]. exists [h]. split; [now apply chain_own|lia].
  - destruct I as [ <- |[]]. exists [h]. split; [now apply chain_var|lia].
  - destruct I as [ <- |I]; [exists (h :: l); split; [eapply chain_hold; eauto|lia]|].
    destruct (IH _ I) as (l' & C' & L). exists l'. split; [exact C'|cbn; lia].
Qed.
Lemma chain_nodup (s : st) h l p x : chain s h l p x -> NoDup l.
Proof.
  induction 1 as [h x H|h v x H E|h h' l p x H C IH]; [repeat constructor; intros []|repeat constructor; intros []|].
  constructor; [|exact IH]. intros I. destruct (chain_in _ _ _ _ _ C _ I) as (l' & C' & L).
  destruct (chain_fun _ _ _ _ _ C' _ _ _ (chain_hold _ _ _ _ _ _ H C)) as (-> & _). cbn in L. lia.
Qed.
Lemma chain_bound (s : st) h l p x : chain s h l p x -> length l <= length (holders s).
Proof.
  intros C. rewrite <- (seq_length (length (holders s)) 0). apply NoDup_incl_length; [exact (chain_nodup _ _ _ _ _ C)|].
  intros k I. destruct (chain_in _ _ _ _ _ C _ I) as (l' & C' & _). apply in_seq.
  assert (k < length (holders s)); [|lia]. inversion C'; subst; eapply nth_lt; eassumption.
Qed.

Lemma to_json_chain (s : st) h l p x : chain s h l p x -> forall fuel, length l <= fuel -> to_json_from write fuel s h = write x.
Proof.
  induction 1 as [h x H|h v x H E|h h' l p x H C IH]; intros [|fuel] L; cbn [length] in L; try lia; cbn [to_json_from]; rewrite H.
  - reflexivity.
  - now rewrite E.
  - apply IH. lia.
Qed.
Lemma to_json_ok (s : st) h p x : denotes s h p x -> h_to_json write s h = write x.
Proof.
  intros D. destruct (denotes_chain _ _ _ _ D) as [l C]. apply (to_json_chain _ _ _ _ _ C). pose proof (chain_bound _ _ _ _ _ C). lia.
Qed.

Definition store (s : st) (p : place) (x : X) : st :=
  match p with AtHolder h => set_holder s h (Some (Own x)) | AtVar v => set_var s v x end.
Lemma from_json_chain (s : st) h l p x j : chain s h l p x -> is_array j = true -> forall fuel, length l <= fuel ->
  from_json_from kind_of empty read fuel s h j = finish s (read j x) (fun x' => store s p x').
Proof.
  intros C A. induction C as [h x H|h v x H E|h h' l p x H C IH]; intros [|fuel] L; cbn [length] in L; try lia; cbn [from_json_from];
    rewrite A, H; cbn [negb].
  - reflexivity.
  - now rewrite E.
  - apply IH. lia.
Qed.
Lemma from_json_eq (s : st) h p x j : denotes s h p x -> is_array j = true ->
  h_from_json kind_of empty read s h j = finish s (read j x) (fun x' => store s p x').
Proof.
  intros D A. destruct (denotes_chain _ _ _ _ D) as [l C]. apply (from_json_chain _ _ _ _ _ _ C A). pose proof (chain_bound _ _ _ _ _ C). lia.
Qed.

Lemma denotes_place (s : st) h p x : denotes s h p x ->
  match p with AtHolder k => holder s k = Some (Some (Own x)) | AtVar v => nth_error (vars s) v = Some x end.
Proof. induction 1; auto. Qed.
Lemma store_own (s : st) h0 x0 x' h p y : holder s h0 = Some (Some (Own x0)) -> denotes s h p y ->
  denotes (set_holder s h0 (Some (Own x'))) h p (match p with AtHolder k => if k =? h0 then x' else y | _ => y end).
Proof.
  intros H0. pose proof (nth_lt _ _ _ H0) as L. induction 1 as [h x H|h v x H E|h h' p x H C IH].
  - apply denotes_own. unfold holder, set_holder. cbn. destruct (Nat.eqb_spec h h0) as [ -> |N].
    + now rewrite set_nth_same.
    + rewrite set_nth_other; auto.
  - apply denotes_var; [|exact E]. unfold holder, set_holder. cbn. rewrite set_nth_other; auto. intros ->. congruence.
  - eapply denotes_hold; [|exact IH]. unfold holder, set_holder. cbn. rewrite set_nth_other; auto. intros ->. congruence.
Qed.
Lemma store_var (s : st) v0 x0 x' h p y : nth_error (vars s) v0 = Some x0 -> denotes s h p y ->
  denotes (set_var s v0 x') h p (match p with AtVar k => if k =? v0 then x' else y | _ => y end).
Proof.
  intros H0. pose proof (nth_lt _ _ _ H0) as L. induction 1 as [h x H|h v x H E|h h' p x H C IH].
  - now apply denotes_own.
  - apply denotes_var; [exact H|]. cbn. destruct (Nat.eqb_spec v v0) as [ -> |N].
    + now rewrite set_nth_same.
    + rewrite set_nth_other; auto.
  - eapply denotes_hold; [exact H|exact IH].
Qed.
Lemma from_json_ok (s : st) h p x j x' : denotes s h p x -> is_array j = true -> read j x = Ok x' ->
  exists s', h_from_json kind_of empty read s h j = Done s' /\
    (forall h', denotes s h' p x -> denotes s' h' p x') /\
    (forall h' p' y, p' <> p -> denotes s h' p' y -> denotes s' h' p' y) /\
    (forall v, nth_error (vars s') v = if match p with AtVar k => v =? k | _ => false end then Some x' else nth_error (vars s) v).
Proof.
  intros D A R. rewrite (from_json_eq _ _ _ _ _ D A), R. cbn [finish]. exists (store s p x'). split; [reflexivity|].
  pose proof (denotes_place _ _ _ _ D) as P. destruct p as [k|k]; cbn [store].
  - split; [|split].
    + intros h' D'. pose proof (store_own _ _ _ x' _ _ _ P D') as Q. cbn in Q. now rewrite Nat.eqb_refl in Q.
    + intros h' p' y N D'. pose proof (store_own _ _ _ x' _ _ _ P D') as Q. destruct p' as [k'|]; [|exact Q].
      destruct (Nat.eqb_spec k' k) as [ -> |]; [congruence|exact Q].
    + reflexivity.
  - split; [|split].
    + intros h' D'. pose proof (store_var _ _ _ x' _ _ _ P D') as Q. cbn in Q. now rewrite Nat.eqb_refl in Q.
    + intros h' p' y N D'. pose proof (store_var _ _ _ x' _ _ _ P D') as Q. destruct p' as [|k']; [exact Q|].
      destruct (Nat.eqb_spec k' k) as [ -> |]; [congruence|exact Q].
    + intros v. cbn. pose proof (nth_lt _ _ _ P). destruct (Nat.eqb_spec v k) as [ -> |]; [now rewrite set_nth_same|now rewrite set_nth_other].
Qed.
Lemma from_json_scalar (s : st) h j : is_array j = false -> h_from_json kind_of empty read s h j = Threw runtime_error s.
Proof. intros A. unfold h_from_json. cbn [from_json_from]. now rewrite A. Qed.

Lemma add_old (s : st) o h : h < length (holders s) -> holder (add_holder s o) h = holder s h.
Proof. intros L. unfold holder, add_holder. cbn. now rewrite nth_error_app1. Qed.
Lemma add_new (s : st) o : holder (add_holder s o) (length (holders s)) = Some o.
Proof. unfold holder, add_holder. cbn. rewrite nth_error_app2, Nat.sub_diag by lia. reflexivity. Qed.
Lemma add_denotes (s : st) o h p x : denotes s h p x -> denotes (add_holder s o) h p x.
Proof.
  induction 1 as [h x H|h v x H E|h h' p x H C IH]; pose proof (nth_lt _ _ _ H) as L;
    [apply denotes_own|apply denotes_var|eapply denotes_hold]; rewrite ?add_old by exact L; eauto.
Qed.
Lemma copy_ok (s : st) h p x : denotes s h p x ->
  exists s', h_copy_const s h = Done s' /\
    (forall h' p' y, denotes s h' p' y -> denotes s' h' p' y) /\ vars s' = vars s /\ length (holders s') = S (length (holders s)) /\
    denotes s' (length (holders s)) (match p with AtHolder k => if k =? h then AtHolder (length (holders s)) else p | _ => p end) x.
Proof.
  intros D. destruct D as [h x H|h v x H E|h h' p x H C]; unfold h_copy_const, clone; rewrite H; eexists; (split; [reflexivity|]);
    (split; [intros; now apply add_denotes|]); (split; [reflexivity|]); (split; [cbn; rewrite app_length; cbn; lia|]).
  - rewrite Nat.eqb_refl. apply denotes_own, add_new.
  - eapply denotes_var; [apply add_new|exact E].
  - assert (G : denotes (add_holder s (Some (Hold h'))) (length (holders s)) p x)
      by (eapply denotes_hold; [apply add_new|now apply add_denotes]).
    destruct p as [k|v]; [|exact G]. destruct (Nat.eqb_spec k h) as [ -> |]; [|exact G].
    pose proof (denotes_place _ _ _ _ C) as P. cbn in P. congruence.
Qed.
Lemma copy_lvalue_ok (s : st) h p x : denotes s h p x ->
  exists s', h_copy_lvalue s h = Done s' /\ denotes s' h p x /\ denotes s' (length (holders s)) p x.
Proof.
  intros D. eexists. split; [reflexivity|]. split; [now apply add_denotes|]. eapply denotes_hold; [apply add_new|now apply add_denotes].
Qed.

Lemma starts_first (x : V) j : starts_with x j -> first_leaf j = Some (JVal x).
Proof. induction 1; cbn; auto. Qed.
Lemma set_denotes (s : st) h x : h < length (holders s) -> denotes (set_holder s h (Some (Own x))) h (AtHolder h) x.
Proof. intros L. apply denotes_own. unfold holder, set_holder. cbn. now apply set_nth_same. Qed.
Lemma read_empty (s : st) h j x : holder s h = Some None -> is_array j = true -> starts_with x j ->
  exists s', h_from_json kind_of empty read s h j = Threw runtime_error s' /\ denotes s' h (AtHolder h) (empty (kind_of x)) /\
    (forall x', read j (empty (kind_of x)) = Ok x' -> exists s2, h_from_json kind_of empty read s' h j = Done s2 /\ denotes s2 h (AtHolder h) x').
Proof.
  intros H A S0. unfold h_from_json at 1. cbn [from_json_from]. rewrite A, H. cbn [negb]. unfold init_pointer. rewrite (starts_first _ _ S0).
  eexists. split; [reflexivity|]. pose proof (set_denotes s h (empty (kind_of x)) (nth_lt _ _ _ H)) as D. split; [exact D|].
  intros x' R. destruct (from_json_ok _ _ _ _ _ _ D A R) as (s2 & E & F & _). exists s2. split; [exact E|]. now apply F.
Qed.

(* self reference *)
Lemma self_loop (s : st) h : holder s h = Some (Some (Hold h)) -> forall fuel, to_json_from write fuel s h = UB.
Proof. intros H fuel. induction fuel as [|fuel IH]; cbn [to_json_from]; [reflexivity|]. now rewrite H. Qed.
Lemma self_lemma (s : st) h p x : denotes s h p x ->
  exists s1 s2, h_copy_lvalue s h = Done s1 /\ h_to_json write s1 (length (holders s)) = write x /\
    h_assign s1 h (length (holders s)) = Done s2 /\ h_to_json write s2 h = UB /\ h_to_json write s2 (length (holders s)) = UB.
Proof.
  intros D. assert (L : h < length (holders s)) by (inversion D; subst; eapply nth_lt; eassumption).
  destruct (copy_lvalue_ok _ _ _ _ D) as (s1 & E & _ & D1). injection E as <-.
  exists (add_holder s (Some (Hold h))), (set_holder (add_holder s (Some (Hold h))) h (Some (Hold h))).
  split; [reflexivity|]. split; [exact (to_json_ok _ _ _ _ D1)|]. unfold h_assign, clone. rewrite add_new. split; [reflexivity|].
  assert (L1 : h < length (holders (add_holder s (Some (Hold h))))) by (cbn; rewrite app_length; cbn; lia).
  assert (HH : holder (set_holder (add_holder s (Some (Hold h))) h (Some (Hold h))) h = Some (Some (Hold h)))
    by (unfold holder, set_holder; cbn [holders]; now apply set_nth_same).
  split; [exact (self_loop _ _ HH _)|]. unfold h_to_json. cbn [to_json_from].
  replace (holder (set_holder (add_holder s (Some (Hold h))) h (Some (Hold h))) (length (holders s))) with (Some (Some (@Hold X h))).
  - exact (self_loop _ _ HH _).
  - unfold holder, set_holder. cbn [holders]. rewrite set_nth_other by (auto; lia). symmetry. exact (add_new s (Some (Hold h))).
Qed.

(* value semantics *)
Definition owners (vs : list X) (l : list (option X)) : st := mk_state vs (map (option_map Own) l).
Lemma owners_holder vs l h o : nth_error l h = Some o -> holder (owners vs l) h = Some (option_map Own o).
Proof. intros H. unfold holder, owners. cbn. rewrite nth_error_map, H. reflexivity. Qed.
Lemma owners_set vs l h o l' : h < length l -> replaced l h o l' -> set_holder (owners vs l) h (option_map Own o) = owners vs l'.
Proof. intros L R. unfold set_holder, owners. cbn. rewrite set_nth_map. now rewrite <- (set_nth_replaced _ _ _ _ L R). Qed.
Lemma owners_add vs l o : add_holder (owners vs l) (option_map Own o) = owners vs (l ++ [o]).
Proof. unfold add_holder, owners. cbn. now rewrite map_app. Qed.
Lemma exec_ok vs l c l' : means read l c l' -> exec kind_of empty read (owners vs l) c = Done (owners vs l').
Proof.
  destruct 1 as [l|l x|l h x H|l h o l' H R|l h from x l' L H R|l h1 h2 o1 o2 l1 l' H1 H2 R1 R2|l h j k x x' l' H J Rd R]; cbn [exec].
  - unfold h_default. f_equal. exact (owners_add vs l None).
  - unfold h_temporary. f_equal. exact (owners_add vs l (Some x)).
  - unfold h_copy_const, clone. rewrite (owners_holder _ _ _ _ H). cbn [option_map]. f_equal. exact (owners_add vs l (Some x)).
  - unfold h_move. rewrite (owners_holder _ _ _ _ H). rewrite (owners_set vs l h None l' (nth_lt _ _ _ H) R : set_holder _ _ None = _).
    f_equal. apply owners_add.
  - unfold h_assign, clone. rewrite (owners_holder _ _ _ _ H). cbn [option_map]. f_equal. exact (owners_set vs l h (Some x) l' L R).
  - unfold h_swap. rewrite (owners_holder _ _ _ _ H1), (owners_holder _ _ _ _ H2).
    rewrite (owners_set vs l h1 o2 l1 (nth_lt _ _ _ H1) R1). f_equal. apply owners_set; [|exact R2].
    destruct R1 as (-> & _). exact (nth_lt _ _ _ H2).
  - pose proof (owners_holder vs _ _ _ H) as HH. cbn [option_map] in HH. rewrite (from_json_eq _ _ _ _ j (denotes_own _ _ _ HH)) by now subst j.
    rewrite Rd. cbn [finish store]. f_equal. exact (owners_set vs l h (Some x') l' (nth_lt _ _ _ H) R).
Qed.
Lemma exec_all_ok vs l p l' : mean_all read l p l' -> exec_all kind_of empty read (owners vs l) p = Done (owners vs l').
Proof. induction 1 as [l|l c l1 p l' M A IH]; cbn [exec_all]; [reflexivity|]. rewrite (exec_ok vs _ _ _ M). exact IH. Qed.
Lemma values_lemma vs p l : mean_all read [] p l ->
  exists s, exec_all kind_of empty read (mk_state vs []) p = Done s /\ vars s = vs /\ length (holders s) = length l /\
    (forall h x, nth_error l h = Some (Some x) -> denotes s h (AtHolder h) x /\ h_to_json write s h = write x) /\
    (forall h, nth_error l h = Some None -> h_to_json write s h = Ok JOther).
Proof.
  intros M. exists (owners vs l). split; [exact (exec_all_ok vs _ _ _ M)|]. split; [reflexivity|]. split; [apply map_length|]. split.
  - intros h x H. pose proof (owners_holder vs _ _ _ H) as HH. pose proof (denotes_own _ _ _ HH) as D. split; [exact D|exact (to_json_ok _ _ _ _ D)].
  - intros h H. unfold h_to_json. cbn [to_json_from]. now rewrite (owners_holder vs _ _ _ H).
Qed.
End S.

Lemma new_holder_ok {X} (s : @state X) o : (forall h p x, denotes s h p x -> denotes (add_holder s o) h p x) /\ holder (add_holder s o) (length (holders s)) = Some o.
Proof.
  assert (O : forall h w, holder s h = Some w -> holder (add_holder s o) h = Some w).
  { intros h w H. unfold holder, add_holder in *. cbn [holders]. rewrite nth_error_app1; [exact H|now apply nth_lt in H]. }
  split; [|unfold holder, add_holder; cbn [holders]; rewrite nth_error_app2 by lia; now rewrite Nat.sub_diag].
  intros h p x D. induction D as [h x H|h v x H E|h h' p x H D IH]; [apply denotes_own; auto|eapply denotes_var; [auto|exact E]|eapply denotes_hold; [apply O; exact H|exact IH]].
Qed.
Lemma made_lemma {V X} (kind_of : V -> kind) (empty : kind -> X) (read : json V -> X -> res X) (s : @state X) v x : nth_error (vars s) v = Some x ->
  exists s', h_variable s v = Done s' /\ vars s' = vars s /\ length (holders s') = S (length (holders s)) /\ (forall h p y, denotes s h p y -> denotes s' h p y) /\
    denotes s' (length (holders s)) (AtVar v) x /\
    forall j k x', j = JArr k -> read j x = Ok x' -> exists s2, h_from_json kind_of empty read s' (length (holders s)) j = Done s2 /\ nth_error (vars s2) v = Some x'.
Proof.
  intros E. destruct (new_holder_ok s (Some (Var v))) as (K & N). exists (add_holder s (Some (Var v))). split; [reflexivity|]. split; [reflexivity|].
  split; [unfold add_holder; cbn [holders]; rewrite app_length; cbn; lia|]. split; [exact K|].
  assert (D : denotes (add_holder s (Some (Var v))) (length (holders s)) (AtVar v) x) by (eapply denotes_var; [exact N|exact E]). split; [exact D|].
  intros j k x' -> R. destruct (from_json_ok kind_of empty read _ _ _ _ (JArr k) x' D eq_refl R) as (s2 & F & _ & _ & G). exists s2. split; [exact F|]. rewrite G, Nat.eqb_refl. reflexivity.
Qed.
Lemma made_temporary {X} (s : @state X) x :
  exists s', h_temporary s x = Done s' /\ vars s' = vars s /\ (forall h p y, denotes s h p y -> denotes s' h p y) /\ denotes s' (length (holders s)) (AtHolder (length (holders s))) x.
Proof. destruct (new_holder_ok s (Some (Own x))) as (K & N). exists (add_holder s (Some (Own x))). split; [reflexivity|]. split; [reflexivity|]. split; [exact K|]. now apply denotes_own. Qed.
