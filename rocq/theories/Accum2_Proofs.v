(** Accumulation along an axis of a container. *)
From Coq Require Import List ZArith Lia Bool.
From Verif Require Import Prelude PreludeFacts Strides_Model Strides_Spec Strides_Proofs Access_Model Container_Model Container_Spec Container_Proofs
  Stepper_Proofs Reduce3_Proofs Reduce9_Proofs Reduce12_Proofs Reduce13_Proofs Accum_Model Accum_Spec Accum_Proofs.
Import ListNotations.
Open Scope Z_scope.

(** ** Ranks around an axis *)
Lemma col_pos_app : forall s1 s2 p1 p2, length p1 = length s1 ->
  col_pos (s1 ++ s2) (p1 ++ p2) = col_pos s1 p1 + prod s1 * col_pos s2 p2.
Proof.
  induction s1 as [|d s1 IH]; intros s2 [|x p1] p2 H; try discriminate H; [cbn [app]; rewrite prod_nil; cbn [col_pos]; lia|].
  cbn [app col_pos]. rewrite IH by (cbn in H; lia). rewrite prod_cons. ring.
Qed.

Definition side_out (l : layout) (pre post : list Z) : list Z := match l with row_major => pre | _ => post end.
Definition side_in (l : layout) (pre post : list Z) : list Z := match l with row_major => post | _ => pre end.

Lemma rank_split l pre n post ip k iq : length ip = length pre ->
  rank l (pre ++ n :: post) (ip ++ k :: iq) =
  (rank l (side_out l pre post) (side_out l ip iq) * n + k) * prod (side_in l pre post) + rank l (side_in l pre post) (side_in l ip iq).
Proof.
  intros H. destruct l; cbn [rank side_out side_in]; (try (rewrite row_pos_app by exact H; cbn [row_pos]; rewrite prod_cons; ring));
  (rewrite col_pos_app by exact H; cbn [col_pos]; ring).
Qed.

Lemma side_prod l pre n post : prod (pre ++ n :: post) = prod (side_out l pre post) * n * prod (side_in l pre post).
Proof. rewrite prod_app, prod_cons. destruct l; cbn [side_out side_in]; ring. Qed.

Lemma side_bounds l pre post ip iq : in_bounds pre ip -> in_bounds post iq ->
  in_bounds (side_out l pre post) (side_out l ip iq) /\ in_bounds (side_in l pre post) (side_in l ip iq).
Proof. intros H1 H2. destruct l; cbn; auto. Qed.

Lemma side_shape l pre n post : is_shape (pre ++ n :: post) -> is_shape (side_out l pre post) /\ is_shape (side_in l pre post).
Proof. intros H. apply Forall_app in H. destruct H as [H1 H2]. inversion H2; subst. destruct l; cbn; auto. Qed.

(** ** Smallest strides *)
Lemma fold_min : forall l x, (forall y, In y l -> fold_left Z.min l x <= y) /\ fold_left Z.min l x <= x /\ In (fold_left Z.min l x) (x :: l).
Proof.
  induction l as [|a l IH]; intros x; [cbn; repeat split; [intros y []|lia|auto]|].
  cbn [fold_left]. destruct (IH (Z.min x a)) as (H1 & H2 & H3). repeat split.
  - intros y [ -> |Hy]; [lia|apply H1, Hy].
  - lia.
  - destruct H3 as [H3|H3]; [|right; right; exact H3]. rewrite <- H3. destruct (Z.min_dec x a) as [e|e]; rewrite e; cbn; auto.
Qed.

Lemma min_stride_eq l m : In m l -> (forall x, In x l -> m <= x) -> 0 <= m < 2 ^ 64 -> min_stride l = m.
Proof.
  intros Hin Hmin Hb. destruct l as [|x l]; [destruct Hin|]. cbn [min_stride]. destruct (fold_min l x) as (H1 & H2 & H3).
  assert (E : fold_left Z.min l x = m).
  { apply Z.le_antisymm; [|apply Hmin, H3]. destruct Hin as [ <- |Hin]; [exact H2|apply H1, Hin]. }
  rewrite E. apply to_size_t_id, Hb.
Qed.

Lemma pos_of_prod l : is_shape l -> 0 < prod l -> Forall (fun d => 0 < d) l.
Proof.
  induction 1 as [|d l Hd Hl IH]; intros Hp; [constructor|]. rewrite prod_cons in Hp. pose proof (prod_nonneg l Hl).
  constructor; [nia|]. apply IH. nia.
Qed.

Lemma nth_in_eq (st : list Z) (F : nat -> Z) (a b : nat) : (b <= length st)%nat -> (forall k, (a <= k < b)%nat -> nth k st 0 = F k) ->
  forall x, In x (firstn (b - a) (skipn a st)) <-> exists k, (a <= k < b)%nat /\ x = F k.
Proof.
  intros Hb Hk x. split.
  - intros Hin. destruct (In_nth_error _ _ Hin) as (i & Hi). assert (Hlt : (i < b - a)%nat).
    { apply nth_error_Some_lt in Hi. rewrite firstn_length, skipn_length in Hi. lia. }
    rewrite nth_error_firstn in Hi by exact Hlt. rewrite nth_error_skipn in Hi.
    exists (a + i)%nat. split; [lia|]. rewrite <- Hk by lia. symmetry. apply nth_error_nth. exact Hi.
  - intros (k & Hkk & -> ). rewrite <- Hk by exact Hkk. apply (nth_error_In _ (k - a)). rewrite nth_error_firstn by lia. rewrite nth_error_skipn. replace (a + (k - a))%nat with k by lia.
    apply nth_error_nth'. lia.
Qed.

Lemma fold_left_ext_in {A B} (f g : A -> B -> A) : forall l a, (forall a b, In b l -> f a b = g a b) -> fold_left f l a = fold_left g l a.
Proof.
  induction l as [|b l IH]; intros a H; [reflexivity|]. cbn. rewrite H by (left; reflexivity). apply IH. intros a' b' Hb. apply H. right. exact Hb.
Qed.

Section Axis.
Context {R : Type} (f : R -> R -> R) (c : cont R) (pre : list Z) (n : Z) (post : list Z) (ev : list Z -> R) (init : option (R -> R)).
Let axis := length pre.
Let l := ct_layout c.
Let g := init_fun init.
Hypothesis Hsh : ct_shape c = pre ++ n :: post.
Hypothesis Hc : consistent c.
Hypothesis Hl : is_order (ct_layout c).
Hypothesis Hdoc : documented c.
Hypothesis Hsmall : prod (ct_shape c) < 2 ^ 64.
Hypothesis He : forall jx, in_bounds (ct_shape c) jx -> elt c jx = Ok (ev jx).
Hypothesis Hinit : init <> None -> no_units pre /\ no_units post.
Hypothesis Hn : 0 < n.

Let So := side_out l pre post.
Let Si := side_in l pre post.
Let A := Z.to_nat (prod So).
Let B := Z.to_nat (prod Si).
Let N := Z.to_nat n.
Let X0 (p : nat) : R := nth p (ct_data c) (ev []).

Lemma shape_all : is_shape pre /\ is_shape post /\ is_shape So /\ is_shape Si.
Proof.
  assert (H : is_shape (pre ++ n :: post)) by (rewrite <- Hsh; apply Hc).
  pose proof (side_shape l pre n post H) as [H1 H2]. apply Forall_app in H. destruct H as [Ha Hb]. inversion Hb; subst. auto.
Qed.
Lemma prods : 0 <= prod So /\ 0 <= prod Si.
Proof. destruct shape_all as (_ & _ & H1 & H2). split; apply prod_nonneg; assumption. Qed.

Lemma size_split : prod (ct_shape c) = prod So * n * prod Si.
Proof. rewrite Hsh. apply side_prod. Qed.

Lemma data_len : length (ct_data c) = (A * (N * B))%nat.
Proof. destruct Hc as (_ & _ & _ & H & _). rewrite size_split in H. destruct prods. unfold A, N, B. nia. Qed.

Lemma holds_data : holds A N B (ct_data c) X0.
Proof. split; [exact data_len|]. intros p Hp. unfold X0. apply nth_error_nth'. rewrite data_len. exact Hp. Qed.

Lemma small_parts : (0 < A)%nat -> 0 <= n * prod Si < 2 ^ 64.
Proof. intros H. pose proof size_split. destruct prods. unfold A in H. assert (1 <= prod So) by lia. nia. Qed.

Lemma not_all_zero : ~ Forall (fun d => d = 0) (ct_shape c).
Proof. rewrite Hsh. intros H. apply Forall_app in H. destruct H as [_ H]. inversion H; subst. lia. Qed.

Lemma stride_at k : (k < length (ct_shape c))%nat -> nth k (ct_shape c) 0 <> 1 ->
  nth k (ct_strides c) 0 = match l with row_major => prod (skipn (S k) (ct_shape c)) | _ => prod (firstn k (ct_shape c)) end.
Proof.
  intros Hk H1. destruct (Hdoc Hl not_all_zero) as [_ H]. rewrite (H k Hk). apply Z.eqb_neq in H1. unfold l, row_stride, col_stride. rewrite H1. reflexivity.
Qed.
Lemma strides_len : length (ct_strides c) = length (ct_shape c).
Proof. apply Hc. Qed.
Lemma shape_len : length (ct_shape c) = (S (axis + length post))%nat.
Proof. rewrite Hsh, app_length. cbn. unfold axis. lia. Qed.

Lemma firstn_pre m : (m <= axis)%nat -> firstn m (ct_shape c) = firstn m pre.
Proof. intros H. rewrite Hsh, firstn_app. replace (m - length pre)%nat with 0%nat by (unfold axis in H; lia). cbn. apply app_nil_r. Qed.
Lemma skipn_post m : skipn (S axis + m) (ct_shape c) = skipn m post.
Proof. rewrite Hsh, skipn_app. unfold axis. rewrite skipn_all2 by lia. replace (S (length pre) + m - length pre)%nat with (S m) by lia. reflexivity. Qed.
Lemma firstn_axis : firstn axis (ct_shape c) = pre.
Proof. rewrite firstn_pre by lia. apply firstn_all. Qed.
Lemma skipn_axis : skipn axis (ct_shape c) = n :: post.
Proof. rewrite Hsh, skipn_app. unfold axis. rewrite skipn_all, Nat.sub_diag. reflexivity. Qed.
Lemma skipn_S_axis : skipn (S axis) (ct_shape c) = post.
Proof. replace (S axis) with (S axis + 0)%nat by lia. rewrite skipn_post. reflexivity. Qed.
Lemma firstn_S_axis : firstn (S axis) (ct_shape c) = pre ++ [n].
Proof. rewrite Hsh, firstn_app. unfold axis. rewrite firstn_all2 by lia. replace (S (length pre) - length pre)%nat with 1%nat by lia. reflexivity. Qed.
Lemma nth_axis : nth axis (ct_shape c) 0 = n.
Proof. rewrite Hsh, app_nth2 by (unfold axis; lia). unfold axis. rewrite Nat.sub_diag. reflexivity. Qed.
Lemma nth_pre k : (k < axis)%nat -> nth k (ct_shape c) 0 = nth k pre 0.
Proof. intros H. rewrite Hsh. apply app_nth1. exact H. Qed.
Lemma nth_post k : nth (S axis + k) (ct_shape c) 0 = nth k post 0.
Proof. rewrite Hsh, app_nth2 by (unfold axis; lia). unfold axis. replace (S (length pre) + k - length pre)%nat with (S k) by lia. reflexivity. Qed.

Lemma forall_nth (P : Z -> Prop) s k : Forall P s -> (k < length s)%nat -> P (nth k s 0).
Proof. intros H Hk. rewrite Forall_forall in H. apply H, nth_In, Hk. Qed.

Lemma prod_firstn_le s k m : Forall (fun d => 0 < d) s -> (k <= m)%nat -> prod (firstn k s) <= prod (firstn m s).
Proof.
  intros H Hk. replace m with (k + (m - k))%nat by lia. generalize (m - k)%nat as j. clear Hk. intros j. revert k.
  induction H as [|d s Hd Hs IH]; intros k; [rewrite !firstn_nil; lia|].
  destruct k as [|k].
  - cbn [firstn plus]. rewrite prod_nil. assert (0 < prod (firstn j (d :: s))); [|lia].
    apply prod_pos, Forall_firstn'. constructor; assumption.
  - cbn [firstn plus]. rewrite !prod_cons. specialize (IH k). assert (0 < prod (firstn k s)) by (apply prod_pos, Forall_firstn', Hs). nia.
Qed.
Lemma prod_skipn_le s k m : Forall (fun d => 0 < d) s -> (k <= m)%nat -> prod (skipn m s) <= prod (skipn k s).
Proof.
  intros H Hk. replace m with (k + (m - k))%nat by lia. rewrite <- skipn_skipn'.
  rewrite <- (firstn_skipn (m - k) (skipn k s)) at 2. rewrite prod_app.
  assert (0 < prod (firstn (m - k) (skipn k s))) by (apply prod_pos, Forall_firstn', Forall_skipn', H).
  assert (0 < prod (skipn (m - k) (skipn k s))) by (apply prod_pos, Forall_skipn', Forall_skipn', H). nia.
Qed.

Lemma all_pos : (0 < A)%nat -> (0 < B)%nat -> Forall (fun d => 0 < d) (ct_shape c).
Proof.
  intros HA HB. apply pos_of_prod; [apply Hc|]. rewrite size_split. unfold A, B in *. nia.
Qed.

Lemma pre_strides_min : pre <> [] -> Forall (fun d => d <> 1) pre -> (0 < A)%nat -> (0 < B)%nat ->
  min_stride (firstn axis (ct_strides c)) = match l with row_major => n * prod post | _ => 1 end.
Proof.
  intros Hne H1 HA HB. pose proof (all_pos HA HB) as Hp. pose proof shape_len as Ls. pose proof strides_len as Lt.
  assert (Hax : (0 < axis)%nat) by (unfold axis; destruct pre; [congruence|cbn; lia]).
  pose proof (nth_in_eq (ct_strides c) (fun k => match l with row_major => prod (skipn (S k) (ct_shape c)) | _ => prod (firstn k (ct_shape c)) end) 0 axis) as Hin.
  change (skipn 0 (ct_strides c)) with (ct_strides c) in Hin. rewrite Nat.sub_0_r in Hin. specialize (Hin ltac:(lia)).
  assert (Hk : forall k, (0 <= k < axis)%nat -> nth k (ct_strides c) 0 = match l with row_major => prod (skipn (S k) (ct_shape c)) | _ => prod (firstn k (ct_shape c)) end).
  { intros k Hk. apply stride_at; [lia|]. rewrite nth_pre by lia. apply (forall_nth (fun d => d <> 1)); [exact H1|]. unfold axis in Hk. lia. }
  specialize (Hin Hk). pose proof (small_parts HA) as Hsm. unfold l in *. destruct Hl as [E|E]; rewrite E in *; cbn [side_in] in *.
  - assert (Esk : n * prod post = prod (skipn (S (axis - 1)) (ct_shape c))) by (replace (S (axis - 1)) with axis by lia; rewrite skipn_axis, prod_cons; reflexivity).
    apply min_stride_eq.
    + apply Hin. exists (axis - 1)%nat. split; [lia|exact Esk].
    + intros x Hx. apply Hin in Hx. destruct Hx as (k & Hkk & -> ). rewrite Esk. apply prod_skipn_le; [exact Hp|lia].
    + unfold Si, l in Hsm. rewrite E in Hsm. exact Hsm.
  - apply min_stride_eq; [| |lia].
    + apply Hin. exists 0%nat. split; [lia|]. cbn. rewrite prod_nil. reflexivity.
    + intros x Hx. apply Hin in Hx. destruct Hx as (k & Hkk & -> ). assert (0 < prod (firstn k (ct_shape c))) by (apply prod_pos, Forall_firstn', Hp). lia.
Qed.

Lemma post_strides_min : post <> [] -> Forall (fun d => d <> 1) post -> (0 < A)%nat -> (0 < B)%nat ->
  min_stride (skipn (S axis) (ct_strides c)) = match l with row_major => 1 | _ => n * prod pre end.
Proof.
  intros Hne H1 HA HB. pose proof (all_pos HA HB) as Hp. pose proof shape_len as Ls. pose proof strides_len as Lt.
  assert (Hax : (0 < length post)%nat) by (destruct post; [congruence|cbn; lia]).
  pose proof (nth_in_eq (ct_strides c) (fun k => match l with row_major => prod (skipn (S k) (ct_shape c)) | _ => prod (firstn k (ct_shape c)) end) (S axis) (length (ct_shape c))) as Hin.
  rewrite firstn_all2 in Hin by (rewrite skipn_length; lia). specialize (Hin ltac:(lia)).
  assert (Hk : forall k, (S axis <= k < length (ct_shape c))%nat -> nth k (ct_strides c) 0 = match l with row_major => prod (skipn (S k) (ct_shape c)) | _ => prod (firstn k (ct_shape c)) end).
  { intros k Hk. apply stride_at; [lia|]. replace k with (S axis + (k - S axis))%nat by lia. rewrite nth_post. apply (forall_nth (fun d => d <> 1)); [exact H1|]. lia. }
  specialize (Hin Hk). pose proof (small_parts HA) as Hsm. unfold l in *. destruct Hl as [E|E]; rewrite E in *; cbn [side_in] in *.
  - apply min_stride_eq; [| |lia].
    + apply Hin. exists (length (ct_shape c) - 1)%nat. split; [lia|]. rewrite skipn_all2 by lia. rewrite prod_nil. reflexivity.
    + intros x Hx. apply Hin in Hx. destruct Hx as (k & Hkk & -> ). assert (0 < prod (skipn (S k) (ct_shape c))) by (apply prod_pos, Forall_skipn', Hp). lia.
  - assert (Esk : n * prod pre = prod (firstn (S axis) (ct_shape c))) by (rewrite firstn_S_axis, prod_app, prod_cons, prod_nil; ring).
    apply min_stride_eq.
    + apply Hin. exists (S axis). split; [lia|exact Esk].
    + intros x Hx. apply Hin in Hx. destruct Hx as (k & Hkk & -> ). rewrite Esk. apply prod_firstn_le; [exact Hp|lia].
    + unfold Si, l in Hsm. rewrite E in Hsm. exact Hsm.
Qed.

Lemma init_some (g0 : R -> R) : no_units pre -> no_units post -> exists d, init_with_f g0 c axis = Ok d /\ holds A N B d (Xg g0 N B X0).
Proof.
  intros Hu1 Hu2. unfold init_with_f.
    rewrite !compute_size_prod, firstn_axis, skipn_S_axis.
    set (os := if (axis =? 0)%nat then 1 else min_stride (firstn axis (ct_strides c))).
    set (is := if (axis =? length (ct_strides c) - 1)%nat then 1 else min_stride (skipn (S axis) (ct_strides c))).
    assert (Hpre : (0 < A)%nat -> (0 < B)%nat -> prod pre <= 1 \/ os = match l with row_major => n * prod post | _ => 1 end).
    { intros HA HB. unfold os. destruct (Nat.eqb_spec axis 0) as [Ea|Ea].
      - left. unfold axis in Ea. apply length_zero_iff_nil in Ea. rewrite Ea, prod_nil. lia.
      - destruct Hu1 as [Hu1|Hu1]; [|left; exact Hu1]. right. apply pre_strides_min; try assumption. intros ->. apply Ea. reflexivity. }
    assert (Hpost : (0 < A)%nat -> (0 < B)%nat -> prod post <= 1 \/ is = match l with row_major => 1 | _ => n * prod pre end).
    { intros HA HB. unfold is. pose proof shape_len as Ls. rewrite strides_len, Ls. destruct (Nat.eqb_spec axis (S (axis + length post) - 1)) as [Ea|Ea].
      - left. assert (E0 : length post = 0%nat) by lia. apply length_zero_iff_nil in E0. rewrite E0, prod_nil. lia.
      - destruct Hu2 as [Hu2|Hu2]; [|left; exact Hu2]. right. apply post_strides_min; try assumption. intros ->. apply Ea. cbn. lia. }
    destruct (Nat.eq_dec A 0) as [HA|HA].
    { assert (Ez : forall d, holds A N B d X0 -> holds A N B d (Xg g0 N B X0)) by (intros d; apply holds_ext; intros p Hp; rewrite HA in Hp; lia).
      exists (ct_data c). split; [|apply Ez, holds_data]. unfold A, So, l in HA. destruct Hl as [E|E]; rewrite E in *; cbn [side_out layout_eqb] in *; unfold init_loop; rewrite HA; reflexivity. }
    destruct (Nat.eq_dec B 0) as [HB|HB].
    { assert (Ez : forall d, holds A N B d X0 -> holds A N B d (Xg g0 N B X0)) by (intros d; apply holds_ext; intros p Hp; rewrite HB in Hp; lia).
      exists (ct_data c). split; [|apply Ez, holds_data]. unfold B, Si, l in HB. destruct Hl as [E|E]; rewrite E in *; cbn [side_in layout_eqb] in *; unfold init_loop; rewrite HB; apply for_up_noop; reflexivity. }
    specialize (Hpre ltac:(lia) ltac:(lia)). specialize (Hpost ltac:(lia) ltac:(lia)).
    pose proof holds_data as Hd. unfold A, B, So, Si, l in *. destruct Hl as [E|E]; rewrite E in *; cbn [side_out side_in layout_eqb] in *.
    + apply init_loop_ok; [unfold N; lia| | |exact Hd].
      * destruct Hpre as [Hpre|Hpre]; [left; lia|right]. rewrite Hpre. unfold N. nia.
      * destruct Hpost as [Hpost|Hpost]; [left; lia|right; exact Hpost].
    + apply init_loop_ok; [unfold N; lia| | |exact Hd].
      * destruct Hpost as [Hpost|Hpost]; [left; lia|right]. rewrite Hpost. unfold N. nia.
      * destruct Hpre as [Hpre|Hpre]; [left; lia|right; exact Hpre].
Qed.

Lemma init_pass : exists d, (match init with Some g => init_with_f g c axis | None => Ok (ct_data c) end) = Ok d /\ holds A N B d (Xg g N B X0).
Proof.
  assert (init = None \/ exists g0, init = Some g0) as [Ei|[g0 Ei]] by (destruct init as [g0|]; [right; exists g0; reflexivity|left; reflexivity]).
  - unfold g. rewrite Ei. exists (ct_data c). split; [reflexivity|]. eapply holds_ext; [|exact holds_data]. intros p Hp. unfold Xg, init_fun. destruct (_ <? _)%nat; reflexivity.
  - unfold g. rewrite Ei. apply init_some; apply Hinit; rewrite Ei; discriminate.
Qed.

Lemma rd_axis_shape : rd (ct_shape c) axis = Ok n.
Proof. rewrite (rd_nth 0) by (rewrite shape_len; lia). rewrite nth_axis. reflexivity. Qed.

Lemma axis_stride : nth axis (ct_strides c) 0 = if n =? 1 then 0 else prod Si.
Proof.
  destruct (Hdoc Hl not_all_zero) as [_ H]. rewrite H by (rewrite shape_len; lia). unfold Si, l, row_stride, col_stride. rewrite nth_axis.
  destruct Hl as [E|E]; rewrite E; cbn [side_in]; rewrite ?skipn_S_axis, ?firstn_axis; reflexivity.
Qed.

Lemma acc_axis_data : exists d, acc_axis f (ct_layout c) init c axis = Ok (mk_cont (ct_shape c) (ct_strides c) (ct_back c) (ct_layout c) d) /\
  holds A N B d (Ff f N B (Xg g N B X0)).
Proof.
  unfold acc_axis. pose proof shape_len as Ls. destruct (Nat.leb_spec (length (ct_shape c)) axis); [lia|].
  rewrite rd_axis_shape. cbn [bind]. destruct (Z.eqb_spec n 0); [lia|].
  rewrite (rd_nth 0) by (rewrite strides_len; lia). cbn [bind]. rewrite axis_stride.
  rewrite !compute_size_prod, firstn_axis, skipn_axis, skipn_S_axis, firstn_S_axis, prod_app, !prod_cons, prod_nil.
  destruct init_pass as (d1 & E1 & Hd1).
  assert (Eall : exists d, (let* data := (match init with Some g => init_with_f g c axis | None => Ok (ct_data c) end) in
      accum_loop f (Z.to_nat ((if n =? 1 then match l with row_major => 0 | _ => 1 end else 1) * prod So))
        (Z.to_nat (to_size_t ((if n =? 1 then match l with row_major => 1 | _ => 0 end else 1) * (n * prod Si) - to_size_t (if n =? 1 then 0 else prod Si))))
        (to_size_t (if n =? 1 then 0 else prod Si)) data) = Ok d /\ holds A N B d (Ff f N B (Xg g N B X0))).
  { rewrite E1. cbn [bind]. destruct (Z.eqb_spec n 1) as [En|En].
    - exists d1. split.
      + unfold accum_loop. unfold l. destruct Hl as [E|E]; rewrite E; [reflexivity|]. rewrite for_up_noop; [reflexivity|].
        intros i. change (to_size_t 0) with 0. rewrite Z.mul_0_l, Z.sub_0_r. change (to_size_t 0) with 0. reflexivity.
      + eapply holds_ext; [|exact Hd1]. intros p Hp. symmetry. apply Ff_first. assert (N = 1%nat) by (unfold N; lia). rewrite H0, Nat.mul_1_l in *.
        apply Nat.mod_upper_bound. intros HB. rewrite HB in Hp. lia.
    - destruct (Nat.eq_dec A 0) as [HA|HA].
      { exists d1. split; [|eapply holds_ext; [|exact Hd1]; intros p Hp; rewrite HA in Hp; lia].
        unfold accum_loop. unfold A in HA. rewrite (Z.mul_1_l (prod So)), HA. reflexivity. }
      pose proof (small_parts ltac:(lia)) as Hsm. destruct prods as [P1 P2].
      rewrite !Z.mul_1_l, (to_size_t_id (prod Si)) by nia. rewrite to_size_t_id by nia.
      destruct (accum_loop_ok f A N B ltac:(unfold N; lia) (Xg g N B X0) d1 ltac:(unfold N; lia) Hd1) as (d & E & Hd).
      exists d. split; [|exact Hd]. rewrite <- E. unfold A, B, N. f_equal; [nia|lia]. }
  destruct Eall as (d & E & Hd). exists d. split; [|exact Hd].
  unfold So, Si, l in E |- *. destruct Hl as [El|El]; rewrite El in *; cbn [layout_eqb side_out side_in] in *.
  - destruct (match init with Some g => init_with_f g c axis | None => Ok (ct_data c) end) as [dd| |]; cbn [bind] in E |- *; try discriminate E.
    replace (Z.to_nat ((if n =? 1 then 0 else 1) * prod pre)) with (Z.to_nat ((if n =? 1 then 0 else 1) * prod pre)) in E by reflexivity.
    replace (n * prod post) with ((if n =? 1 then 1 else 1) * (n * prod post)) by (destruct (n =? 1); lia).
    rewrite E. reflexivity.
  - destruct (match init with Some g => init_with_f g c axis | None => Ok (ct_data c) end) as [dd| |]; cbn [bind] in E |- *; try discriminate E.
    replace (prod post) with ((if n =? 1 then 1 else 1) * prod post) by (destruct (n =? 1); lia). rewrite ?(Z.mul_1_r n), ?(Z.mul_comm (prod pre) n).
    rewrite E. reflexivity.
Qed.

Lemma X0_rank jx : in_bounds (ct_shape c) jx -> X0 (Z.to_nat (rank l (ct_shape c) jx)) = ev jx.
Proof. intros H. unfold X0. apply nth_error_nth. apply (data_at c ev Hc Hl He jx H). Qed.

Lemma acc_axis_good : exists r, acc_axis f (ct_layout c) init c axis = Ok r /\ consistent r /\ ct_shape r = ct_shape c /\ ct_layout r = ct_layout c /\
  forall ix, in_bounds (ct_shape c) ix -> elt r ix = Ok (accumulated f g ev axis ix).
Proof.
  destruct acc_axis_data as (d & E & Hd). eexists. split; [exact E|].
  assert (Hcr : consistent (mk_cont (ct_shape c) (ct_strides c) (ct_back c) (ct_layout c) d)).
  { destruct Hc as (H1 & H2 & H3 & H4 & H5). split; [exact H1|]. split; [exact H2|]. split; [exact H3|]. split; [|exact H5].
    cbn [ct_data ct_shape]. rewrite <- H4, data_len. f_equal. apply Hd. }
  split; [exact Hcr|]. split; [reflexivity|]. split; [reflexivity|].
  intros ix Hb. unfold elt. cbn [ct_data ct_strides].
  destruct Hc as (_ & _ & _ & _ & l0 & Hl0 & El0 & Hoff). specialize (El0 Hl). subst l0. rewrite Hoff by exact Hb. fold l.
  pose proof (in_bounds_length _ _ Hb) as Lx. rewrite Hsh, app_length in Lx. cbn in Lx.
  assert (Eix : ix = firstn axis ix ++ nth axis ix 0 :: skipn (S axis) ix).
  { rewrite <- (firstn_skipn axis ix) at 1. f_equal. symmetry. 
    rewrite (skipn_cons_nth ix axis (nth axis ix 0)); [reflexivity|]. apply nth_error_nth'. unfold axis. lia. }
  set (ip := firstn axis ix) in *. set (k := nth axis ix 0) in *. set (iq := skipn (S axis) ix) in *.
  assert (Lp : length ip = length pre) by (unfold ip, axis; rewrite firstn_length; lia).
  assert (Hb' : in_bounds (pre ++ n :: post) (ip ++ k :: iq)) by (rewrite <- Hsh, <- Eix; exact Hb).
  apply in_bounds_app_inv in Hb'; [|exact Lp]. destruct Hb' as [Hbp Hbq]. assert (Hk : 0 <= k < n) by (inversion Hbq; assumption). assert (Hbq' : in_bounds post iq) by (inversion Hbq; assumption).
  destruct (side_bounds l pre post ip iq Hbp Hbq') as [Ho Hi].
  set (a := Z.to_nat (rank l So (side_out l ip iq))). set (b := Z.to_nat (rank l Si (side_in l ip iq))).
  pose proof (rank_bound l _ _ Ho) as Ra. pose proof (rank_bound l _ _ Hi) as Rb. fold So in Ra. fold Si in Rb.
  assert (Erk : forall t, 0 <= t < n -> Z.to_nat (rank l (ct_shape c) (ip ++ t :: iq)) = (a * (N * B) + (Z.to_nat t * B + b))%nat).
  { intros t Ht. rewrite Hsh, rank_split by exact Lp. fold So Si. unfold a, b, B, N. nia. }
  assert (Hin : forall t, 0 <= t < n -> in_bounds (ct_shape c) (ip ++ t :: iq)).
  { intros t Ht. rewrite Hsh. apply in_bounds_app; [exact Hbp|]. constructor; assumption. }
  assert (Eup : forall t, upd ix axis t = ip ++ t :: iq).
  { intros t. rewrite Eix. unfold axis. rewrite <- Lp. apply upd_mid. }
  assert (Rk : 0 <= rank l (ct_shape c) ix < prod (ct_shape c)) by (apply rank_bound, Hb).
  destruct Hd as [Hld Hd]. assert (Ek : Z.to_nat (rank l (ct_shape c) ix) = (a * (N * B) + (Z.to_nat k * B + b))%nat) by (rewrite Eix; apply Erk; exact Hk).
  apply rdz_ok; [lia|]. rewrite Hd.
  2:{ rewrite <- data_len. pose proof (proj1 (proj2 (proj2 (proj2 Hc)))) as Hlen. lia. }
  f_equal. rewrite Ek. rewrite Ff_at by (unfold N, b, B; lia).
  unfold accumulated. fold k. rewrite Eup.
  assert (HbB : (b < B)%nat) by (unfold b, B; lia). assert (HkN : (Z.to_nat k < N)%nat) by (unfold N; lia).
  assert (E0 : Xg g N B X0 (a * (N * B) + b) = g (ev (ip ++ 0 :: iq))).
  { unfold Xg. rewrite block_mod by (first [exact HkN|nia]). destruct (Nat.ltb_spec b B); [|lia].
    pose proof (Erk 0 ltac:(lia)) as X. change (Z.to_nat 0 * B + b)%nat with b in X. rewrite <- X. rewrite X0_rank by (apply Hin; lia). reflexivity. }
  rewrite E0. apply fold_left_ext_in. intros v t Ht. apply in_seq in Ht. f_equal. rewrite Eup.
  assert (Ht' : 0 <= Z.of_nat t < n) by (unfold N in HkN; lia).
  unfold Xg. rewrite block_mod by (unfold N in *; nia). destruct (Nat.ltb_spec (t * B + b) B); [nia|].
  pose proof (Erk (Z.of_nat t) Ht') as X. rewrite Nat2Z.id in X. rewrite <- X. apply X0_rank, Hin, Ht'.
Qed.
End Axis.
