(** Proofs about svector: the single operations. *)
From Coq Require Import List ZArith Bool Arith Lia.
From Verif Require Import Prelude PreludeFacts Svector_Model Svector_Spec Svector_Proofs.
Import ListNotations.
Open Scope nat_scope.

Section P.
Context {V : Type} (N : nat) (zero : V).
Implicit Types (h : heap V) (l m : list V) (blk : block V).
Notation owns := (owns N).

Definition result (r : res (heap V * obj)) h o l' := exists h' o', r = Ok (h', o') /\ owns h' o' l' /\ frame h o h' o'.

Lemma frame_any h o1 o2 h' o' : o_begin o1 = o_begin o2 -> o_inline o1 = o_inline o2 -> frame h o1 h' o' -> frame h o2 h' o'.
Proof. intros E1 E2. unfold frame. rewrite E1, E2. auto. Qed.

Lemma firstn_len {A} (x : list A) n : n = length x -> firstn n x = x.
Proof. intros ->. apply firstn_all. Qed.

(** Writing m at position i, then moving the end to n. *)
Lemma list_step asg h o l i m n : owns h o l -> i <= length l -> i + length m <= o_cap o ->
  n <= length (firstn i l ++ m ++ skipn (i + length m) l) ->
  exists h', copy_list true asg h m (o_begin o) i = Ok h' /\
    owns h' (with_size o n) (firstn n (firstn i l ++ m ++ skipn (i + length m) l)) /\ frame h o h' (with_size o n).
Proof.
  intros Ho Hi Hm Hn. destruct (owns_block _ _ _ _ Ho) as (blk & E). destruct (owns_cells _ _ _ _ _ Ho E) as [_ Lb].
  rewrite (copy_list_ok asg m h (o_begin o) i blk) by (try assumption; lia). eexists. split; [reflexivity|].
  apply set_splice; assumption.
Qed.
Lemma write_step asg h o l i v n : owns h o l -> i <= length l -> i < o_cap o -> n <= length (firstn i l ++ v :: skipn (S i) l) ->
  exists h', mem_write true asg h (o_begin o) i v = Ok h' /\
    owns h' (with_size o n) (firstn n (firstn i l ++ v :: skipn (S i) l)) /\ frame h o h' (with_size o n).
Proof.
  intros Ho Hi Hm Hn. destruct (list_step asg h o l i [v] n Ho Hi) as (h' & E & H).
  - cbn. lia.
  - cbn [length app]. rewrite Nat.add_1_r. exact Hn.
  - exists h'. cbn [copy_list] in E. split.
    + destruct (mem_write true asg h (o_begin o) i v); cbn in E; congruence.
    + cbn [length app] in H. rewrite Nat.add_1_r in H. exact H.
Qed.
Lemma fill_step h o l i k a v n : owns h o l -> arg_apart h (o_begin o) a v -> i <= length l -> i + k <= o_cap o ->
  n <= length (firstn i l ++ repeat v k ++ skipn (i + k) l) ->
  exists h', fill true h (o_begin o) i k a = Ok h' /\
    owns h' (with_size o n) (firstn n (firstn i l ++ repeat v k ++ skipn (i + k) l)) /\ frame h o h' (with_size o n).
Proof.
  intros Ho Ha Hi Hm Hn. destruct (owns_block _ _ _ _ Ho) as (blk & E). destruct (owns_cells _ _ _ _ _ Ho E) as [_ Lb].
  rewrite (fill_ok k h (o_begin o) i a v blk) by (try assumption; lia). eexists. split; [reflexivity|].
  pose proof (set_splice N h o l blk i (repeat v k) n Ho E Hi) as H. rewrite repeat_length in H. apply H; assumption.
Qed.

(** ** push_back *)
Definition arg_ok h o l (a : arg V) v :=
  match a with
  | AVal x => x = v
  | ARef b k => b < length h /\ mem_read h b k = Ok v /\ (b = o_begin o -> nth_error l k = Some v /\ (o_size o < o_cap o \/ on_stack o = true))
  end.
Lemma arg_ok_read h o l a v : arg_ok h o l a v -> arg_read h a = Ok v.
Proof. destruct a; cbn; [congruence|]. intros (_ & H & _). exact H. Qed.
Lemma read_same h h' b k : nth_error h' b = nth_error h b -> mem_read h' b k = mem_read h b k.
Proof. intros E. unfold mem_read. rewrite E. reflexivity. Qed.

Lemma room_ok h o l a v : owns h o l -> arg_ok h o l a v ->
  exists h' o', (if o_cap o <=? o_size o then s_grow true h o 0 else Ok (h, o)) = Ok (h', o') /\ owns h' o' l /\ frame h o h' o' /\
    length l < o_cap o' /\ arg_ok h' o' l a v.
Proof.
  intros Ho Ha. pose proof (owns_size _ _ _ _ Ho) as Es. pose proof (owns_cap _ _ _ _ Ho) as [C1 C2]. destruct (Nat.leb_spec (o_cap o) (o_size o)) as [H|H].
  - destruct (grow_ok N h o l 0 Ho) as (h' & o' & E & H1 & F & H2 & _ & H3 & H4); [lia|]. exists h', o'.
    split; [exact E|]. split; [exact H1|]. split; [exact F|]. split; [exact H2|].
    destruct a as [x|b k]; cbn in *; [exact Ha|]. destruct Ha as (A1 & A2 & A3).
    split; [destruct F as (_ & _ & _ & F & _); lia|]. split; [|intros ->; lia].
    rewrite <- A2. apply read_same. destruct (Nat.eq_dec b (o_begin o)) as [Eb|Eb].
    + destruct (A3 Eb) as [_ [X|X]]; [lia|]. apply H4; assumption.
    + apply F; assumption.
  - exists h, o. split; [reflexivity|]. split; [exact Ho|]. split; [destruct o; apply frame_refl|]. split; [lia|]. exact Ha.
Qed.

Lemma push_back_ok h o l a v : owns h o l -> arg_ok h o l a v -> result (s_push_back true h o a) h o (l ++ [v]).
Proof.
  intros Ho Ha. unfold s_push_back. destruct (room_ok _ _ _ _ _ Ho Ha) as (h1 & o1 & E & H1 & F1 & H2 & H3). rewrite E. cbn [bind].
  rewrite (arg_ok_read _ _ _ _ _ H3). cbn [bind]. rewrite (owns_size _ _ _ _ H1).
  destruct (write_step true h1 o1 l (length l) v (S (length l)) H1) as (h2 & E2 & H4 & F2); [lia|lia|rewrite app_length, firstn_all; cbn; lia|].
  rewrite E2. cbn [bind]. do 2 eexists. split; [reflexivity|]. split; [|eapply frame_trans; eassumption].
  rewrite firstn_all, skipn_all2 in H4 by lia. rewrite firstn_len in H4 by (rewrite app_length; cbn; lia). exact H4.
Qed.

Lemma pop_back_ok h o l : owns h o l -> l <> [] -> result (s_pop_back h o) h o (removelast l).
Proof.
  intros Ho Hl. unfold s_pop_back. rewrite (owns_size _ _ _ _ Ho). destruct l as [|x l]; [congruence|]. cbn [length].
  do 2 eexists. split; [reflexivity|]. split; [|apply frame_refl].
  replace (removelast (x :: l)) with (firstn (length l) (x :: l)).
  - apply owns_shrink; [exact Ho|cbn; lia].
  - symmetry. exact (removelast_firstn_len (x :: l)).
Qed.

(** ** Ranges *)
Definition range_apart h b (r : range V) m :=
  match r with
  | RList x => x = m
  | RMem b' i n => b' <> b /\ n = length m /\ exists blk, nth_error h b' = Some (Some blk) /\ cells blk i m
  end.
Lemma range_size_ok h b r m : range_apart h b r m -> range_size r = length m.
Proof. destruct r; cbn; [congruence|]. intros (_ & E & _). exact E. Qed.
Lemma copy_range_list asg h b r m i blk : range_apart h b r m -> nth_error h b = Some (Some blk) -> i + length m <= length blk ->
  copy_range true asg h r b i = copy_list true asg h m b i.
Proof.
  destruct r as [x|b' j n]; cbn; [intros ->; reflexivity|]. intros (H1 & -> & sblk & H2 & H3) E Hl.
  eapply copy_fwd_list; eauto.
Qed.
Lemma range_frame h o h' o' r m : range_apart h (o_begin o) r m -> frame h o h' o' -> range_apart h' (o_begin o') r m.
Proof.
  destruct r as [x|b' j n]; cbn; [auto|]. intros (H1 & -> & sblk & H2 & H3) F. assert (b' < length h) by (apply nth_error_Some; congruence).
  destruct F as (F1 & _ & F3 & _). split; [destruct F3 as [->|]; [exact H1|lia]|]. split; [reflexivity|]. exists sblk. split; [|exact H3].
  rewrite F1 by assumption. exact H2.
Qed.
Lemma arg_apart_frame h o h' o' a v : (match a with ARef b _ => b < length h | _ => True end) -> arg_apart h (o_begin o) a v -> frame h o h' o' -> arg_apart h' (o_begin o') a v.
Proof.
  destruct a as [x|b k]; cbn; [auto|]. intros Hb (H1 & H2) (F1 & _ & F3 & _). split; [destruct F3 as [->|]; [exact H1|lia]|].
  rewrite <- H2. apply read_same. apply F1; assumption.
Qed.
Lemma arg_apart_lt h b a v : arg_apart h b a v -> match a with ARef b _ => b < length h | _ => True end.
Proof.
  destruct a as [x|b' k]; cbn; [auto|]. intros (_ & H). destruct (read_inv _ _ _ _ H) as (blk & E & _). apply nth_error_Some. congruence.
Qed.

Lemma assign_fill_ok h o l n a v : owns h o l -> arg_apart h (o_begin o) a v -> result (s_assign_fill N true h o n a) h o (repeat v n).
Proof.
  intros Ho Ha. unfold s_assign_fill. destruct (grow_if_ok N h o l n Ho) as (h1 & o1 & E & H1 & F1 & H2). rewrite E. cbn [bind].
  change (o_begin (with_size o1 n)) with (o_begin o1).
  destruct (fill_step h1 o1 l 0 n a v n H1) as (h2 & E2 & H3 & F2).
  - eapply arg_apart_frame; eauto. eapply arg_apart_lt; eauto.
  - lia.
  - exact H2.
  - cbn. rewrite app_length, repeat_length. lia.
  - rewrite E2. cbn [bind]. do 2 eexists. split; [reflexivity|]. split; [|eapply frame_trans; eassumption].
    cbn [firstn app] in H3. rewrite firstn_app, repeat_length, Nat.sub_diag, app_nil_r in H3. rewrite firstn_len in H3 by (rewrite repeat_length; reflexivity). exact H3.
Qed.

Lemma assign_range_ok h o l r m : owns h o l -> range_apart h (o_begin o) r m -> result (s_assign_range N true h o r) h o m.
Proof.
  intros Ho Ha. unfold s_assign_range. rewrite (range_size_ok _ _ _ _ Ha). destruct (grow_if_ok N h o l (length m) Ho) as (h1 & o1 & E & H1 & F1 & H2).
  rewrite E. cbn [bind]. pose proof (range_frame _ _ _ _ _ _ Ha F1) as Ha1. destruct (owns_block _ _ _ _ H1) as (blk & Eb).
  destruct (owns_cells _ _ _ _ _ H1 Eb) as [_ Lb]. rewrite (copy_range_list false _ _ _ m 0 blk Ha1 Eb) by lia.
  destruct (list_step false h1 o1 l 0 m (length m) H1) as (h2 & E2 & H3 & F2); [lia|lia|cbn; rewrite app_length; lia|].
  rewrite E2. cbn [bind]. do 2 eexists. split; [reflexivity|]. split; [|eapply frame_trans; eassumption].
  cbn [firstn app] in H3. rewrite firstn_app, Nat.sub_diag, app_nil_r, firstn_all in H3. exact H3.
Qed.
Lemma assign_self_ok h o l : owns h o l -> result (s_assign_range N true h o (whole o)) h o l.
Proof.
  intros Ho. unfold s_assign_range, whole. cbn [range_size copy_range]. rewrite (owns_size _ _ _ _ Ho).
  pose proof (owns_cap _ _ _ _ Ho) as [C1 C2]. unfold grow_if. destruct (Nat.ltb_spec (o_cap o) (length l)); [lia|]. rewrite andb_false_r. cbn [bind].
  destruct (owns_block _ _ _ _ Ho) as (blk & Eb). destruct (owns_cells _ _ _ _ _ Ho Eb) as [Hc Lb].
  rewrite (copy_fwd_list false l h (o_begin o) 0 blk (o_begin o) 0 blk) by (auto; lia).
  destruct (list_step false h o l 0 l (length l) Ho) as (h2 & E2 & H3 & F2); [lia|lia|cbn; rewrite app_length; lia|].
  rewrite E2. cbn [bind]. do 2 eexists. split; [reflexivity|]. split; [|exact F2].
  cbn [firstn app] in H3. rewrite firstn_app, Nat.sub_diag, app_nil_r, firstn_all in H3. exact H3.
Qed.

Lemma resize_ok h o l n : owns h o l -> result (s_resize N zero true h o n) h o (firstn n l ++ repeat zero (n - length l)).
Proof.
  intros Ho. unfold s_resize. destruct (grow_if_ok N h o l n Ho) as (h1 & o1 & E & H1 & F1 & H2). rewrite E. cbn [bind].
  rewrite (owns_size _ _ _ _ H1). change (o_begin (with_size o1 n)) with (o_begin o1). destruct (Nat.ltb_spec (length l) n) as [H|H].
  - destruct (fill_step h1 o1 l (length l) (n - length l) (AVal zero) zero n H1) as (h2 & E2 & H3 & F2); [reflexivity|lia|lia|rewrite firstn_all, !app_length, repeat_length; lia|].
    rewrite E2. cbn [bind]. do 2 eexists. split; [reflexivity|]. split; [|eapply frame_trans; eassumption].
    rewrite firstn_all, skipn_all2, app_nil_r in H3 by lia. rewrite firstn_len in H3 by (rewrite app_length, repeat_length; lia).
    rewrite (firstn_all2 (n := n)) by lia. exact H3.
  - cbn [bind]. do 2 eexists. split; [reflexivity|]. split; [|eapply frame_trans; [eassumption|apply frame_refl]].
    replace (n - length l) with 0 by lia. cbn [repeat]. rewrite app_nil_r. apply owns_shrink; [exact H1|lia].
Qed.
Lemma reserve_ok h o l n : owns h o l -> result (s_reserve N true h o n) h o l.
Proof. intros Ho. destruct (grow_if_ok N h o l n Ho) as (h1 & o1 & E & H1 & F1 & _). exists h1, o1. auto. Qed.
Lemma clear_ok h o l : owns h o l -> result (s_clear N zero true h o) h o [].
Proof. intros Ho. exact (resize_ok h o l 0 Ho). Qed.

Lemma cut {A} (x : list A) p : p <= length x -> exists a b, x = a ++ b /\ length a = p.
Proof. intros H. exists (firstn p x), (skipn p x). rewrite firstn_skipn, firstn_length_le by assumption. auto. Qed.
Lemma firstn_app_len {A} (a b : list A) n : n = length a -> firstn n (a ++ b) = a.
Proof. intros ->. rewrite firstn_app, Nat.sub_diag, firstn_all. cbn. apply app_nil_r. Qed.
Lemma skipn_app_len {A} (a b : list A) n : n = length a -> skipn n (a ++ b) = b.
Proof. intros ->. rewrite skipn_app, Nat.sub_diag, skipn_all. reflexivity. Qed.

Lemma erase_ok h o l p : owns h o l -> p < length l ->
  exists h' o', s_erase true h o p = Ok (h', o', p) /\ owns h' o' (firstn p l ++ skipn (S p) l) /\ frame h o h' o'.
Proof.
  intros Ho Hp. unfold s_erase. rewrite (owns_size _ _ _ _ Ho). destruct (Nat.ltb_spec (length l) (p + 1)); [lia|].
  destruct (owns_block _ _ _ _ Ho) as (blk & Eb). destruct (owns_cells _ _ _ _ _ Ho Eb) as [Hc Lb]. pose proof (owns_cap _ _ _ _ Ho) as [C1 C2].
  replace (length l - (p + 1)) with (length (skipn (S p) l)) by (rewrite skipn_length; lia). rewrite Nat.add_1_r.
  rewrite (copy_fwd_list true (skipn (S p) l) h (o_begin o) (S p) blk (o_begin o) p blk).
  2: exact Eb. 2: apply cells_skip; exact Hc. 2: exact Eb. 2: rewrite skipn_length; lia. 2: right; lia.
  destruct (list_step true h o l p (skipn (S p) l) (length l - 1) Ho) as (h2 & E2 & H3 & F2).
  - lia.
  - rewrite skipn_length. lia.
  - rewrite !app_length, firstn_length, !skipn_length. lia.
  - rewrite E2. cbn [bind]. do 2 eexists. split; [reflexivity|]. split; [|exact F2].
    rewrite app_assoc, firstn_app_len in H3 by (rewrite app_length, firstn_length, skipn_length; lia). exact H3.
Qed.
Lemma erase_range_ok h o l p q : owns h o l -> p <= q -> q <= length l ->
  exists h' o', s_erase_range true h o p q = Ok (h', o', p) /\ owns h' o' (firstn p l ++ skipn q l) /\ frame h o h' o'.
Proof.
  intros Ho Hp Hq. unfold s_erase_range. rewrite (owns_size _ _ _ _ Ho). destruct (Nat.eqb_spec q (length l)) as [->|Hne].
  - do 2 eexists. split; [reflexivity|]. split; [|apply frame_refl]. rewrite skipn_all, app_nil_r. apply owns_shrink; [exact Ho|lia].
  - destruct (Nat.ltb_spec (length l) q); [lia|].
    destruct (owns_block _ _ _ _ Ho) as (blk & Eb). destruct (owns_cells _ _ _ _ _ Ho Eb) as [Hc Lb]. pose proof (owns_cap _ _ _ _ Ho) as [C1 C2].
    replace (length l - q) with (length (skipn q l)) by (rewrite skipn_length; lia).
    rewrite (copy_fwd_list true (skipn q l) h (o_begin o) q blk (o_begin o) p blk).
    2: exact Eb. 2: apply cells_skip; exact Hc. 2: exact Eb. 2: rewrite skipn_length; lia. 2: right; lia.
    destruct (list_step true h o l p (skipn q l) (p + length (skipn q l)) Ho) as (h2 & E2 & H3 & F2).
    + lia.
    + rewrite skipn_length. lia.
    + rewrite !app_length, firstn_length, !skipn_length. lia.
    + rewrite E2. cbn [bind]. do 2 eexists. split; [reflexivity|]. split; [|exact F2].
      rewrite app_assoc, firstn_app_len in H3 by (rewrite app_length, firstn_length, skipn_length; lia). exact H3.
Qed.

(** Moving part of the elements towards the end. *)
Lemma bwd_step h o l si di m n : owns h o l -> (forall k v, nth_error m k = Some v -> nth_error l (si + k) = Some v) -> si <= di -> di <= length l -> di + length m <= o_cap o ->
  n <= length (firstn di l ++ m ++ skipn (di + length m) l) ->
  exists h', copy_bwd true h (o_begin o) si (o_begin o) di (length m) = Ok h' /\
    owns h' (with_size o n) (firstn n (firstn di l ++ m ++ skipn (di + length m) l)) /\ frame h o h' (with_size o n).
Proof.
  intros Ho Hm Hd Hi Hl Hn. destruct (owns_block _ _ _ _ Ho) as (blk & E). destruct (owns_cells _ _ _ _ _ Ho E) as [Hc Lb].
  rewrite (copy_bwd_ok m h (o_begin o) si di blk) by (try assumption; try lia; intros k v Ek; apply (Hc (si + k)), Hm, Ek). eexists. split; [reflexivity|].
  apply set_splice; assumption.
Qed.

Lemma insert_ok h o l p a v : owns h o l -> p <= length l -> arg_ok h o l a v ->
  exists h' o', s_insert true h o p a = Ok (h', o', p) /\ owns h' o' (firstn p l ++ v :: skipn p l) /\ frame h o h' o'.
Proof.
  intros Ho Hp Ha. unfold s_insert. rewrite (owns_size _ _ _ _ Ho). destruct (Nat.eqb_spec p (length l)) as [->|Hne].
  - destruct (push_back_ok _ _ _ _ _ Ho Ha) as (h1 & o1 & E & H1 & F1). rewrite E. cbn [bind]. exists h1, o1.
    rewrite (owns_size _ _ _ _ H1), app_length. cbn [length]. replace (length l + 1 - 1) with (length l) by lia. split; [reflexivity|].
    rewrite firstn_all, skipn_all. auto.
  - destruct (room_ok _ _ _ _ _ Ho Ha) as (h1 & o1 & E & H1 & F1 & H2 & H3). rewrite (owns_size _ _ _ _ Ho) in E. rewrite E. cbn [bind]. rewrite (owns_size _ _ _ _ H1).
    destruct (cut l p) as (A & B' & El & LA); [lia|].
    assert (HB : exists B x, B' = B ++ [x]).
    { destruct (exists_last (l := B')) as (B & x & EB); [intros ->; rewrite app_nil_r in El; subst; lia|eauto]. }
    destruct HB as (B & x & ->).
    assert (Ll : length l = p + S (length B)) by (rewrite El, !app_length; cbn; lia).
    rewrite Ll. replace (p + S (length B)) with (S (p + length B)) by lia. cbv beta iota.
    assert (Hx : nth_error l (p + length B) = Some x) by (rewrite El, app_assoc, nth_error_app2, app_length by (rewrite app_length; lia); replace (p + length B - (length A + length B)) with 0 by lia; reflexivity).
    rewrite (owns_read _ _ _ _ _ _ H1 Hx). cbn [bind].
    destruct (write_step true h1 o1 l (length l) x (S (length l)) H1) as (h2 & E2 & H4 & F2); [lia|lia|rewrite app_length, firstn_all; cbn; lia|].
    replace (S (p + length B)) with (length l) by lia. rewrite E2. cbn [bind].
    rewrite firstn_all, skipn_all2 in H4 by lia. rewrite firstn_len in H4 by (rewrite app_length; cbn; lia).
    destruct (Nat.ltb_spec (p + length B) p); [lia|]. replace (p + length B - p) with (length B) by lia.
    set (o2 := with_size o1 (S (length l))) in *. change (o_begin o1) with (o_begin o2).
    destruct (bwd_step h2 o2 (l ++ [x]) p (S p) B (S (length l)) H4) as (h3 & E3 & H5 & F3).
    + intros k w Ek. rewrite El, <- app_assoc, nth_error_app2 by lia. replace (p + k - length A) with k by lia.
      rewrite <- app_assoc, nth_error_app1 by (apply nth_error_Some; congruence). exact Ek.
    + lia.
    + rewrite app_length. cbn. lia.
    + cbn. lia.
    + rewrite !app_length, firstn_length, skipn_length, app_length. cbn [length]. lia.
    + rewrite E3. cbn [bind].
      set (L := firstn (S (length l)) (firstn (S p) (l ++ [x]) ++ B ++ skipn (S p + length B) (l ++ [x]))) in *.
      assert (EL : exists y, L = A ++ y :: B ++ [x]).
      { assert (Ey : exists y T, B ++ [x] = y :: T) by (destruct B; cbn; eauto). destruct Ey as (y & T & Ey). exists y. unfold L.
        replace (S p + length B) with (length l) by lia. rewrite (skipn_app_len l [x]) by reflexivity.
        assert (X : firstn (S p) (l ++ [x]) = A ++ [y]).
        { rewrite El, Ey, <- app_assoc. cbn [app]. rewrite firstn_app. replace (S p - length A) with 1 by lia. rewrite firstn_all2 by lia. reflexivity. }
        rewrite X, <- app_assoc. cbn [app]. apply firstn_len. rewrite !app_length. cbn. rewrite app_length. cbn. lia. }
      destruct EL as (y & EL). rewrite EL in H5. clearbody L. subst L.
      change (with_size o2 (S (length l))) with o2 in *. change (o_size o2) with (S (length l)).
      match goal with |- context [arg_read h3 ?s] => assert (Hr : arg_read h3 s = Ok v) end.
      { destruct a as [w|b k]; cbn in H3; [cbn; congruence|]. destruct H3 as (A1 & A2 & A3).
        destruct (Nat.eqb_spec b (o_begin o2)) as [Eb|Eb]; cbn [andb].
        - destruct (A3 Eb) as [Hk _]. assert (Hkl : k < length l) by (apply nth_error_Some; congruence). subst b.
          destruct (Nat.ltb_spec k (S (length l))); [|lia].
          destruct (Nat.leb_spec p k) as [Hpk|Hpk]; cbn [andb arg_read]; apply (owns_read _ _ _ _ _ _ H5).
          + rewrite nth_error_app2 by lia. replace (k + 1 - length A) with (S (k - p)) by lia. cbn [nth_error].
            rewrite El in Hk. rewrite nth_error_app2 in Hk by lia. rewrite LA in Hk. exact Hk.
          + rewrite El in Hk. rewrite nth_error_app1 in * by lia. exact Hk.
        - cbn [arg_read]. rewrite <- A2. apply read_same. destruct F2 as (F2 & _ & _ & L2 & _). destruct F3 as (F3 & _).
          rewrite F3 by (try assumption; lia). apply F2; assumption. }
      rewrite Hr. cbn [bind].
      destruct (write_step true h3 o2 (A ++ y :: B ++ [x]) p v (S (length l)) H5) as (h4 & E4 & H6 & F4).
      * rewrite app_length. lia.
      * cbn. lia.
      * assert (Q : length (A ++ y :: B ++ [x]) = S (length l)) by (rewrite Ll, !app_length; cbn [length]; rewrite app_length; cbn [length]; lia).
        rewrite app_length, firstn_length. cbn [length]. rewrite skipn_length. lia.
      * rewrite E4. cbn [bind]. do 2 eexists. split; [reflexivity|]. split.
        -- replace (firstn p l) with A by (rewrite El; symmetry; apply firstn_app_len; lia). replace (skipn p l) with (B ++ [x]) by (rewrite El; symmetry; apply skipn_app_len; lia).
           rewrite (firstn_app_len A) in H6 by lia. replace (A ++ y :: B ++ [x]) with ((A ++ [y]) ++ B ++ [x]) in H6 by (rewrite <- app_assoc; reflexivity).
           rewrite (skipn_app_len (A ++ [y])) in H6 by (rewrite app_length; cbn; lia).
           rewrite firstn_len in H6 by (rewrite app_length; cbn; rewrite app_length; cbn; lia). exact H6.
        -- eapply frame_trans; [exact F1|]. eapply frame_trans; [exact F2|]. eapply frame_trans; [exact F3|]. exact F4.
Qed.

Lemma insert_range_ok h o l p r m : owns h o l -> p <= length l -> range_apart h (o_begin o) r m ->
  exists h' o', s_insert_range true h o p r = Ok (h', o', p) /\ owns h' o' (firstn p l ++ m ++ skipn p l) /\ frame h o h' o'.
Proof.
  intros Ho Hp Ha. unfold s_insert_range. rewrite (range_size_ok _ _ _ _ Ha). destruct (Nat.ltb_spec 0 (length m)) as [Hm|Hm].
  2:{ destruct m; [|cbn in Hm; lia]. cbn [app]. rewrite firstn_skipn. exists h, o. split; [reflexivity|]. split; [exact Ho|]. destruct o; apply frame_refl. }
  pose proof (owns_cap _ _ _ _ Ho) as [C1 C2].
  assert (R : exists h1 o1, (if o_cap o - o_size o <? length m then s_grow true h o (o_cap o + length m) else Ok (h, o)) = Ok (h1, o1) /\
            owns h1 o1 l /\ frame h o h1 o1 /\ length l + length m <= o_cap o1).
  { rewrite (owns_size _ _ _ _ Ho). destruct (Nat.ltb_spec (o_cap o - length l) (length m)) as [H|H].
    - destruct (grow_ok N h o l (o_cap o + length m) Ho) as (h' & o' & E & H1 & F & _ & H2 & _); [lia|]. exists h', o'. split; [exact E|]. split; [exact H1|]. split; [exact F|]. lia.
    - exists h, o. split; [reflexivity|]. split; [exact Ho|]. split; [destruct o; apply frame_refl|]. lia. }
  destruct R as (h1 & o1 & E & H1 & F1 & H2). rewrite E. cbn [bind]. rewrite (owns_size _ _ _ _ H1). destruct (Nat.ltb_spec (length l) p); [lia|].
  pose proof (range_frame _ _ _ _ _ _ Ha F1) as Ha1.
  destruct (cut l p Hp) as (A & B & El & LA). assert (Ll : length l = p + length B) by (rewrite El, app_length; lia).
  replace (length l - p) with (length B) by lia.
  (* the cells between the old end and p + n are raw: argue on the block *)
  destruct (owns_block _ _ _ _ H1) as (blk & Eb). destruct (owns_cells _ _ _ _ _ H1 Eb) as [Hc Lb].
  rewrite (copy_bwd_ok B h1 (o_begin o1) p (p + length m) blk).
  2: exact Eb. 2:{ intros k w Ek. apply (Hc (p + k)). rewrite El, nth_error_app2 by lia. replace (p + k - length A) with k by lia. exact Ek. }
  2: lia. 2: lia.
  cbn [bind]. set (h2 := upd h1 (o_begin o1) (Some (splice blk (p + length m) B))).
  change (o_begin (with_size o1 (length l + length m))) with (o_begin o1).
  assert (Hb1 : o_begin o1 < length h1) by (apply nth_error_Some; congruence).
  assert (Eb2 : nth_error h2 (o_begin o1) = Some (Some (splice blk (p + length m) B))) by (unfold h2; apply nth_error_upd_same; exact Hb1).
  assert (Ha2 : range_apart h2 (o_begin o1) r m).
  { destruct r as [w|b' j n]; cbn in Ha1 |- *; [exact Ha1|]. destruct Ha1 as (X1 & X2 & sb & X3 & X4). split; [exact X1|]. split; [exact X2|]. exists sb. split; [|exact X4].
    unfold h2. rewrite nth_error_upd_other by congruence. exact X3. }
  rewrite (copy_range_list true _ _ _ m p _ Ha2 Eb2) by (rewrite splice_length; lia).
  rewrite (copy_list_ok true m h2 (o_begin o1) p _ Eb2) by (rewrite splice_length; lia). cbn [bind].
  unfold h2. rewrite upd_upd_same.
  assert (Esp : splice (splice blk (p + length m) B) p m = splice blk p (m ++ B)).
  { unfold splice. assert (Lf : length (firstn (p + length m) blk) = p + length m) by (apply firstn_length_le; lia).
    rewrite firstn_app, firstn_firstn, Lf. replace (Nat.min p (p + length m)) with p by lia. replace (p - (p + length m)) with 0 by lia. cbn [firstn]. rewrite app_nil_r.
    rewrite (skipn_app_len (firstn (p + length m) blk)) by lia. rewrite map_app, app_length, <- !app_assoc. do 4 f_equal. lia. }
  rewrite Esp. destruct (set_splice N h1 o1 l blk p (m ++ B) (length l + length m) H1 Eb Hp) as [H5 F5].
  - rewrite app_length. lia.
  - rewrite !app_length, firstn_length, skipn_length. lia.
  - do 2 eexists. split; [reflexivity|]. split; [|eapply frame_trans; [exact F1|exact F5]].
    rewrite skipn_all2, app_nil_r in H5 by (rewrite app_length; lia). rewrite firstn_len in H5 by (rewrite !app_length, firstn_length; lia).
    replace (skipn p l) with B by (rewrite El; symmetry; apply skipn_app_len; lia). exact H5.
Qed.

Lemma set_ok h o l k a v : owns h o l -> k < length l -> arg_read h a = Ok v -> result (s_set true h o k a) h o (firstn k l ++ v :: skipn (S k) l).
Proof.
  intros Ho Hk Ha. unfold s_set. rewrite Ha. cbn [bind]. pose proof (owns_cap _ _ _ _ Ho) as [C1 C2].
  destruct (write_step true h o l k v (length l) Ho) as (h2 & E2 & H3 & F2); [lia|lia|rewrite app_length, firstn_length; cbn [length]; rewrite skipn_length; lia|].
  rewrite E2. cbn [bind]. exists h2, (with_size o (length l)). split; [|split; [|exact F2]].
  - pose proof (owns_size _ _ _ _ Ho) as Es. destruct o. cbn in *. subst. reflexivity.
  - rewrite firstn_len in H3 by (rewrite app_length, firstn_length; cbn [length]; rewrite skipn_length; lia). exact H3.
Qed.
End P.
