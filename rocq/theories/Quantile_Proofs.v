(** Proofs about quantile: the selected indices. *)
From Coq Require Import List ZArith Bool Lia QArith Qcanon Qround Permutation.
From Verif Require Import Prelude PreludeFacts Strides_Model Strides_Spec Strides_Proofs Access_Model Container_Model Container_Spec
  Reduce_Model Reduce_Spec Reduce5_Proofs Reduce9_Proofs Manip4_Proofs Stepper_Proofs Sort_Model Sort_Spec Quantile_Model.
Import ListNotations.
Open Scope Z_scope.

Lemma for_each_flat {A B} (body : A -> list B -> res (list B)) (g : A -> list B) l : forall out,
  (forall x o, In x l -> body x o = Ok (o ++ g x)) -> for_each body l out = Ok (out ++ flat_map g l).
Proof.
  induction l as [|x l IH]; intros out H; cbn [for_each flat_map]; [rewrite app_nil_r; reflexivity|].
  rewrite H by (left; reflexivity). cbn [bind]. rewrite IH by (intros; apply H; right; assumption). rewrite app_assoc. reflexivity.
Qed.

(** The indices that select_indices lists, one axis after the other *)
Fixpoint chosen (ks : list Z) (ax k : nat) (sh : list Z) : list (list Z) :=
  match sh with
  | [] => [[]]
  | n :: sh' => flat_map (fun i => map (cons i) (chosen ks ax (S k) sh')) (if (k =? ax)%nat then ks else map Z.of_nat (seq 0 (Z.to_nat n)))
  end.

Lemma upd_mid {A} (u : list A) x v w : upd (u ++ x :: w) (length u) v = u ++ v :: w.
Proof. induction u; cbn; [reflexivity|]. f_equal. exact IHu. Qed.
Lemma rd_mid {A} (u : list A) x w : rd (u ++ x :: w) (length u) = Ok x.
Proof. unfold rd. rewrite nth_error_app2 by lia. rewrite Nat.sub_diag. reflexivity. Qed.
Lemma wr_mid {A} (u : list A) x v w : wr (u ++ x :: w) (length u) v = Ok (u ++ v :: w).
Proof. rewrite wr_ok by (rewrite app_length; cbn; lia). f_equal. apply upd_mid. Qed.
Lemma rdz_mid {A} (u : list A) x w : rdz (u ++ x :: w) (Z.of_nat (length u)) = Ok x.
Proof. apply rdz_ok; [lia|]. rewrite Nat2Z.id. rewrite nth_error_app2 by lia. rewrite Nat.sub_diag. reflexivity. Qed.
Lemma wrz_mid {A} (u : list A) x v w : wrz (u ++ x :: w) (Z.of_nat (length u)) v = Ok (u ++ v :: w).
Proof. rewrite wrz_ok by (rewrite app_length; cbn; lia). f_equal. rewrite Nat2Z.id. apply upd_mid. Qed.
Lemma nth_mid {A} (u : list A) x w d : nth (length u) (u ++ x :: w) d = x.
Proof. rewrite app_nth2, Nat.sub_diag by lia. reflexivity. Qed.

Lemma select_ok ks ax : forall rest pre idx z out, rest <> [] -> length idx = length pre -> length z = length rest ->
  select_indices_impl (pre ++ rest) ks ax (length rest) (idx ++ z) out = Ok (out ++ map (app idx) (chosen ks ax (length pre) rest)).
Proof.
  induction rest as [|n rest IH]; intros pre idx z out Hne Li Lz; [congruence|]. destruct z as [|z0 z]; [discriminate|]. injection Lz as Lz.
  cbn [length select_indices_impl chosen]. rewrite !app_length. cbn [length].
  replace (length pre + S (length rest) - S (length rest))%nat with (length pre) by lia. rewrite rd_mid. cbn [bind].
  set (range := if (length pre =? ax)%nat then ks else map Z.of_nat (seq 0 (Z.to_nat n))).
  rewrite (for_each_flat _ (fun i => map (app idx) (map (cons i) (chosen ks ax (S (length pre)) rest)))).
  - f_equal. f_equal. clearbody range. clear. induction range; cbn; [reflexivity|]. rewrite map_app. f_equal. exact IHrange.
  - intros i o _. replace (length pre) with (length idx) by exact Li. rewrite wr_mid. cbn [bind]. rewrite Li.
    destruct (Nat.ltb_spec (length pre) (length pre + S (length rest) - 1)) as [H|H].
    + replace (pre ++ n :: rest) with ((pre ++ [n]) ++ rest) by (rewrite <- app_assoc; reflexivity).
      replace (idx ++ i :: z) with ((idx ++ [i]) ++ z) by (rewrite <- app_assoc; reflexivity).
      rewrite IH; [|destruct rest; [cbn in H; lia|discriminate]|rewrite !app_length; cbn; lia|exact Lz].
      rewrite app_length. cbn [length]. replace (length pre + 1)%nat with (S (length pre)) by lia. f_equal. f_equal. rewrite map_map. apply map_ext.
      intros l. rewrite <- app_assoc. reflexivity.
    + destruct rest; [|cbn in H; lia]. destruct z; [|discriminate]. reflexivity.
Qed.

Lemma chosen_after ks ax : forall sh k, (ax < k)%nat -> chosen ks ax k sh = row_indices sh.
Proof.
  induction sh as [|n sh IH]; intros k H; [reflexivity|]. cbn [chosen row_indices].
  destruct (Nat.eqb_spec k ax); [lia|]. rewrite IH by lia. rewrite !flat_map_concat_map, map_map. reflexivity.
Qed.

(** The position along the axis stands for an entry of the list *)
Definition pick (ks : list Z) (ax : nat) (jx : list Z) : list Z := upd jx ax (nth (Z.to_nat (nth ax jx 0)) ks 0).

Lemma map_flat {A B C} (h : B -> C) (g : A -> list B) l : map h (flat_map g l) = flat_map (fun x => map h (g x)) l.
Proof. induction l; cbn; [reflexivity|]. rewrite map_app. f_equal. exact IHl. Qed.
Lemma flat_map_map {A B C} (h : A -> B) (g : B -> list C) l : flat_map g (map h l) = flat_map (fun x => g (h x)) l.
Proof. induction l; cbn; [reflexivity|]. f_equal. exact IHl. Qed.
Lemma flat_map_eq {A B} (g h : A -> list B) l : (forall x, In x l -> g x = h x) -> flat_map g l = flat_map h l.
Proof. induction l; intros H; cbn; [reflexivity|]. rewrite H by (left; reflexivity). f_equal. apply IHl. intros; apply H; right; assumption. Qed.
Lemma seq_nths (ks : list Z) : map (fun i => nth i ks 0) (seq 0 (length ks)) = ks.
Proof.
  induction ks as [|k ks IH]; [reflexivity|]. cbn [length seq map nth]. f_equal. rewrite <- seq_shift, map_map. exact IH.
Qed.

Lemma chosen_pick ks n b : forall a k, chosen ks (k + length a) k (a ++ n :: b) = map (pick ks (length a)) (row_indices (a ++ Z.of_nat (length ks) :: b)).
Proof.
  induction a as [|x a IH]; intros k; cbn [app length chosen row_indices].
  - rewrite Nat.add_0_r, Nat.eqb_refl, chosen_after by lia. rewrite map_flat, Nat2Z.id. rewrite <- (seq_nths ks) at 1. rewrite flat_map_map.
    apply flat_map_eq. intros i _. rewrite map_map. apply map_ext. intros l. unfold pick. cbn [nth upd]. rewrite Nat2Z.id. reflexivity.
  - destruct (Nat.eqb_spec k (k + S (length a))); [lia|]. replace (k + S (length a))%nat with (S k + length a)%nat by lia. rewrite IH, map_flat, flat_map_map.
    apply flat_map_eq. intros i _. rewrite !map_map. apply map_ext. intros l. reflexivity.
Qed.

Lemma select_indices_ok ks a n b : select_indices (a ++ n :: b) ks (length a) = Ok (map (pick ks (length a)) (row_indices (a ++ Z.of_nat (length ks) :: b))).
Proof.
  unfold select_indices. pose proof (select_ok ks (length a) (a ++ n :: b) [] [] (repeat 0 (length (a ++ n :: b))) []) as H.
  cbn [app length] in H. rewrite H; [|destruct a; discriminate|reflexivity|apply repeat_length]. f_equal.
  rewrite map_id. exact (chosen_pick ks n b a 0).
Qed.

(** ** Shapes split at the axis *)
Lemma split_bounds a m b ix : in_bounds (a ++ m :: b) ix -> exists x i y, ix = x ++ i :: y /\ length x = length a /\ length y = length b /\ in_bounds a x /\ 0 <= i < m /\ in_bounds b y.
Proof.
  intros H. destruct (in_bounds_split _ _ _ H) as (x & iy & -> & Hx & Hiy). inversion Hiy as [|? i ? y Hi Hy]; subst.
  exists x, i, y. split; [reflexivity|]. split; [apply (in_bounds_length _ _ Hx)|]. split; [apply (in_bounds_length _ _ Hy)|]. auto.
Qed.
Lemma join_bounds a m b x i y : in_bounds a x -> 0 <= i < m -> in_bounds b y -> in_bounds (a ++ m :: b) (x ++ i :: y).
Proof. intros. apply Forall2_app; [assumption|]. constructor; assumption. Qed.

Lemma merge_rank a q b x h i y : length x = length a -> row_pos (a ++ 2 :: q :: b) (x ++ h :: i :: y) = row_pos (a ++ 2 * q :: b) (x ++ (h * q + i) :: y).
Proof.
  intros H. rewrite !row_pos_app by exact H. cbn [row_pos]. rewrite !prod_cons. ring.
Qed.

Lemma unit_pos x m : (forall d, In d x -> d = 0) -> row_pos (repeat 1 m) x = 0.
Proof.
  revert m. induction x as [|d x IH]; intros [|m] H; try reflexivity. cbn [repeat row_pos]. rewrite IH by (intros; apply H; right; assumption).
  rewrite (H d) by (left; reflexivity). lia.
Qed.
