(** Titles of cells; fixtures. *)
From Coq Require Import String ZArith Lia Bool List.
From Verif Require Import Prelude Strides_Model Strides_Spec Access_Model Container_Model Container_Spec Npy_Model Csv_Model Print_Model Print_Spec Print_Proofs Print2_Proofs Print3_Proofs
  Mime_Model Mime_Spec Mime_Proofs.
Import ListNotations.
Open Scope Z_scope.

Lemma cut {B} (x : B) : forall a b s t, ~ In x a -> ~ In x b -> a ++ x :: s = b ++ x :: t -> a = b /\ s = t.
Proof.
  induction a as [|y a IH]; intros [|z b] s t Ha Hb E; cbn [app] in E.
  - injection E as ->. auto.
  - injection E as -> _. exfalso. apply Hb. left. reflexivity.
  - injection E as -> _. exfalso. apply Ha. left. reflexivity.
  - injection E as -> E. destruct (IH b s t) as (-> & ->); auto; intros H; [apply Ha|apply Hb]; right; exact H.
Qed.
Lemma show_no i c : In c (str "{}, ") -> ~ In c (show_int i).
Proof. intros H I. destruct (show_int_plain i) as (_ & P). now destruct (P c I). Qed.
Definition body (ix : list Z) : bytes := flat_map (fun i => show_int i ++ str ", ") (removelast ix) ++ show_int (last ix 0).
Lemma body_cons i k ix : body (i :: k :: ix) = show_int i ++ 44 :: 32 :: body (k :: ix).
Proof. unfold body. change (removelast (i :: k :: ix)) with (i :: removelast (k :: ix)). change (last (i :: k :: ix) 0) with (last (k :: ix) 0). cbn [flat_map]. rewrite <- !app_assoc. reflexivity. Qed.
Lemma body_one i : body [i] = show_int i.
Proof. reflexivity. Qed.
Lemma body_inj : forall ix jx, ix <> [] -> length ix = length jx -> body ix = body jx -> ix = jx.
Proof.
  induction ix as [|i ix IH]; intros [|j jx] N L E; try discriminate L; [reflexivity|].
  destruct ix as [|k ix]; destruct jx as [|m jx]; try discriminate L.
  - rewrite !body_one in E. f_equal. now apply show_int_inj.
  - rewrite !body_cons in E. apply cut in E; [|apply show_no; cbn; auto|apply show_no; cbn; auto]. destruct E as (E1 & E2). injection E2 as E2.
    f_equal; [now apply show_int_inj|]. apply IH; [discriminate| |exact E2]. cbn [length] in *. lia.
Qed.
Lemma title_inj ix jx : length ix = length jx -> title ix = title jx -> ix = jx.
Proof.
  destruct ix as [|i [|k ix]], jx as [|j [|m jx]]; intros L E; try discriminate L; [reflexivity| |].
  - cbn [title] in E. apply app_inv_head in E. apply app_inv_tail in E. f_equal. now apply show_int_inj.
  - cbn [title] in E. apply app_inv_head in E. rewrite !app_assoc in E. apply app_inv_tail in E. apply body_inj; [discriminate|exact L|exact E].
Qed.

Definition words_of (l : list bytes) : cont bytes := mk_cont [Z.of_nat (length l)] [if (length l =? 1)%nat then 0 else 1] [Z.of_nat (length l) - 1] row_major l.
(** One string that looks like the end of a cell and the start of the next *)
Definition sly : bytes := str "a</pre></td></tr><tr><td style='font-family:monospace;' title='1'><pre>b".
