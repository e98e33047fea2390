(** C94: shared expressions keep their arrays alive, exactly as long as they are used. *)
From Coq Require Import List ZArith Bool Arith.
From Verif Require Import Prelude Shared_Model Shared_Spec Shared_Proofs Shared2_Proofs.
Import ListNotations.
Open Scope nat_scope.

(** Whatever the program has done, a statement on variables that are alive is defined (no freed array is touched, none is freed twice), and it changes no shared array that is still in use,
    except for the one that is written through its handle. *)
Theorem C94_safe : forall X (s : @state X) c, reachable s -> proper s c ->
  exists s', exec s c = Ok s' /\ reachable s' /\
    forall l x, cell s l x -> 0 < holders s' l -> (forall v y, c = Write v y -> ~ alive s v (Shr l)) -> cell s' l x.
Proof.
  intros X s c R P. destruct (exec_ok s c (reachable_sound s R) P) as (s' & E & _ & K). exists s'. split; [exact E|]. split; [exact (reach_exec _ _ _ R E)|].
  intros l x C H N. apply K; [|exact H|exact C]. intros O. destruct c; try contradiction O. exact (N _ _ eq_refl O).
Qed.
Print Assumptions C94_safe.
(** An array that was shared exists exactly as long as something that is alive holds it. *)
Theorem C94_freed : forall X (s : @state X) l, reachable s -> (0 < holders s l <-> exists x, cell s l x).
Proof. exact @freed_ok. Qed.
Print Assumptions C94_freed.
(** use_count is the number of places that hold the array. *)
Theorem C94_use_count : forall X (s : @state X) v l, reachable s -> alive s v (Shr l) -> use_count s v = Ok (holders s l).
Proof. exact @count_ok. Qed.
Print Assumptions C94_use_count.
(** The first time an array is shared, handle and array both show its value, and the count is 2. *)
Theorem C94_share : forall X f (s s' : @state X) v x, reachable s -> alive s v (Arr x None) -> exec s (Share v) = Ok s' ->
  value_of f s' (length (vars s)) = Ok x /\ value_of f s' v = Ok x /\ use_count s' (length (vars s)) = Ok 2.
Proof. exact @share_value_ok. Qed.
Print Assumptions C94_share.
(** An expression has the value that its arguments have when it is accessed. *)
Theorem C94_value : forall X f (s : @state X) v n x, reachable s -> alive s v n -> shows f s n x -> value_of f s v = Ok x.
Proof. exact @value_ok. Qed.
Print Assumptions C94_value.
(** An expression that refers to no variable can be evaluated whatever was destroyed. *)
Theorem C94_self_contained : forall X f (s : @state X) v n, reachable s -> alive s v n -> self_contained n -> exists x, shows f s n x /\ value_of f s v = Ok x.
Proof. exact @contained_ok. Qed.
Print Assumptions C94_self_contained.
(** A function of handles and of expressions handed over is such an expression; its value is the function of theirs. *)
Theorem C94_apply : forall X f (s s' : @state X) a b n m x y,
  reachable s ->
  (match a with Lvalue v => alive s v n /\ (exists l, n = Shr l) | Const_lvalue _ => False | Rvalue v => alive s v n /\ self_contained n end) ->
  (match b with Lvalue v => alive s v m /\ (exists l, m = Shr l) | Const_lvalue _ => False | Rvalue v => alive s v m /\ self_contained m end) ->
  shows f s n x -> shows f s m y -> exec s (Apply a b) = Ok s' ->
  exists k, alive s' k (Fun n m) /\ length (vars s') = S k /\ self_contained (Fun n m) /\ value_of f s' k = Ok (f x y).
Proof. exact @apply_value_ok. Qed.
Print Assumptions C94_apply.
(** Its value stays the same under every statement, except for writing through a handle of one of its arrays. *)
Theorem C94_stable : forall X f (s s' : @state X) c v n x, reachable s -> exec s c = Ok s' -> alive s' v n -> self_contained n -> shows f s n x ->
  (forall w y l, c = Write w y -> alive s w (Shr l) -> holds l n = 0) -> shows f s' n x /\ value_of f s' v = Ok x.
Proof. exact @stable_ok. Qed.
Print Assumptions C94_stable.
(** What is written through one handle is seen through all. *)
Theorem C94_write_seen : forall X f (s s' : @state X) v w l y, reachable s -> alive s v (Shr l) -> alive s w (Shr l) -> exec s (Write v y) = Ok s' -> value_of f s' w = Ok y.
Proof. exact @write_seen_ok. Qed.
Print Assumptions C94_write_seen.

(** Sharing an array a second time does not share what it contains by then: [a = 1; share(a); a = 2; share(a)] shows 1. *)
Theorem C94_share_again_refuted : ~ forall X f (s s' : @state X) v x p, reachable s -> alive s v (Arr x p) -> exec s (Share v) = Ok s' -> value_of f s' (length (vars s)) = Ok x.
Proof.
  intros H. specialize (H nat Nat.add (mk_state [Some (Arr 2 (Some 0)); Some (Shr 0)] [Some (1, 2)]) (mk_state [Some (Arr 2 (Some 0)); Some (Shr 0); Some (Shr 0)] [Some (1, 3)]) 0 2 (Some 0)).
  specialize (H (ex_intro _ [New 1; Share 0; Write 0 2] eq_refl) eq_refl eq_refl). discriminate H.
Qed.
Print Assumptions C94_share_again_refuted.
(** Nor does a copy that was made of a shared array and then changed: [b = a; b = 2; share(b)] shows the 1 of [a]. *)
Theorem C94_share_copy_refuted : exists s s' : @state nat, run (mk_state [] []) [New 1; Share 0; Copy 0; Write 2 2] = Ok s /\ value_of Nat.add s 2 = Ok 2 /\
  exec s (Share 2) = Ok s' /\ value_of Nat.add s' (length (vars s)) = Ok 1.
Proof. do 2 eexists. split; [reflexivity|]. split; [reflexivity|]. split; reflexivity. Qed.
Print Assumptions C94_share_copy_refuted.
(** A function of a handle that is const refers to the handle: it is undefined when the handle has gone, though the array is still there. *)
Theorem C94_const_handle_refuted : exists s : @state nat, run (mk_state [] []) [New 1; Share 0; Apply (Const_lvalue 1) (Const_lvalue 1); Destroy 1] = Ok s /\
  (exists n, alive s 2 n) /\ cell s 0 1 /\ value_of Nat.add s 2 = UB.
Proof. eexists. split; [reflexivity|]. split; [eexists; reflexivity|]. split; [eexists; reflexivity|reflexivity]. Qed.
Print Assumptions C94_const_handle_refuted.
(** The documentation's example prints 4, not 3, when [expr] is an array that is still alive. *)
Theorem C94_documented_count_refuted : exists s : @state nat, run (mk_state [] []) [New 1; Share 0; Apply (Lvalue 1) (Lvalue 1)] = Ok s /\ use_count s 1 = Ok 4.
Proof. eexists. split; reflexivity. Qed.
Print Assumptions C94_documented_count_refuted.

(** A function that returns an expression of a shared local array: everything else is destroyed. *)
Example C94_case_return : exists s : @state nat, run (mk_state [] []) [New 7; Share 0; Apply (Lvalue 1) (Lvalue 1); Destroy 1; Destroy 0] = Ok s /\
  holders s 0 = 2 /\ cell s 0 7 /\ alive s 2 (Fun (Shr 0) (Shr 0)) /\ value_of Nat.add s 2 = Ok 14 /\ exists s', exec s (Destroy 2) = Ok s' /\ heap s' = [None].
Proof. eexists. split; [reflexivity|]. split; [reflexivity|]. split; [eexists; reflexivity|]. split; [reflexivity|]. split; [reflexivity|]. eexists. split; reflexivity. Qed.
Example C94_case_nested : exists s : @state nat, run (mk_state [] []) [New 7; Share 0; Apply (Lvalue 1) (Lvalue 1); Apply (Rvalue 2) (Lvalue 1); Copy 3; Write 1 5; Destroy 3] = Ok s /\
  use_count s 1 = Ok 5 /\ value_of Nat.add s 4 = Ok 15 /\ value_of Nat.add s 0 = Ok 7.
Proof. eexists. split; [reflexivity|]. split; [reflexivity|]. split; reflexivity. Qed.
