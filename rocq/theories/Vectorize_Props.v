(** C100: what vectorized functions and their results hold. *)
From Coq Require Import List Bool Arith Lia.
From Verif Require Import Prelude Vectorize_Model Vectorize_Spec Vectorize_Proofs.
Import ListNotations.
Open Scope nat_scope.

(** auto v = vectorize(f); ...; auto r = v(e...); ...: whatever is done in between and afterwards (assignments to f, the end of f and of v, assignments to the operands), as long as v is there for the call and r for the reading,
    r is the function with the state it had when vectorize was called, of the operands as they are now: variables, scalar ones too, with their present elements, temporaries with those they had. *)
Theorem C100_value : forall (S X : Type) (app : S -> list X -> X) (m m1 m2 m3 m4 : memory S X) f s p1 ops p2 xs,
  has_state m f s -> exec m (Vectorize f) = Ok m1 -> ~ In (End (length m)) p1 -> run m1 p1 = Ok m2 ->
  exec m2 (Call (length m) ops) = Ok m3 -> ~ In (End (length m2)) p2 -> run m3 p2 = Ok m4 -> Forall2 (is_now m4) ops xs ->
  read app m4 (length m2) = Ok (app s xs).
Proof.
  intros S X app m m1 m2 m3 m4 f s p1 ops p2 xs F E1 N1 R1 E2 N2 R2 O. pose proof (made m m1 m2 m3 m4 f s p1 ops p2 F E1 N1 R1 E2 N2 R2) as A.
  unfold read. rewrite (get_ok _ _ _ A). cbn [bind]. now rewrite (operands_now _ _ _ O).
Qed.
Print Assumptions C100_value.

(** f is 0: adds its state to the sum of the elements. v is 3, r is 4; the function object changes and ends, v ends, and the scalar variable 2 is changed after the call. *)
Definition add (s : nat) (xs : list nat) : nat := fold_right plus s xs.
Example C100_case_value : exists m1 m2 m3 m4,
  exec [Some (Fun 100); Some (Val 1); Some (Val 10)] (Vectorize (FVar 0)) = Ok m1 /\ run m1 [SetFun 0 500; End 0] = Ok m2 /\
  exec m2 (Call 3 [Var 1; Var 2; Tmp 1000]) = Ok m3 /\ run m3 [End 3; SetVal 2 20] = Ok m4 /\ Forall2 (is_now m4) [Var 1; Var 2; Tmp 1000] [1; 20; 1000] /\ read add m4 4 = Ok 1121.
Proof. do 4 eexists. split; [reflexivity|]. split; [reflexivity|]. split; [reflexivity|]. split; [reflexivity|]. split; [repeat constructor|reflexivity]. Qed.

(** vectorize of a variable or temporary is defined, and so is the call as long as v and the variables among the operands are there; both leave all other objects as they are, v too, which can be called again. *)
Theorem C100_defined : forall (S X : Type) (m : memory S X),
  (forall f s, has_state m f s -> exists b, exec m (Vectorize f) = Ok (m ++ [Some b])) /\
  (forall m0 m1 f s p v ops xs, has_state m0 f s -> exec m0 (Vectorize f) = Ok m1 -> v = length m0 -> ~ In (End v) p -> run m1 p = Ok m -> Forall2 (is_now m) ops xs -> exists b, exec m (Call v ops) = Ok (m ++ [Some b])).
Proof.
  intros S X m. split.
  - intros f s F. exists (Vec s). cbn [exec]. assert (E : function_state m f = Ok s) by (destruct f; cbn in *; [now rewrite (get_ok _ _ _ F)|now subst]). now rewrite E.
  - intros m0 m1 f s p v ops xs F E -> N R O. exists (Lazy s ops). pose proof (run_fixed _ (Vec s) Logic.I p m1 m (vectorize_ok _ _ _ _ F E) N R) as A. cbn [exec]. rewrite (get_ok _ _ _ A). cbn [bind]. now rewrite (operands_now _ _ _ O).
Qed.
Print Assumptions C100_defined.
Example C100_case_defined : exists m1 m2, exec [Some (Val 1)] (Vectorize (FTmp 100)) = Ok m1 /\ exec m1 (Call 1 [Var 0]) = Ok m2 /\ (let* m3 := exec m2 (Call 1 [Tmp 5]) in let* x := read add m3 2 in let* y := read add m3 3 in Ok (x, y)) = Ok (101, 105).
Proof. do 2 eexists. repeat split. Qed.

(** Refuted: that the result can be read as long as it is there. Once a variable among the operands has ended, also a scalar, reading the result is undefined, after any further program. *)
Theorem C100_operand_refuted : forall (S X : Type) (app : S -> list X -> X) (m m1 m2 m3 m4 m5 : memory S X) f s p1 ops p2 p3 o,
  has_state m f s -> exec m (Vectorize f) = Ok m1 -> ~ In (End (length m)) p1 -> run m1 p1 = Ok m2 ->
  exec m2 (Call (length m) ops) = Ok m3 -> ~ In (End (length m2)) p2 -> run m3 p2 = Ok m4 -> In (Var o) ops -> ended m4 o ->
  ~ In (End (length m2)) p3 -> run m4 p3 = Ok m5 -> read app m5 (length m2) = UB.
Proof.
  intros S X app m m1 m2 m3 m4 m5 f s p1 ops p2 p3 o F E1 N1 R1 E2 N2 R2 I D N3 R3.
  pose proof (made m m1 m2 m3 m4 f s p1 ops p2 F E1 N1 R1 E2 N2 R2) as A. apply (run_fixed _ (Lazy s ops) Logic.I p3 m4 m5) in A; [|exact N3|exact R3].
  unfold read. rewrite (get_ok _ _ _ A). cbn [bind]. rewrite (operands_ended m5 o (run_ended _ p3 m4 m5 D R3) ops I); [reflexivity|].
  intros v Q. apply (run_vals v p3 m4 m5); [|exact R3]. apply (run_vals v p2 m3 m4); [|exact R2]. exact (call_vals _ _ _ _ E2 v Q).
Qed.
Print Assumptions C100_operand_refuted.
Example C100_case_operand : exists m1 m3 m4,
  exec [Some (Val 1); Some (Val 10)] (Vectorize (FTmp 100)) = Ok m1 /\ exec m1 (Call 2 [Var 0; Var 1]) = Ok m3 /\ read add m3 3 = Ok 111 /\ run m3 [End 1] = Ok m4 /\ ended m4 1 /\ read add m4 3 = UB.
Proof. do 3 eexists. repeat split. Qed.
