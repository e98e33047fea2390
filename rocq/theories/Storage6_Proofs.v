(** Buffers that belong to somebody else, and programs used as cases. *)
From Coq Require Import List Bool Arith Lia.
From Verif Require Import Prelude PreludeFacts Storage_Model Storage_Spec Storage_Proofs
  Storage2_Proofs Storage3_Proofs Storage4_Proofs Storage5_Proofs.
Import ListNotations.
Set Implicit Arguments.

Section View.
Context {V : Type}.

Lemma nb_from_same b n old (tmp : list (option V)) (h : heap V) :
  h_block h b = Some old -> n <= length old -> length tmp = n ->
  exists h', nb_from (mk_uvec (Some b) n) tmp h = Ret (mk_uvec (Some b) n) h' /\
    h_block h' b = Some (tmp ++ skipn n old) /\
    (forall k, k <> b -> h_block h' k = h_block h k) /\ h_next h' = h_next h.
Proof.
  intros B l e. unfold nb_from, nb_resize. cbn [u_size]. rewrite e, Nat.eqb_refl. cbn [bnd u_begin].
  unfold store_at. destruct tmp as [|x tmp].
  - cbn in e. subst n. exists h. split; [reflexivity|]. split; [exact B|]. auto.
  - unfold store. rewrite B. rewrite (proj2 (Nat.leb_le _ _)) by lia. cbn [bnd].
    eexists. split; [reflexivity|]. cbn [set_block h_block h_next].
    rewrite Nat.eqb_refl, e. split; [reflexivity|]. split; [|reflexivity].
    intros k n0. rewrite (proj2 (Nat.eqb_neq _ _) n0). reflexivity.
Qed.

Lemma nb_from_other b n (tmp : list (option V)) (h : heap V) :
  length tmp <> n -> nb_from (mk_uvec b n) tmp h = Exc runtime_error h.
Proof.
  intros e. unfold nb_from, nb_resize. cbn [u_size].
  rewrite (proj2 (Nat.eqb_neq _ _) e). reflexivity.
Qed.
End View.

(** Integers, trivially constructible; a type with a constructor. *)
Definition plain : elem nat := mk_elem true 0.
Definition fancy : elem nat := mk_elem false 7.

(** A program that uses every instruction and destroys everything. *)
Definition prog1 : list (op nat) :=
  [OList 0 [1; 2; 3]; OCopy 1 0; OWrite 1 0 9; ORead 0 0; ORead 1 0; OMove 2 0; OSize 0;
   OFill 3 2 5; OAssign 3 1; ORead 3 2; OMoveAssign 1 2; OAt 1 3; OResize 1 2; ORead 1 0;
   OSwap 1 3; OSize 1; OClear 3; OSize 3; OMoveAssign 1 1; ORead 1 1; OCount 4 2; ONew 5;
   OAssign 5 5; ODestroy 0; ODestroy 1; ODestroy 2; ODestroy 3; ODestroy 4; ODestroy 5].

Definition ans1 : list (answer nat) :=
  [Done; Done; Done; Got (Some 1); Got (Some 9); Done; Size 0;
   Done; Done; Got (Some 3); Done; Thrown out_of_range; Done; Got (Some 7);
   Done; Size 3; Done; Size 0; Done; Got (Some 2); Done; Done;
   Done; Done; Done; Done; Done; Done; Done].

(** A careful program on buffers. *)
Definition prog2 : list (bop nat) :=
  [BAdopt 0 [1; 2]; BMove 1 0; BSize 0; BRead 1 1; BDestroy 0; BAdopt 0 [4]; BAssign 0 1;
   BRead 0 1; BFrom 1 [8; 9; 10]; BRead 1 2; BMoveAssign 0 1; BRead 0 0; BRead 1 0;
   BResize 0 1; BReset 1 [6]; BRead 1 0; BDestroy 0; BDestroy 1].

Definition ans2 : list (answer nat) :=
  [Done; Done; Size 0; Got (Some 2); Done; Done; Done;
   Got (Some 2); Done; Got (Some 10); Done; Got (Some 8); Got (Some 1);
   Done; Done; Got (Some 6); Done; Done].

(** [b] and [c] own a buffer each, [a] was moved into [c]; then [a = move(b)]. *)
Definition prog3 : list (bop nat) :=
  [BAdopt 0 [1]; BMove 2 0; BAdopt 1 [2]; BMoveAssign 0 1].

Lemma prog3_leak : exists env h,
  ob_run plain (@nothing obuf, fresh [] []) (prog3 ++ [BDestroy 0]) =
    Some ([Done; Done; Done; Done; Done], (env, h)) /\
  env 0 = None /\ live h 1 /\ forall i, ~ ob_owns env i 1.
Proof.
  eexists _, _. split; [vm_compute; reflexivity|]. split; [reflexivity|]. split; [discriminate|].
  intros i (o & e & m & d). destruct i as [|[|[|i]]]; cbn in e; try discriminate;
    injection e as <-; cbn in d; discriminate.
Qed.

(** The copy of an element throws in the middle of copying a vector. *)
Lemma copy_leak : exists env h,
  uv_run fancy (@nothing uvec, fresh [] [false; true])
    [OList 0 [1; 2]; OCopy 1 0; ODestroy 0] =
    Some ([Done; Thrown runtime_error; Done], (env, h)) /\
  (forall i, env i = None) /\ live h 1.
Proof.
  eexists _, _. split; [vm_compute; reflexivity|]. split; [|discriminate].
  intros [|[|i]]; reflexivity.
Qed.

Lemma nat_order : total_order lt Nat.ltb.
Proof.
  split; [exact Nat.ltb_lt|]. split; [exact Nat.lt_irrefl|]. split; [exact Nat.lt_trans|].
  intros x y. lia.
Qed.
