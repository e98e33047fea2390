(** C77: storages own their memory exactly once.  C78: storages compare
    lexicographically. *)
From Coq Require Import List Bool Arith.
From Verif Require Import Prelude Storage_Model Storage_Spec Storage_Proofs
  Storage2_Proofs Storage3_Proofs Storage4_Proofs Storage5_Proofs Storage6_Proofs.
Import ListNotations.

(** Every program on vectors, whichever allocations fail: no undefined
    behaviour; the answers are those of value semantics, except that an
    instruction asking for memory may throw and change nothing; and the live
    blocks are those of the objects that exist, one owner each. *)
Theorem C77_vectors : forall (V : Type) (T : elem V) (mem : list bool) (p : list (op V)),
  exists l env h val,
    uv_run T (@nothing uvec, fresh mem []) p = Some (l, (env, h)) /\
    uv_history T (fun _ => None) p l val /\
    (forall i, env i = None <-> val i = None) /\
    (forall b, live h b -> exists i, uv_owns env i b /\ forall j, uv_owns env j b -> j = i) /\
    (forall i b, uv_owns env i b -> live h b).
Proof. exact @vectors_ok. Qed.
Print Assumptions C77_vectors.

(** Once every vector has been destroyed, every block has been freed. *)
Theorem C77_vectors_no_leak : forall (V : Type) (T : elem V) (mem : list bool) (p : list (op V))
    l env h,
  uv_run T (@nothing uvec, fresh mem []) p = Some (l, (env, h)) ->
  (forall i, env i = None) -> forall b, ~ live h b.
Proof. exact @vectors_no_leak. Qed.
Print Assumptions C77_vectors_no_leak.

(** When no allocation fails the answers are exactly those of value semantics. *)
Theorem C77_vectors_answers : forall (V : Type) (T : elem V) (mem : list bool) (p : list (op V)),
  (forall x, In x mem -> x = false) ->
  exists env h, uv_run T (@nothing uvec, fresh mem []) p =
    Some (fst (uv_answers T (fun _ => None) p), (env, h)).
Proof. exact @vectors_quiet. Qed.
Print Assumptions C77_vectors_answers.

Example C77_case_vectors : exists s,
  uv_run fancy (@nothing uvec, fresh [] []) prog1 = Some (ans1, s) /\
  fst (uv_answers fancy (fun _ => None) prog1) = ans1.
Proof. eexists. split; vm_compute; reflexivity. Qed.

Example C77_case_failing : exists s,
  uv_run fancy (@nothing uvec, fresh [false; true; false] [])
    [OList 0 [1]; OResize 0 5; ORead 0 0; OResize 0 5; ORead 0 4] =
  Some ([Done; Thrown bad_alloc; Got (Some 1); Done; Got (Some 7)], s).
Proof. eexists. vm_compute; reflexivity. Qed.

(** False when constructing an element throws: the block is lost. *)
Theorem C77_throwing_element_refuted :
  exists (T : elem nat) (p : list (op nat)) (elems : list bool) l env h b,
    uv_run T (@nothing uvec, fresh [] elems) p = Some (l, (env, h)) /\
    (forall i, env i = None) /\ live h b.
Proof.
  destruct copy_leak as (env & h & r & n & L). eexists _, _, _, _, env, h, 1. eauto.
Qed.
Print Assumptions C77_throwing_element_refuted.

(** False of resize that it keeps the elements there is still room for. *)
Theorem C77_resize_keeps_refuted :
  exists (T : elem nat) (p : list (op nat)) l s,
    uv_run T (@nothing uvec, fresh [] []) (p ++ [ORead 0 0; OResize 0 4; ORead 0 0]) =
      Some (l ++ [Got (Some 1); Done; Got None], s).
Proof. exists plain, [OList 0 [1; 2; 3]], [Done]. eexists. vm_compute. reflexivity. Qed.
Print Assumptions C77_resize_keeps_refuted.

(** Every careful program on owning buffer adaptors.  Missing: programs that give
    a new value to a buffer that has been moved from. *)
Theorem C77_buffers_partial : forall (V : Type) (T : elem V) (mem : list bool)
    (p : list (bop V)),
  careful [] p ->
  exists l env h val,
    ob_run T (@nothing obuf, fresh mem []) p = Some (l, (env, h)) /\
    ob_history T (fun _ => None) p l val /\
    (forall i, env i = None <-> val i = None) /\
    (forall b, live h b -> exists i, ob_owns env i b /\ forall j, ob_owns env j b -> j = i) /\
    (forall i b, ob_owns env i b -> live h b).
Proof. exact @buffers_ok. Qed.
Print Assumptions C77_buffers_partial.

Example C77_case_buffers :
  careful [] prog2 /\
  exists s, ob_run plain (@nothing obuf, fresh [] []) prog2 = Some (ans2, s).
Proof.
  split; [|eexists; vm_compute; reflexivity].
  cbn. repeat split; intros i H; intuition (subst; try discriminate; tauto).
Qed.

(** False without that care: assigning to a moved-from buffer makes another one
    free what it does not own. *)
Theorem C77_buffers_refuted :
  exists (p : list (bop nat)) l s,
    ob_run plain (@nothing obuf, fresh [] []) p = Some (l, s) /\
    (forall a, In a l -> a = Done) /\
    ob_run plain (@nothing obuf, fresh [] []) (p ++ [BDestroy 1]) = None.
Proof.
  exists prog3. eexists _, _. split; [vm_compute; reflexivity|]. split; [|vm_compute; reflexivity].
  cbn. intuition.
Qed.
Print Assumptions C77_buffers_refuted.

(** And it loses the block of the buffer that was moved in. *)
Theorem C77_buffers_leak_refuted :
  exists (p : list (bop nat)) l env h b,
    ob_run plain (@nothing obuf, fresh [] []) p = Some (l, (env, h)) /\
    live h b /\ forall i, ~ ob_owns env i b.
Proof.
  destruct prog3_leak as (env & h & r & _ & L & n). eexists _, _, env, h, 1. eauto.
Qed.
Print Assumptions C77_buffers_leak_refuted.

(** So do resizing and resetting such a buffer. *)
Theorem C77_buffers_resize_refuted :
  ob_run plain (@nothing obuf, fresh [] []) [BAdopt 0 [1]; BMove 1 0; BResize 0 1] = None /\
  ob_run plain (@nothing obuf, fresh [] []) [BAdopt 0 [1]; BMove 1 0; BReset 0 [2]] = None.
Proof. split; vm_compute; reflexivity. Qed.
Print Assumptions C77_buffers_resize_refuted.

(** A buffer that belongs to somebody else: values of the same size are written
    through, and nothing is allocated or freed; values of another size are
    refused and nothing changes. *)
Theorem C77_view : forall (V : Type) b n old (tmp : list (option V)) (h : heap V),
  h_block h b = Some old -> n <= length old -> length tmp = n ->
  exists h', nb_from (mk_uvec (Some b) n) tmp h = Ret (mk_uvec (Some b) n) h' /\
    h_block h' b = Some (tmp ++ skipn n old) /\
    (forall k, k <> b -> h_block h' k = h_block h k) /\ h_next h' = h_next h.
Proof. exact @nb_from_same. Qed.
Print Assumptions C77_view.

Theorem C77_view_size : forall (V : Type) b n (tmp : list (option V)) (h : heap V),
  length tmp <> n -> nb_from (mk_uvec b n) tmp h = Exc runtime_error h.
Proof. exact @nb_from_other. Qed.
Print Assumptions C77_view_size.

Example C77_case_view :
  h_block (mk_heap 1 (fun k => if k =? 0 then Some [Some 1; Some 2; Some 3] else None) [] []) 0
    = Some [Some 1; Some 2; Some 3] /\ 2 <= length [Some 1; Some 2; Some 3] /\
  length [Some 8; Some 9] = 2 /\ length [Some 8] <> 2.
Proof. split; [reflexivity|]. split; [cbn; auto with arith|]. split; [reflexivity|discriminate]. Qed.

(** ** C78 *)

Theorem C78_equality : forall (V : Type) (eqb : V -> V -> bool),
  (forall x y, eqb x y = true <-> x = y) ->
  forall a b, st_eq eqb a b = true <-> a = b.
Proof. exact @st_eq_ok. Qed.
Print Assumptions C78_equality.

(** The comparisons of vectors are those of the lexicographic order. *)
Theorem C78_vectors : forall (V : Type) (lt : V -> V -> Prop) (ltb : V -> V -> bool),
  total_order lt ltb -> forall a b,
  (uv_lt ltb a b = true <-> lexi lt a b) /\
  (uv_gt ltb a b = true <-> lexi lt b a) /\
  (uv_le ltb a b = true <-> lexi lt a b \/ a = b) /\
  (uv_ge ltb a b = true <-> lexi lt b a \/ a = b).
Proof. exact @uv_order. Qed.
Print Assumptions C78_vectors.

(** Buffers: "less" is right, "greater" is right between equal lengths.
    Missing: "at most", "at least", and "greater" between other lengths. *)
Theorem C78_buffers_less : forall (V : Type) (lt : V -> V -> Prop) (ltb : V -> V -> bool),
  total_order lt ltb -> forall a b, ba_lt ltb a b = true <-> lexi lt a b.
Proof. exact @lexi_ok. Qed.
Print Assumptions C78_buffers_less.

Theorem C78_buffers_greater_partial : forall (V : Type) (lt : V -> V -> Prop)
    (ltb : V -> V -> bool),
  total_order lt ltb -> forall a b, length a = length b ->
  (ba_gt ltb a b = true <-> lexi lt b a).
Proof.
  intros V lt ltb o a b e. rewrite (ba_gt_same ltb a b e). apply (lexi_ok o).
Qed.
Print Assumptions C78_buffers_greater_partial.

Example C78_case : total_order lt Nat.ltb /\
  lexi lt [1; 2] [1; 3] /\ ba_lt Nat.ltb [1; 2] [1; 3] = true /\
  ba_gt Nat.ltb [2; 0] [1; 3] = true /\ length [2; 0] = length [1; 3] /\
  st_eq Nat.eqb [1; 2] [1; 2] = true.
Proof. split; [exact nat_order|]. cbn. repeat split; auto. Qed.

(** False: 1 is not greater than nothing, nothing is greater than 1. *)
Theorem C78_buffers_greater_refuted :
  lexi lt [] [1] /\ ba_gt Nat.ltb [1] [] = false /\ ba_gt Nat.ltb [] [1] = true.
Proof. repeat split. Qed.
Print Assumptions C78_buffers_greater_refuted.

(** False: the first elements decide alone. *)
Theorem C78_buffers_at_most_refuted :
  (exists a b, lexi lt b a /\ ba_le Nat.ltb a b = true) /\
  (exists a b, lexi lt a b /\ ba_ge Nat.ltb a b = true).
Proof.
  split.
  - exists [1; 2], [1; 1]. split; [|reflexivity]. cbn. auto with arith.
  - exists [1; 1], [1; 2]. split; [|reflexivity]. cbn. auto with arith.
Qed.
Print Assumptions C78_buffers_at_most_refuted.

(** False: an empty buffer is neither at most nor at least itself. *)
Theorem C78_buffers_reflexive_refuted :
  ba_le Nat.ltb [] [] = false /\ ba_ge Nat.ltb [] [] = false.
Proof. split; reflexivity. Qed.
Print Assumptions C78_buffers_reflexive_refuted.
