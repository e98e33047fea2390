(** Properties C20 and C21: reshaping, and containers under any history. *)
From Coq Require Import List ZArith Lia.
From Verif Require Import Prelude Strides_Model Strides_Spec Container_Model Container_Spec Container_Proofs.
Import ListNotations.
Open Scope Z_scope.

(** C20, unsigned shapes (including the default layout argument): reshape succeeds
    exactly when the number of elements is unchanged and the layout is acceptable,
    keeps the sequence of elements, and throws otherwise. *)
Theorem C20_reshape_keeps_elements :
  forall (V : Type) (SL DL : layout) (c : cont V) (s : list Z) (l : layout),
  consistent c -> (SL <> dynamic -> ct_layout c = SL) -> Forall (fun d => 0 <= d < 2 ^ 64) s ->
  (prod s = prod (ct_shape c) -> SL = dynamic \/ l = SL ->
    exists c', c_reshape_unsigned SL DL c s l = Ok c' /\ ct_shape c' = s /\ consistent c' /\ same_sequence c c' /\
      ct_layout c' = match SL, l with dynamic, dynamic => DL | _, _ => l end) /\
  (prod s <> prod (ct_shape c) \/ (SL <> dynamic /\ l <> SL) ->
    c_reshape_unsigned SL DL c s l = Throw runtime_error).
Proof. exact (@reshape_unsigned_lemma). Qed.
Print Assumptions C20_reshape_keeps_elements.

(** C20, signed shapes. Proved for positive extents with at most one -1, and for
    the layout of the type. Missing: extents of 0 (division by zero), other
    negative extents and layouts that are not the type's, which reshape accepts;
    see the refutations. *)
Theorem C20_reshape_signed_partial :
  forall (V : Type) (SL : layout) (c : cont V) (s : list Z) (l : layout),
  consistent c -> Forall (fun d => d < 2 ^ 63) s -> prod (ct_shape c) < 2 ^ 64 -> (SL <> dynamic -> l = SL) ->
  (all_known s ->
    (prod s = prod (ct_shape c) ->
      exists c', c_reshape_signed SL c s l = Ok c' /\ ct_shape c' = s /\ consistent c' /\ same_sequence c c' /\ ct_layout c' = l) /\
    (prod s <> prod (ct_shape c) -> c_reshape_signed SL c s l = Throw runtime_error)) /\
  (one_unknown s ->
    ((known_prod s | prod (ct_shape c)) ->
      exists c', c_reshape_signed SL c s l = Ok c' /\ ct_shape c' = inferred (prod (ct_shape c)) s /\
        prod (ct_shape c') = prod (ct_shape c) /\ consistent c' /\ same_sequence c c' /\ ct_layout c' = l) /\
    (~ (known_prod s | prod (ct_shape c)) -> c_reshape_signed SL c s l = Throw runtime_error)).
Proof. exact (@reshape_signed_lemma). Qed.
Print Assumptions C20_reshape_signed_partial.

(** A 2x6 row major container reshaped to 3x4 and to (-1, 3). *)
Example C20_case :
  let c := ck [2;6] row_major [1;2;3;4;5;6;7;8;9;10;11;12] in
  consistent c /\
  (let* c' := c_reshape_unsigned row_major row_major c [3;4] row_major in elt c' [1;2]) = Ok 7 /\
  (let* c' := c_reshape_signed row_major c [-1;3] row_major in Ok (ct_shape c')) = Ok [4;3] /\
  one_unknown [-1;3] /\
  c_reshape_signed row_major c [-1;5] row_major = Throw runtime_error.
Proof.
  split; [apply ck_consistent; [repeat constructor; lia|left; reflexivity|reflexivity]|].
  repeat split; try (vm_compute; reflexivity). exists [], [3]. repeat constructor; lia.
Qed.

(** reshape with an extent of 0 to a shape of the same size divides by zero. *)
Theorem C20_reshape_zero_extent_refuted : exists (c : cont Z) s,
  consistent c /\ is_shape s /\ prod s = prod (ct_shape c) /\ c_reshape_signed row_major c s row_major = UB.
Proof. exact reshape_zero_refuted_lemma. Qed.
Print Assumptions C20_reshape_zero_extent_refuted.

(** reshape({-2, 4}) on 8 elements gives a shape of 4 elements; reshape({-1,-1,8})
    succeeds with huge extents, and elements outside the storage. *)
Theorem C20_reshape_negative_extents_refuted : exists (c c1 c2 : cont Z),
  consistent c /\ prod (ct_shape c) = 8 /\
  c_reshape_signed row_major c [-2;4] row_major = Ok c1 /\ ct_shape c1 = [1;4] /\ prod (ct_shape c1) <> 8 /\
  c_reshape_signed row_major c [-1;-1;8] row_major = Ok c2 /\ ~ accesses_inside c2.
Proof. exact reshape_bad_shape_refuted_lemma. Qed.
Print Assumptions C20_reshape_negative_extents_refuted.

(** The signed overload accepts the wrong layout for a static-layout type and then
    reports it; for a dynamic-layout type with the default argument it uses column
    major strides where the unsigned overload uses the default layout, so the same
    call reads different elements. *)
Theorem C20_reshape_signed_layout_refuted :
  (exists (c c' : cont Z), consistent c /\ ct_layout c = row_major /\
     c_reshape_signed row_major c [2;3] column_major = Ok c' /\ ct_layout c' = column_major /\
     element_offset (ct_strides c') [1;0] <> rank column_major (ct_shape c') [1;0]) /\
  (exists (c c' : cont Z), consistent c /\ c_reshape_unsigned dynamic row_major c [2;3] dynamic = Ok c /\
     c_reshape_signed dynamic c [2;3] dynamic = Ok c' /\ ct_layout c = row_major /\ ct_layout c' = dynamic /\
     elt c [0;1] = Ok 2 /\ elt c' [0;1] = Ok 3).
Proof. exact reshape_layout_refuted_lemma. Qed.
Print Assumptions C20_reshape_signed_layout_refuted.

(** C21. resize gives the requested shape and a consistent container; a resize to
    the current shape changes nothing. [rs] is whatever the storage does to its
    contents when its size changes. *)
Theorem C21_resize :
  forall (V : Type) (SL DL : layout) (rs : list V -> Z -> list V) (c : cont V) sh force,
  (forall d n, 0 <= n -> Z.of_nat (length (rs d n)) = n) ->
  consistent c -> (SL <> dynamic -> ct_layout c = SL) -> is_shape sh ->
  exists c', c_resize SL DL rs c sh force = Ok c' /\ consistent c' /\ ct_shape c' = sh /\
    (sh = ct_shape c -> force = false -> c' = c) /\
    (is_order (ct_layout c) -> ct_layout c' = ct_layout c).
Proof. exact resize_lemma. Qed.
Print Assumptions C21_resize.

(** C21. Any history of operations on a default-constructed container, some of
    which may throw: the container stays consistent and every in-bounds access is
    inside its storage. Missing: user-given strides and the signed reshapes
    excluded above, see the refutations. *)
Theorem C21_history_partial :
  forall (V : Type) (SL DL : layout) (rs : list V -> Z -> list V) (n : nat) (v : V) (os : list cop),
  (forall d n, 0 <= n -> Z.of_nat (length (rs d n)) = n) ->
  history_ok SL DL rs (c_default SL n v) os ->
  exists c, c_run SL DL rs (c_default SL n v) os = Ok c /\ consistent c /\ accesses_inside c.
Proof. exact history_full_lemma. Qed.
Print Assumptions C21_history_partial.

(** resize, write, a failing reshape, a good reshape, write, resize. *)
Example C21_case :
  let rs := fun (_ : list Z) n => repeat 0 (Z.to_nat n) in
  let os := [C_resize [2;3] false; C_write [1;2] 7; C_reshape_unsigned [4;2] row_major;
             C_reshape_signed [-1;2] row_major; C_write [2;0] 5] in
  history_ok row_major row_major rs (c_default row_major 0 0) os /\
  c_run row_major row_major rs (c_default row_major 0 0) os
    = Ok (mk_cont [3;2] [2;1] [4;1] row_major [0;0;0;0;5;7]).
Proof.
  split; [|vm_compute; reflexivity].
  cbn [history_ok op_ok]. split; [repeat constructor; lia|].
  intros c1 E1. vm_compute in E1. injection E1 as <-. split; [repeat constructor; lia|].
  intros c2 E2. vm_compute in E2. injection E2 as <-. split; [repeat constructor; lia|].
  intros c3 E3. vm_compute in E3. injection E3 as <-. split.
  { split; [right; exists [], [2]; repeat constructor; lia|].
    split; [repeat constructor; lia|]. split; [vm_compute; reflexivity|reflexivity]. }
  intros c4 E4. vm_compute in E4. injection E4 as <-. split; [repeat constructor; lia|]. intros; exact I.
Qed.

(** A container built with user-given strides that leave gaps owns too few values. *)
Theorem C21_custom_strides_refuted : exists (rs : list Z -> Z -> list Z) (c : cont Z),
  (forall d n, 0 <= n -> Z.of_nat (length (rs d n)) = n) /\
  c_run dynamic row_major rs (c_default dynamic 0 0) [C_resize_strides [2;2] [4;1]] = Ok c /\
  ct_strides c = [4;1] /\ ~ accesses_inside c /\ elt c [1;1] = UB.
Proof. exact custom_strides_refuted_lemma. Qed.
Print Assumptions C21_custom_strides_refuted.
