(** C87: views that hide elements behind a mask. *)
From Coq Require Import List ZArith Lia Bool.
From Verif Require Import Prelude Strides_Model Strides_Spec Broadcast_Model Broadcast_Spec Slice_Model Stepper_Model Stepper_Spec Container_Model Container_Spec
  Assign_Model Assign_Spec Semantic_Model Semantic_Spec Stepper4_Proofs Semantic3_Proofs Reduce_Spec Functor_Model Functor_Spec Functor4_Proofs
  Masked_Model Masked_Spec Masked2_Proofs Masked3_Proofs Masked4_Proofs Masked5_Proofs.
Import ListNotations.
Open Scope Z_scope.

(** Reading: element ix of a masked view is element ix of the data with its flag, the mask being broadcast; iteration yields the
    same in the order of the indices; a view broadcast to a larger shape repeats its elements. *)
Theorem C87_read : forall (V : Type) (L : layout) (k : mview V) (mem : list V) (mm : list bool) (v : Z -> V) (u : Z -> bool),
  is_order L -> usable mem mm k -> contents mem v -> contents mm u ->
  (forall sh ix, fits (mv_shape k) sh -> in_bounds sh ix ->
     let jx := bc_index (mv_shape k) ix in mv_at k mem mm ix = Ok (mk_masked (v (position (mv_data k) jx)) (visible v u k jx))) /\
  mv_values L k mem mm = Ok (map (fun ix => mk_masked (v (position (mv_data k) ix)) (visible v u k ix)) (indices_of L (mv_shape k))).
Proof. intros V L k mem mm v u HL Hk Hv Hu. split; [intros sh ix; eapply at_ok; eassumption|apply values_ok; assumption]. Qed.
Print Assumptions C87_read.

Example C87_case_read : usable [1; 2; 3; 4; 5; 6] [true; false; true] rows /\ mv_at rows [1; 2; 3; 4; 5; 6] [true; false; true] [1; 1] = Ok (mk_masked 5 false) /\
  mv_values column_major rows [1; 2; 3; 4; 5; 6] [true; false; true] =
    Ok [mk_masked 1 true; mk_masked 4 true; mk_masked 2 false; mk_masked 5 false; mk_masked 3 true; mk_masked 6 true].
Proof. split; [apply rows_assignable; reflexivity|]. split; reflexivity. Qed.

(** Filling: every visible element gets the value; hidden elements, the mask and the rest of the memory do not change.
    Also when the mask is an expression of the data, such as data > 0. *)
Theorem C87_fill : forall (V : Type) (hide : V -> V -> V * bool) (L : layout) (k : mview V) (x : V) (mem : list V) (mm : list bool) (v : Z -> V) (u : Z -> bool),
  is_order L -> assignable mem mm k -> contents mem v -> contents mm u ->
  exists mem', mv_fill hide L k x (mem, mm) = Ok (mem', mm) /\ shown_assigned k v u (fun _ => x) mem mem'.
Proof. intros. apply mv_fill_ok; assumption. Qed.
Print Assumptions C87_fill.

(** Compound assignment of a scalar. *)
Theorem C87_scalar : forall (V : Type) (hide : V -> V -> V * bool) (d : V) (L : layout) (f : V -> V -> V) (k : mview V) (x : V) (mem : list V) (mm : list bool) (v : Z -> V) (u : Z -> bool),
  is_order L -> assignable mem mm k -> contents mem v -> contents mm u ->
  exists mem', mv_scalar hide d L f k x (mem, mm) = Ok (mem', mm) /\ shown_assigned k v u (fun ix => f (v (position (mv_data k) ix)) x) mem mem'.
Proof. intros. apply mv_scalar_ok; assumption. Qed.
Print Assumptions C87_scalar.

Example C87_case_fill : assignable [1; 2; 3; 4; 5; 6] [true; false; true] rows /\ assignable [1; -2; 3] [] pos3 /\
  mv_fill hid row_major rows 9 ([1; 2; 3; 4; 5; 6], [true; false; true]) = Ok ([9; 2; 9; 9; 5; 9], [true; false; true]) /\
  mv_fill hid row_major pos3 (-9) ([1; -2; 3], []) = Ok ([-9; -2; -9], []) /\
  mv_scalar hid 0 column_major Z.sub rows 10 ([1; 2; 3; 4; 5; 6], [true; false; true]) = Ok ([-9; 2; -7; -6; 5; -4], [true; false; true]).
Proof. split; [apply rows_assignable; reflexivity|]. split; [apply pos3_assignable; reflexivity|]. repeat split; reflexivity. Qed.

(** The mask may be an expression that reads other elements: it then changes while the view is filled. *)
Theorem C87_lazy_refuted : ~ (forall (k : mview Z) (x : Z) (mem mem' : list Z) (mm mm' : list bool) (v : Z -> Z) (u : Z -> bool),
  usable mem mm k -> writable (mv_data k) mem -> contents mem v -> contents mm u ->
  mv_fill hid row_major k x (mem, mm) = Ok (mem', mm') -> shown_assigned k v u (fun _ => x) mem mem').
Proof.
  intros H. specialize (H odd3 (-9) [1; -2; 3] [-9; -2; 3] [] [] _ _ (odd3_usable [1; -2; 3] [] eq_refl) (all3_writable_z [1; -2; 3] eq_refl) (list_contents [1; -2; 3]) (flags_contents []) eq_refl).
  destruct H as (_ & H & _). specialize (H [2] ltac:(repeat constructor; lia) eq_refl). discriminate H.
Qed.
Print Assumptions C87_lazy_refuted.

(** Assignment of an expression, which may contain masked views: visible elements get the values of the expression. An element that is assigned a
    hidden value is the only one that may get hidden; if there is none the mask does not change. Missing: operands that overlap otherwise
    (C87_alias_refuted); hidden values when several elements share a flag (C87_shared_flag_refuted). *)
Theorem C87_assign_partial : forall (V : Type) (hide : V -> V -> V * bool) (d : V) (L : layout) (k : mview V) (e : mexp V) (mem : list V) (mm : list bool) (v : Z -> V) (u : Z -> bool),
  is_order L -> assignable mem mm k -> contents mem v -> contents mm u -> real_shape (mv_shape k) -> Forall real_shape (mx_shapes e) ->
  (forall s, In s (mx_shapes e) -> fits s (mv_shape k)) -> in_step mem mm k e ->
  let all_seen := forall ix, in_bounds (mv_shape k) ix -> visible v u k ix = true -> mx_value v u e ix <> None in
  all_seen \/ (own_flags k /\ flags_in_step k e) ->
  exists mem' mm', mv_assign hide d L k e (mem, mm) = Ok (mem', mm') /\ mv_assigned k v u (mx_value v u e) mem mm mem' mm' /\ (all_seen -> mm' = mm).
Proof.
  intros V hide d L k e mem mm v u HL Hk Hv Hu Hc Hr Hf He all_seen Hp. rewrite (proj1 (mv_assign_shape hide d L k e (mem, mm) Hc Hr) Hf).
  destruct (mv_store_ok hide d k mem mm v u Hk Hv Hu L e HL Hf He Hp) as (mem' & mm' & E & A). exists mem', mm'. split; [exact E|]. split; [exact A|].
  intros Ha. eapply no_flag_change; eassumption.
Qed.
Print Assumptions C87_assign_partial.

Example C87_case_assign : let e := MX_fun Z.add (MX_array two3) (MX_ext [3] (fun ix => mk_masked (10 * nth 0 ix 0) true)) in
  in_step [1; 2; 3; 4; 5; 6] [true; false; true] rows e /\ (forall s, In s (mx_shapes e) -> fits s (mv_shape rows)) /\ (forall ix, mx_value (at_list [1; 2; 3; 4; 5; 6]) (at_flags [true; false; true]) e ix <> None) /\
  mv_assign hid 0 row_major rows e ([1; 2; 3; 4; 5; 6], [true; false; true]) = Ok ([1; 2; 23; 4; 5; 26], [true; false; true]) /\
  (* assigning hidden values to a view with flags of its own *)
  own_flags mv3 /\ flags_in_step mv3 (MX_view mv3) /\
  mv_assign hid 0 row_major mv3 (MX_ext [3] (fun ix => mk_masked 7 (nth 0 ix 0 =? 0))) ([1; 2; 3], [true; false; true]) = Ok ([7; 2; 7], [true; false; false]).
Proof.
  split; [split; [|exact I]; split; [split; apply (two3_writable [1; 2; 3; 4; 5; 6] eq_refl)|intros ix Hb; left; rewrite bc_index_self by exact Hb; reflexivity]|].
  split; [intros s [<-|[<-|[]]]; [apply fits_self|exact fits_row]|]. split; [discriminate|]. split; [reflexivity|]. split; [exact mv3_own|]. split; [|reflexivity].
  intros ix Hb. left. reflexivity.
Qed.

(** Compound assignment of an expression. *)
Theorem C87_compound_partial : forall (V : Type) (hide : V -> V -> V * bool) (d : V) (L : layout) (f : V -> V -> V) (k : mview V) (e : mexp V) (mem : list V) (mm : list bool) (v : Z -> V) (u : Z -> bool),
  is_order L -> assignable mem mm k -> contents mem v -> contents mm u -> real_shape (mv_shape k) -> Forall real_shape (mx_shapes e) ->
  (forall s, In s (mx_shapes e) -> fits s (mv_shape k)) -> in_step mem mm k e ->
  (forall ix, in_bounds (mv_shape k) ix -> visible v u k ix = true -> mx_value v u e ix <> None) \/ (own_flags k /\ flags_in_step k e) ->
  exists mem' mm', mv_assign_op hide d L f k e (mem, mm) = Ok (mem', mm') /\
    mv_assigned k v u (fun ix => match mx_value v u e ix with Some y => Some (f (v (position (mv_data k) ix)) y) | None => None end) mem mm mem' mm'.
Proof. intros. apply compound_ok; assumption. Qed.
Print Assumptions C87_compound_partial.

Example C87_case_compound : mv_assign_op hid 0 row_major Z.mul rows (MX_ext [3] (fun ix => mk_masked (nth 0 ix 0) true)) ([1; 2; 3; 4; 5; 6], [true; false; true]) = Ok ([0; 2; 6; 0; 5; 12], [true; false; true]).
Proof. reflexivity. Qed.

(** Expressions of a shape that cannot be broadcast to that of the view. *)
Theorem C87_shape_error : forall (V : Type) (hide : V -> V -> V * bool) (d : V) (L : layout) (k : mview V) (e : mexp V) (s : list V * list bool),
  real_shape (mv_shape k) -> Forall real_shape (mx_shapes e) -> ~ (forall t, In t (mx_shapes e) -> fits t (mv_shape k)) ->
  mv_assign hide d L k e s = Throw broadcast_error.
Proof. intros V hide d L k e s Hc Hr. apply (mv_assign_shape hide d L k e s Hc Hr). Qed.
Print Assumptions C87_shape_error.

Example C87_case_shape_error : ~ (forall t, In t (mx_shapes (MX_ext [2] (fun _ => mk_masked 0 true))) -> fits t (mv_shape mv3)).
Proof. intros H. destruct (H [2]) as [_ F]; [left; reflexivity|]. specialize (F 0%nat). destruct F as [F|F]; discriminate F. Qed.

(** A masked view has no addresses, so no overlap is found: an operand that overlaps is read after it was changed. *)
Theorem C87_alias_refuted : ~ (forall (k : mview Z) (c : container) (mem mem' : list Z) (mm mm' : list bool) (v : Z -> Z) (u : Z -> bool),
  assignable mem mm k -> contents mem v -> contents mm u -> readable mem c -> k_shape c = mv_shape k ->
  mv_assign hid 0 row_major k (MX_array c) (mem, mm) = Ok (mem', mm') ->
  forall ix, in_bounds (mv_shape k) ix -> visible v u k ix = true -> rdz mem' (position (mv_data k) ix) = Ok (v (position c ix))).
Proof.
  intros H. specialize (H mv3 rev3 [1; 2; 3] [3; 2; 3] [true; true; true] [true; true; true] _ _ (mv3_assignable [1; 2; 3] [true; true; true] eq_refl eq_refl) (list_contents [1; 2; 3]) (flags_contents [true; true; true])
    (rev3_readable [1; 2; 3] eq_refl) eq_refl eq_refl [2] ltac:(repeat constructor; lia) eq_refl). discriminate H.
Qed.
Print Assumptions C87_alias_refuted.

(** When a mask is broadcast and the assignment of a hidden value hides the element, it hides the other elements with the same flag, which
    then are not assigned. *)
Theorem C87_shared_flag_refuted : forall hide : Z -> Z -> Z * bool, (forall x y, snd (hide x y) = false) ->
  ~ (forall (k : mview Z) (e : mexp Z) (mem mem' : list Z) (mm mm' : list bool) (v : Z -> Z) (u : Z -> bool),
       assignable mem mm k -> contents mem v -> contents mm u -> in_step mem mm k e -> mx_shapes e = [mv_shape k] ->
       mv_assign hide 0 row_major k e (mem, mm) = Ok (mem', mm') -> mv_assigned k v u (mx_value v u e) mem mm mem' mm').
Proof.
  intros hide Hh H. destruct (hide 1 7) as [y b] eqn:Ey. pose proof (Hh 1 7) as Eb. rewrite Ey in Eb. cbn in Eb. subst b.
  specialize (H rows (MX_ext [2; 3] (fun ix => mk_masked 7 (0 <? nth 0 ix 0))) [1; 2; 3; 4; 5; 6] [y; 2; 3; 4; 5; 6] [true; false; false] [false; false; false] _ _
    (rows_assignable [1; 2; 3; 4; 5; 6] [true; false; false] eq_refl eq_refl) (list_contents [1; 2; 3; 4; 5; 6]) (flags_contents [true; false; false]) I eq_refl).
  destruct H as (_ & _ & H & _); [|specialize (H [1; 0] 7 ltac:(repeat constructor; lia) eq_refl eq_refl); discriminate H].
  vm_compute. rewrite Ey. reflexivity.
Qed.
Print Assumptions C87_shared_flag_refuted.

(** Assignment of a masked view of the same type: through a temporary, so the two may overlap in any way. Missing: another
    shape (C87_copy_shape_refuted). *)
Theorem C87_copy_partial : forall (V : Type) (hide : V -> V -> V * bool) (d : V) (L : layout) (k r : mview V) (mem : list V) (mm : list bool) (v : Z -> V) (u : Z -> bool),
  is_order L -> assignable mem mm k -> contents mem v -> contents mm u -> usable mem mm r -> mv_shape r = mv_shape k ->
  ((forall ix, in_bounds (mv_shape k) ix -> visible v u k ix = true -> visible v u r ix = true) ->
     exists mem', mv_assign_view hide d L k r (mem, mm) = Ok (mem', mm) /\ shown_assigned k v u (fun ix => v (position (mv_data r) ix)) mem mem') /\
  (own_flags k -> (forall x, snd (hide d x) = false) ->
     exists mem' mm', mv_assign_view hide d L k r (mem, mm) = Ok (mem', mm') /\
       mv_assigned k v u (fun ix => if visible v u r ix then Some (v (position (mv_data r) ix)) else None) mem mm mem' mm').
Proof.
  intros V hide d L k r mem mm v u HL Hk Hv Hu Hr Hs. split; [intros Hvis; apply mv_assign_view_ok; assumption|intros Ho Hh; apply mv_assign_view_hidden; assumption].
Qed.
Print Assumptions C87_copy_partial.

Example C87_case_copy : usable [1; 2; 3] [true; false; true] rmv3 /\ assignable [1; 2; 3] [true; false; true] mv3 /\
  (forall ix, visible (at_list [1; 2; 3]) (at_flags [true; false; true]) mv3 ix = true -> visible (at_list [1; 2; 3]) (at_flags [true; false; true]) rmv3 ix = true) /\
  mv_assign_view hid 0 row_major mv3 rmv3 ([1; 2; 3], [true; false; true]) = Ok ([3; 2; 1], [true; false; true]).
Proof. split; [apply rmv3_usable; reflexivity|]. split; [apply mv3_assignable; reflexivity|]. split; [intros ix H; exact H|reflexivity]. Qed.

(** That assignment does not check or broadcast the shape: a view of one element is copied into the first element only; one with
    more elements is written past the end. *)
Theorem C87_copy_shape_refuted :
  ~ (forall (k r : mview Z) (mem mem' : list Z) (mm mm' : list bool) (v : Z -> Z) (u : Z -> bool),
       assignable mem mm k -> usable mem mm r -> contents mem v -> contents mm u -> fits (mv_shape r) (mv_shape k) ->
       (forall ix, in_bounds (mv_shape r) ix -> visible v u r ix = true) ->
       mv_assign_view hid 0 row_major k r (mem, mm) = Ok (mem', mm') -> shown_assigned k v u (fun ix => v (position (mv_data r) (bc_index (mv_shape r) ix))) mem mem') /\
  (exists (k r : mview Z) (mem : list Z) (mm : list bool), assignable mem mm k /\ usable mem mm r /\ mv_assign_view hid 0 row_major k r (mem, mm) = UB).
Proof.
  split.
  - intros H. specialize (H mv3 mv1 [1; 2; 3] [3; 2; 3] [true; true; true] [true; true; true] _ _ (mv3_assignable [1; 2; 3] [true; true; true] eq_refl eq_refl) (mv1_usable [1; 2; 3] [true; true; true] eq_refl eq_refl) (list_contents [1; 2; 3]) (flags_contents [true; true; true])).
    destruct H as (_ & H & _).
    + split; [cbn; lia|]. intros [|n]; [left|right]; reflexivity.
    + intros ix Hb. apply in1 in Hb. destruct Hb as (i & -> & Hi). replace i with 0 by lia. reflexivity.
    + reflexivity.
    + specialize (H [1] ltac:(repeat constructor; lia) eq_refl). discriminate H.
  - exists mv3, mrep3, [1; 2; 3], [true; true; true]. split; [apply mv3_assignable; reflexivity|]. split; [apply mrep3_usable; reflexivity|reflexivity].
Qed.
Print Assumptions C87_copy_shape_refuted.

(** The mask is not required to fit: with a mask that has more columns than the data, v(i, j) and the iteration (and so fill and the assignments) take
    different flags for the same element. *)
Theorem C87_wide_mask_refuted : ~ (forall (k : mview Z) (mem : list Z) (mm : list bool) (l : list (masked Z)),
  writable (mv_data k) mem -> (match mv_mask k with Stored c => readable mm c | Lazy _ c => readable mem c end) ->
  (forall ix, in_bounds (mv_shape k) ix -> in_bounds (k_shape (mask_cont (mv_mask k))) ix) ->
  mv_values row_major k mem mm = Ok l -> forall n ix, nth_error (indices_of row_major (mv_shape k)) n = Some ix -> exists x, nth_error l n = Some x /\ mv_at k mem mm ix = Ok x).
Proof.
  intros H. specialize (H wide [1; 2; 3; 4] [true; true; false; true; true; true] [mk_masked 1 true; mk_masked 2 true; mk_masked 3 false; mk_masked 4 true] (two2_writable [1; 2; 3; 4] eq_refl)).
  destruct (H (let W := two3_writable [0; 0; 0; 0; 0; 0] eq_refl in conj (proj1 (proj2 W)) (proj1 (proj2 (proj2 W))))) with (n := 2%nat) (ix := [1; 0]) as (x & E & F).
  - intros ix Hb. apply in2 in Hb. destruct Hb as (i & j & -> & Hi & Hj). repeat constructor; lia.
  - reflexivity.
  - reflexivity.
  - cbn in E. injection E as <-. discriminate F.
Qed.
Print Assumptions C87_wide_mask_refuted.
