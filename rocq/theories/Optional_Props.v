(** C86: arrays with missing values: elements of expressions, assignment, construction, access, and reductions. *)
From Coq Require Import List ZArith Bool Lia.
From Verif Require Import Prelude Strides_Model Strides_Spec Strides_Proofs Broadcast_Model Broadcast_Spec Stepper_Model Stepper_Spec Container_Model Container_Spec
  Assign_Model Assign_Spec Semantic_Model Semantic_Spec Semantic5_Proofs Semantic6_Proofs Reduce_Model Reduce_Spec
  Optional_Model Optional_Spec Optional_Proofs Optional2_Proofs Optional3_Proofs Optional4_Proofs.
Import ListNotations.
Open Scope Z_scope.

(** C86, elements: an element of an expression of optional arrays, plain arrays and scalars is missing exactly when an element it
    depends on is missing, and else has the value computed from the values; value(e) and has_value(e) say the same. The functors are those that
    give a missing result exactly for missing operands (all but that of where). *)
Theorem C86_elements : forall (A : Type) (g gf : Z -> setup) (mv : list A) (mf : list bool) (e : oexp A) (sh ix : list Z),
  valid_o g gf mv mf e -> all_strict e -> (forall s, In s (o_shapes e) -> fits s sh) -> in_bounds sh ix ->
  exists o v h, o_at mv mf e ix = Ok o /\ x_value ix (inst mv (val_of e)) = Ok v /\ x_value ix (inst mf (flag_of e)) = Ok h /\
    seen o = seen (mk_opt v h) /\ forall m, means mv mf ix e m <-> m = seen o.
Proof. exact elements_lemma. Qed.
Print Assumptions C86_elements.

(** [1, -, 3] + [10, 20, 30] = [11, -, 33] *)
Example C86_case_elements : valid_o g0 g0 [] [] e_sum /\ all_strict e_sum /\ (forall s, In s (o_shapes e_sum) -> fits s [3]) /\
  o_at [] [] e_sum [0] = Ok (mk_opt 11 true) /\ o_at [] [] e_sum [1] = Ok (mk_opt 0 false) /\ o_at [] [] e_sum [2] = Ok (mk_opt 33 true).
Proof.
  split; [apply e_sum_valid|]. split; [cbn; repeat split; apply apply_strict|]. split; [exact e_sum_fits|]. repeat split.
Qed.

(** where(c, x, y) is the exception: its element is present when the condition and the chosen operand are, but once it is assigned it is missing. *)
Theorem C86_where_refuted :
  exists (g gf : Z -> setup) (rv : list Z -> Z -> list Z) (rf : list bool -> Z -> list bool) (a a' : asm Z) (args : list (oexp Z)) (ix : list Z) (o : opt Z),
  setups_ok g /\ setups_ok gf /\ resizes rv /\ resizes rf /\ good_asm row_major row_major None a /\
  let e := OFun (opt_where 0 truth) (val_where 0 truth) args in
  valid_o g gf [] [] e /\ elsewhere e /\
  o_at [] [] e ix = Ok (mk_opt 5 true) /\
  o_operator_assign row_major row_major None row_major rv rf g gf a e (Done a') /\ in_bounds (as_shape a') ix /\ as_at a' ix = Ok o /\ o_has o = false.
Proof. exact where_lemma. Qed.
Print Assumptions C86_where_refuted.

(** C86, assignment: a = e resizes the values and the flags and makes every element of a that of e; operands that cannot be
    broadcast together are reported and a is unchanged. Missing from the full statement: operands stored in a (see below), and
    0-dimensional plain arrays, whose flags are a 0-dimensional generator (C14). *)
Theorem C86_assign_partial : forall (A : Type) (g gf : Z -> setup) (SV SF : layout) (D : option nat) (DL : layout) (rv : list A -> Z -> list A)
    (rf : list bool -> Z -> list bool) (a : asm A) (e : oexp A) (mv : list A) (mf : list bool),
  setups_ok g -> setups_ok gf -> is_order DL -> resizes rv -> resizes rf -> good_asm SV SF D a ->
  valid_o g gf mv mf e -> elsewhere e -> rank_matches D (val_of e) ->
  (compatible (o_shapes e) ->
     exists a', (forall r, o_operator_assign SV SF D DL rv rf g gf a e r <-> r = Done a') /\ good_asm SV SF D a' /\ holds mv mf e a') /\
  (~ compatible (o_shapes e) -> forall r, o_operator_assign SV SF D DL rv rf g gf a e r <-> r = Threw broadcast_error a).
Proof. exact assign_lemma. Qed.
Print Assumptions C86_assign_partial.

Example C86_case_assign :
  setups_ok g0 /\ resizes rs0 /\ resizes rsb /\ good_asm row_major row_major None (avec [7] [false]) /\ valid_o g0 g0 [] [] e_sum /\ elsewhere e_sum /\
  compatible (o_shapes e_sum) /\ means [] [] [0] e_sum (Some 11) /\ means [] [] [1] e_sum None.
Proof.
  split; [apply g0_ok|]. split; [apply rs0_ok|]. split; [apply rsb_ok|]. split; [apply avec_good; reflexivity|]. split; [apply e_sum_valid|].
  split; [cbn; tauto|]. split; [eapply broadcast_compatible; apply (bc_all [3] 1)|]. split.
  - apply (M_fun [] [] [0] oadd add2 _ [1; 10]). constructor; [constructor; reflexivity|]. constructor; [constructor; reflexivity|constructor].
  - eapply M_missing; [left; reflexivity|]. constructor. reflexivity.
Qed.

(** C86, a = e where e has the shape of a and reads a only as it is, as in a += e. Missing: other operands stored in a and a growing, where
    it fails. *)
Theorem C86_compound_partial : forall (A : Type) (g gf : Z -> setup) (SV SF : layout) (D : option nat) (DL : layout) (rv : list A -> Z -> list A)
    (rf : list bool -> Z -> list bool) (a : asm A) (e : oexp A),
  setups_ok g -> setups_ok gf -> good_asm SV SF D a ->
  valid_o g gf (ct_data (as_value a)) (ct_data (as_flag a)) e -> only_itself SV SF D a e -> broadcast_of (o_shapes e) (as_shape a) ->
  exists a', (forall r, o_operator_assign SV SF D DL rv rf g gf a e r <-> r = Done a') /\ good_asm SV SF D a' /\
    holds (ct_data (as_value a)) (ct_data (as_flag a)) e a'.
Proof. exact compound_lemma. Qed.
Print Assumptions C86_compound_partial.

(** [1, -, 3] += [10] *)
Example C86_case_compound : good_asm row_major row_major None (avec [1; 2; 3] [true; false; true]) /\
  valid_o g0 g0 [1; 2; 3] [true; false; true] e_plus /\ only_itself row_major row_major None (avec [1; 2; 3] [true; false; true]) e_plus /\
  broadcast_of (o_shapes e_plus) [3] /\ means [1; 2; 3] [true; false; true] [2] e_plus (Some 13) /\ means [1; 2; 3] [true; false; true] [1] e_plus None.
Proof.
  split; [apply avec_good; reflexivity|]. split; [exact e_plus_valid|]. split; [cbn; repeat split|]. split; [exact e_plus_bc|]. split.
  - apply (M_fun _ _ _ oadd add2 _ [3; 10]). constructor; [constructor; reflexivity|]. constructor; [constructor; reflexivity|constructor].
  - eapply M_missing; [left; reflexivity|]. constructor. reflexivity.
Qed.

(** An operand stored in a is read while a is written, contrary to arrays without missing values (C36): a = flip(a) *)
Theorem C86_alias_refuted :
  exists (g gf : Z -> setup) (rv : list Z -> Z -> list Z) (rf : list bool -> Z -> list bool) (a a' : asm Z) (e : oexp Z),
  setups_ok g /\ setups_ok gf /\ resizes rv /\ resizes rf /\ good_asm row_major row_major None a /\
  valid_o g gf (ct_data (as_value a)) (ct_data (as_flag a)) e /\ all_strict e /\ broadcast_of (o_shapes e) (as_shape a) /\
  o_operator_assign row_major row_major None row_major rv rf g gf a e (Done a') /\
  ~ holds (ct_data (as_value a)) (ct_data (as_flag a)) e a'.
Proof. exact alias_lemma. Qed.
Print Assumptions C86_alias_refuted.

(** and a += e loses the elements of a when e has a larger shape (contrary to C16). *)
Theorem C86_grow_refuted :
  exists (g gf : Z -> setup) (rv : list Z -> Z -> list Z) (rf : list bool -> Z -> list bool) (a a' : asm Z) (e : oexp Z),
  setups_ok g /\ setups_ok gf /\ resizes rv /\ resizes rf /\ good_asm row_major row_major None a /\
  let sum := OFun oadd add2 [o_self row_major row_major None a; e] in
  valid_o g gf (ct_data (as_value a)) (ct_data (as_flag a)) sum /\ elsewhere e /\ compatible (o_shapes sum) /\
  o_operator_assign row_major row_major None row_major rv rf g gf a sum (Done a') /\
  ~ holds (ct_data (as_value a)) (ct_data (as_flag a)) sum a'.
Proof. exact grow_lemma. Qed.
Print Assumptions C86_grow_refuted.

(** C86, construction: from a shape and an optional value, every element is that value; a layout that one of the two types
    does not have is reported. *)
Theorem C86_filled : forall (A : Type) (SV SF : layout) (D : option nat) (DL : layout) (rv : list A -> Z -> list A) (rf : list bool -> Z -> list bool)
    (sh : list Z) (o : opt A) (l : layout),
  is_order DL -> resizes rv -> resizes rf -> SV <> any -> SF <> any -> l <> any -> is_shape sh ->
  match D with Some n => length sh = n | None => True end ->
  ((SV <> dynamic -> l = SV) -> (SF <> dynamic -> l = SF) ->
     exists a, as_filled SV SF D DL rv rf sh o l = Ok a /\ good_asm SV SF D a /\ as_shape a = sh /\
       forall ix, in_bounds sh ix -> as_at a ix = Ok o) /\
  ((SV <> dynamic /\ l <> SV) \/ (SF <> dynamic /\ l <> SF) -> as_filled SV SF D DL rv rf sh o l = Throw runtime_error).
Proof. exact filled_lemma. Qed.
Print Assumptions C86_filled.

(** from an array of values (copied): these values, all present. *)
Theorem C86_of_values : forall (A : Type) (SV SF : layout) (D : option nat) (DL : layout) (rf : list bool -> Z -> list bool) (v : cont A),
  is_order DL -> resizes rf -> SF <> any -> well_formed SV D v -> (SF <> dynamic -> ct_layout v = SF) ->
  exists a, as_of_values SF D DL rf v = Ok a /\ good_asm SV SF D a /\ as_shape a = ct_shape v /\
    forall ix, in_bounds (ct_shape v) ix -> exists x, elt v ix = Ok x /\ as_at a ix = Ok (mk_opt x true).
Proof. exact of_values_lemma. Qed.
Print Assumptions C86_of_values.

Example C86_case_construct :
  as_filled row_major row_major None row_major rs0 rsb [3] (mk_opt 5 false) row_major = Ok (avec [5; 5; 5] [false; false; false]) /\
  as_filled row_major row_major None row_major rs0 rsb [3] (mk_opt 5 false) column_major = Throw runtime_error /\
  well_formed row_major None (vec [7; 8]) /\ as_of_values row_major None row_major rsb (vec [7; 8]) = Ok (avec [7; 8] [true; true]).
Proof. split; [reflexivity|]. split; [reflexivity|]. split; [apply vec_wf|reflexivity]. Qed.

(** From an array with a run-time number of dimensions that is moved, there is a single flag for all the elements. *)
Theorem C86_moved_refuted : exists (rf : list bool -> Z -> list bool) (v : cont Z) (a b : asm Z),
  resizes rf /\ well_formed row_major None v /\ as_of_moved row_major None row_major rf v = Ok a /\
  as_at a [0] = Ok (mk_opt 7 true) /\ as_at a [1] = Ok (mk_opt 8 true) /\
  as_flat a 1 = UB /\ as_set a [0] (mk_opt 7 false) = Ok b /\ as_at b [1] = Ok (mk_opt 8 false).
Proof. exact moved_lemma. Qed.
Print Assumptions C86_moved_refuted.

(** C86, writing an element changes this element, its value and its flag, and no other. *)
Theorem C86_write : forall (A : Type) (SV SF : layout) (D : option nat) (a : asm A) (ix : list Z) (o : opt A),
  good_asm SV SF D a -> in_bounds (as_shape a) ix ->
  exists a', as_set a ix o = Ok a' /\ good_asm SV SF D a' /\ as_shape a' = as_shape a /\ as_at a' ix = Ok o /\
    forall jx, in_bounds (as_shape a) jx -> jx <> ix -> exists o', as_at a jx = Ok o' /\ as_at a' jx = Ok o'.
Proof. exact set_lemma. Qed.
Print Assumptions C86_write.

Example C86_case_write : good_asm row_major row_major None (avec [1; 2; 3] [true; false; true]) /\ in_bounds [3] [1] /\
  as_set (avec [1; 2; 3] [true; false; true]) [1] (mk_opt 9 true) = Ok (avec [1; 9; 3] [true; true; true]).
Proof. split; [apply avec_good; reflexivity|]. split; [constructor; [lia|constructor]|reflexivity]. Qed.

(** C86, reshape keeps the sequence of the elements, with their flags. *)
Theorem C86_reshape : forall (A : Type) (L DL : layout) (a : asm A) (sh : list Z),
  is_order L -> good_asm L L None a -> Forall (fun d => 0 <= d < 2 ^ 64) sh ->
  (prod sh = prod (as_shape a) ->
     exists a', as_reshape L L DL a sh L = Ok a' /\ as_shape a' = sh /\ ct_shape (as_flag a') = sh /\
       forall ix jx, in_bounds (as_shape a) ix -> in_bounds sh jx -> rank L (as_shape a) ix = rank L sh jx ->
         exists o, as_at a ix = Ok o /\ as_at a' jx = Ok o) /\
  (prod sh <> prod (as_shape a) -> as_reshape L L DL a sh L = Throw runtime_error).
Proof. exact reshape_lemma. Qed.
Print Assumptions C86_reshape.

Example C86_case_reshape : good_asm row_major row_major None (avec [1; 2; 3; 4] [true; false; true; true]) /\
  as_reshape row_major row_major row_major (avec [1; 2; 3; 4] [true; false; true; true]) [2; 2] row_major =
    Ok (mk_asm (grid Z row_major [1; 2; 3; 4]) (grid bool row_major [true; false; true; true])).
Proof. split; [apply avec_good; reflexivity|vm_compute; reflexivity]. Qed.

(** C86, flat access: flat(i) is the i-th element in the order of the layout, when values and flags have the same. *)
Theorem C86_flat_partial : forall (A : Type) (L : layout) (D : option nat) (a : asm A) (ix : list Z),
  is_order L -> good_asm L L D a -> in_bounds (as_shape a) ix -> exists o, as_flat a (rank L (as_shape a) ix) = Ok o /\ as_at a ix = Ok o.
Proof. exact flat_lemma. Qed.
Print Assumptions C86_flat_partial.

Example C86_case_flat : good_asm row_major row_major None (avec [1; 2; 3] [true; false; true]) /\ as_flat (avec [1; 2; 3] [true; false; true]) 2 = Ok (mk_opt 3 true).
Proof. split; [apply avec_good; reflexivity|reflexivity]. Qed.

(** When they have not, it combines the value of an element with the flag of another. *)
Theorem C86_flat_refuted : exists (a : asm Z) (ix : list Z) (o p : opt Z),
  good_asm row_major column_major None a /\ in_bounds (as_shape a) ix /\ as_at a ix = Ok o /\
  as_flat a (rank row_major (as_shape a) ix) = Ok p /\ seen o <> seen p.
Proof. exact flat_refuted_lemma. Qed.
Print Assumptions C86_flat_refuted.

(** C86, value() and has_value() of a container of optional values (xarray_optional) are its values and its flags, for a static layout. *)
Theorem C86_value_partial : forall (A : Type) (SL DL : layout) (rv : list A -> Z -> list A) (rf : list bool -> Z -> list bool) (a : ocont A),
  is_order SL -> is_order DL -> keeps rv -> keeps rf -> good_ocont SL a ->
  exists v f, oc_value SL DL rv a = Ok v /\ oc_has_value SL DL rf a = Ok f /\ ct_shape v = oc_shape a /\ ct_shape f = oc_shape a /\
    forall ix, in_bounds (oc_shape a) ix -> exists o, oc_at a ix = Ok o /\ elt v ix = Ok (o_value o) /\ elt f ix = Ok (o_has o).
Proof. exact adaptor_lemma. Qed.
Print Assumptions C86_value_partial.

Example C86_case_value : good_ocont column_major columns /\ keeps rs0 /\
  (let* v := oc_value column_major row_major rs0 columns in elt v [0; 1]) = Ok 3 /\ oc_at columns [0; 1] = Ok (mk_opt 3 true).
Proof.
  split; [exists [1; 2]; split; [exact (grid_wf Z column_major [1; 2; 3; 4] (or_intror eq_refl) eq_refl)|exact (grid_wf bool column_major [true; false; true; true] (or_intror eq_refl) eq_refl)]|].
  split; [apply keeps_rs0|]. split; reflexivity.
Qed.

(** With a dynamic layout that is column major at run time, they are in the wrong order. *)
Theorem C86_value_refuted :
  exists (rv : list Z -> Z -> list Z) (rf : list bool -> Z -> list bool) (a : ocont Z) (v : cont Z) (f : cont bool) (ix : list Z) (o : opt Z) (x : Z) (h : bool),
  resizes rv /\ resizes rf /\ keeps rv /\ keeps rf /\ good_ocont dynamic a /\
  oc_value dynamic row_major rv a = Ok v /\ oc_has_value dynamic row_major rf a = Ok f /\ in_bounds (oc_shape a) ix /\
  oc_at a ix = Ok o /\ elt v ix = Ok x /\ elt f ix = Ok h /\ x <> o_value o /\ h <> o_has o.
Proof. exact adaptor_refuted_lemma. Qed.
Print Assumptions C86_value_refuted.

(** C86, lazy reductions: an element of the result is missing exactly when one of the elements it combines is; else it is the reduction of their
    values. The values and flags of the reduction say the same. *)
Theorem C86_reduce : forall (A : Type) (d : A) (f : A -> A -> A) (i : A) (dflt : opt A) (dv : A) (df : bool) (esh : list Z)
    (e : sexp (opt A)) (v : sexp A) (h : sexp bool) (ev : list Z -> opt A) (axes : list Z) (keep : bool) (initial : option A),
  Z.of_nat (length esh) < 2 ^ 64 -> is_shape esh -> valid_axes (length esh) axes ->
  has_elements esh e ev -> has_elements esh v (fun ix => o_value (ev ix)) -> has_elements esh h (fun ix => o_has (ev ix)) ->
  law_if_needed (val_f f i) axes initial ->
  exists r rv rh, make_reducer esh axes keep (option_map (fun x => mk_opt x true) initial) = Ok r /\
    make_reducer esh axes keep initial = Ok rv /\ make_reducer esh axes keep (option_map (fun _ => true) initial) = Ok rh /\
    forall ix, in_bounds (red_shape keep axes esh) ix ->
      exists o x b, rs_element (opt_f d f i) dflt esh (x_ops esh e) (x_deref e) r (x_begin e) ix = Ok o /\
        rs_element (val_f f i) dv esh (x_ops esh v) (x_deref v) rv (x_begin v) ix = Ok x /\
        rs_element flag_f df esh (x_ops esh h) (x_deref h) rh (x_begin h) ix = Ok b /\
        seen o = seen (mk_opt x b) /\
        seen o = let es := map ev (block row_major keep axes esh ix) in
                 if forallb o_has es then Some (fold_left f (map o_value es) (match initial with Some x => x | None => i end)) else None.
Proof. exact reduce_lemma. Qed.
Print Assumptions C86_reduce.

(** The sums of the columns of [[0, -, 2], [3, 4, 5]]: 3, missing, 7 *)
Example C86_case_reduce :
  valid_axes 2 [0] /\ law_if_needed (val_f Z.add 0) [0] None /\
  map (fun ix => seen (reduced (opt_f 0 Z.add 0) None row_major false [0] [2; 3] six_o ix)) (row_indices [3]) = [Some 3; None; Some 7] /\
  has_elements [2; 3] (XIndexed [2; 3] six_o) six_o.
Proof.
  split; [exact Reduce7_Proofs.six_axes|]. split; [left; split; [cbn; lia|reflexivity]|]. split; [vm_compute; reflexivity|].
  split; [split; [split; [cbn; lia|auto]|discriminate]|]. intros jx Hb. apply in_bounds2 in Hb. destruct Hb as (i & j & -> & Hi & Hj). cbn. reflexivity.
Qed.
