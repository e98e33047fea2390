(** C84: views and adaptors through a functor. *)
From Coq Require Import List ZArith Lia Bool.
From Verif Require Import Prelude Strides_Model Strides_Spec Broadcast_Model Broadcast_Spec Slice_Model Stepper_Model Stepper_Spec Container_Model Container_Spec
  Assign_Model Assign_Spec Semantic_Model Semantic_Spec Semantic_Proofs Semantic2_Proofs Semantic3_Proofs Semantic4_Proofs Semantic5_Proofs Stepper_Proofs Stepper4_Proofs Reduce_Spec Functor_Model Functor_Spec Functor_Proofs Functor2_Proofs Functor3_Proofs Functor4_Proofs.
Import ListNotations.
Open Scope Z_scope.

(** Reading: the element of a functor view at an index is what the functor gives of the
    element underneath; iteration yields these values in the order of the indices. *)
Theorem C84_read : forall (T M : Type) (a : accessor T M) (L : layout) (c : container) (mem : list T) (v : Z -> T),
  is_order L -> readable mem c -> contents mem v ->
  (forall ix, in_bounds (k_shape c) ix -> fv_read a c mem ix = Ok (acc_get a (v (position c ix)))) /\
  fv_values a L c mem = Ok (map (fun ix => acc_get a (v (position c ix))) (indices_of L (k_shape c))).
Proof. intros. apply values_lemma; assumption. Qed.
Print Assumptions C84_read.

Example C84_case_read : readable z3 rev3 /\ contents z3 at3 /\ fv_values (imag_part Z) row_major rev3 z3 = Ok [30; 20; 10].
Proof. split; [apply rev3_readable; reflexivity|]. split; [exact z3_contents|reflexivity]. Qed.

(** Filling a functor view, and compound assignments with a scalar: every element of the
    view once, nothing else. *)
Theorem C84_fill : forall (T M : Type) (a : accessor T M) (c : container) (mem : list T) (v : Z -> T) (L : layout) (x : M),
  is_order L -> writable c mem -> contents mem v ->
  exists mem', fv_fill L a c x mem = Ok mem' /\ assigned a c (fun _ => x) v mem mem'.
Proof. intros. eapply fill_ok; eassumption. Qed.
Print Assumptions C84_fill.

Theorem C84_scalar : forall (T M : Type) (a : accessor T M) (c : container) (mem : list T) (v : Z -> T) (L : layout) (f : M -> M),
  is_order L -> writable c mem -> contents mem v ->
  exists mem', fv_scalar L f a c mem = Ok mem' /\ assigned a c (fun ix => f (acc_get a (v (position c ix)))) v mem mem'.
Proof. intros. eapply scalar_ok; eassumption. Qed.
Print Assumptions C84_scalar.

Example C84_case_fill : writable all3 z3 /\ fv_fill row_major (real_part Z) all3 7 z3 = Ok [(7, 10); (7, 20); (7, 30)] /\
  fv_scalar row_major (Z.mul 5) (imag_part Z) all3 z3 = Ok [(1, 50); (2, 100); (3, 150)].
Proof. split; [exact all3_writable|]. split; reflexivity. Qed.

(** Assignment of an expression whose operands may be views of the same memory through the
    same or another functor: the expression is evaluated on the memory as it was.
    Missing: strides of different signs (see C84_mixed_strides_refuted), functors that
    return proxies (C84_proxy_partial). *)
Theorem C84_assign_partial : forall (T M : Type) (w : Z) (L DT : layout) (a : accessor T M) (c : container) (e : fexp T M) (mem : list T) (v : Z -> T) (o : Z),
  is_order L -> is_order DT -> writable c mem -> contents mem v -> acc_off a = Some o -> 0 <= o < w -> one_direction c ->
  real_shape (k_shape c) -> Forall real_shape (fx_shapes e) -> (forall s, In s (fx_shapes e) -> fits s (k_shape c)) ->
  fx_views (fun b k => readable mem k /\ one_direction k /\ inside w b /\ separate a b) e ->
  exists mem', fv_assign w L DT a c e mem = Ok mem' /\ assigned a c (fx_value v e) v mem mem'.
Proof. intros. eapply assign_lemma; eassumption. Qed.
Print Assumptions C84_assign_partial.

Example C84_case_assign :
  let e := FX_fun Z.add (FX_view (real_part Z) rev3) (FX_view (imag_part Z) all3) in
  one_direction all3 /\ one_direction rev3 /\ separate (real_part Z) (imag_part Z) /\ inside 2 (imag_part Z) /\
  (forall s, In s (fx_shapes e) -> fits s (k_shape all3)) /\
  fv_assign 2 row_major row_major (real_part Z) all3 e z3 = Ok [(13, 10); (22, 20); (31, 30)].
Proof.
  split; [left; repeat constructor; lia|]. split; [right; repeat constructor; lia|]. split; [intros _ [x y] m; reflexivity|]. split; [cbn; lia|].
  split; [intros s [<-|[<-|[]]]; apply fits_self|reflexivity].
Qed.

(** Compound assignment of an expression, for any strides. *)
Theorem C84_compound : forall (T M : Type) (w : Z) (L DT : layout) (f : M -> M -> M) (a : accessor T M) (c : container) (e : fexp T M) (mem : list T) (v : Z -> T) (o : Z),
  is_order L -> is_order DT -> writable c mem -> contents mem v -> acc_off a = Some o -> 0 <= o < w ->
  real_shape (k_shape c) -> Forall real_shape (fx_shapes e) -> (forall s, In s (fx_shapes e) -> fits s (k_shape c)) ->
  fx_views (fun _ k => readable mem k) e ->
  exists mem', fv_assign_op w L DT f a c e mem = Ok mem' /\
    assigned a c (fun ix => f (acc_get a (v (position c ix))) (fx_value v e ix)) v mem mem'.
Proof. intros. eapply compound_lemma; eassumption. Qed.
Print Assumptions C84_compound.

Example C84_case_compound : writable all3 z3 /\ readable z3 rev3 /\
  fv_assign_op 2 row_major row_major Z.sub (real_part Z) all3 (FX_view (real_part Z) rev3) z3 = Ok [(-2, 10); (0, 20); (2, 30)].
Proof. split; [exact all3_writable|]. split; [apply rev3_readable; reflexivity|reflexivity]. Qed.

(** Real and imaginary parts of a container of complex numbers: assigning one leaves the
    other as it was, also when the right-hand side reads both. *)
Theorem C84_complex : forall (M : Type) (SL : layout) (D : option nat) (L DT : layout) (a : cont (M * M)) (re im : list Z -> M) (v : Z -> M * M)
    (acc : accessor (M * M) M) (e : fexp (M * M) M),
  is_order L -> is_order DT -> well_formed SL D a -> real_shape (ct_shape a) -> parts a re im -> contents (ct_data a) v ->
  In acc [real_part M; imag_part M] -> Forall real_shape (fx_shapes e) -> (forall s, In s (fx_shapes e) -> fits s (ct_shape a)) ->
  fx_views (fun b k => In b [real_part M; imag_part M] /\ readable (ct_data a) k /\ one_direction k) e ->
  exists d, fv_assign 2 L DT acc (c_strided a) e (ct_data a) = Ok d /\
    (acc = real_part M -> parts (with_data a d) (fx_value v e) im) /\ (acc = imag_part M -> parts (with_data a d) re (fx_value v e)).
Proof. intros. eapply complex_lemma; eassumption. Qed.
Print Assumptions C84_complex.

Example C84_case_complex : well_formed row_major (Some 1%nat) (zvec z3) /\ real_shape (ct_shape (zvec z3)) /\
  parts (zvec z3) (fun ix => nth 0 ix 0 + 1) (fun ix => 10 * (nth 0 ix 0 + 1)) /\
  fv_assign 2 row_major row_major (imag_part Z) (c_strided (zvec z3)) (FX_view (real_part Z) rev3) z3 = Ok [(1, 3); (2, 2); (3, 1)].
Proof. split; [apply zvec_wf; reflexivity|]. split; [exact real3|]. split; [exact zvec_parts|reflexivity]. Qed.

(** Expressions of another shape. *)
Theorem C84_shape_error : forall (T M : Type) (w : Z) (L DT : layout) (a : accessor T M) (c : container) (e : fexp T M) (mem : list T),
  real_shape (k_shape c) -> Forall real_shape (fx_shapes e) -> ~ (forall s, In s (fx_shapes e) -> fits s (k_shape c)) ->
  fv_assign w L DT a c e mem = Throw broadcast_error.
Proof. intros T M w L DT a c e mem Hc Hr. apply (assign_shape w L DT a c e mem Hc Hr). Qed.
Print Assumptions C84_shape_error.

Example C84_case_shape_error : ~ (forall s, In s (fx_shapes (FX_ext (T:=Z * Z) false [2] (fun _ => 0))) -> fits s (k_shape all3)).
Proof. intros H. destruct (H [2]) as [_ F]; [left; reflexivity|]. specialize (F 0%nat). destruct F as [F|F]; discriminate F. Qed.

(** Functors that return proxies have no address: the assignment is done in place. It is
    right when each element of an operand that is also an element of the view is the one
    being assigned. Missing: other operands (see C84_proxy_refuted). *)
Theorem C84_proxy_partial : forall (T M : Type) (w : Z) (L DT : layout) (a : accessor T M) (c : container) (e : fexp T M) (mem : list T) (v : Z -> T),
  is_order L -> writable c mem -> contents mem v -> acc_off a = None -> real_shape (k_shape c) -> Forall real_shape (fx_shapes e) ->
  (forall s, In s (fx_shapes e) -> fits s (k_shape c)) -> fx_views (fun _ k => aligned c mem k) e ->
  exists mem', fv_assign w L DT a c e mem = Ok mem' /\ assigned a c (fx_value v e) v mem mem'.
Proof. intros. eapply proxy_lemma; eassumption. Qed.
Print Assumptions C84_proxy_partial.

Example C84_case_proxy : aligned all3 [1; 2; 3] all3 /\
  fv_assign 1 row_major row_major proxy all3 (FX_fun Z.add (FX_view proxy all3) (FX_view proxy all3)) [1; 2; 3] = Ok [2; 4; 6].
Proof. split; [|reflexivity]. split; [apply all3_readable; reflexivity|]. intros ix Hb. left. rewrite bc_index_self by exact Hb. reflexivity. Qed.

(** With proxies an operand that overlaps otherwise is read after it was changed. *)
Theorem C84_proxy_refuted : ~ (forall (c k : container) (mem mem' : list Z),
  writable c mem -> readable mem k -> k_shape k = k_shape c ->
  fv_assign 1 row_major row_major proxy c (FX_view proxy k) mem = Ok mem' ->
  forall ix, in_bounds (k_shape c) ix -> rdz mem' (position c ix) = rdz mem (position k ix)).
Proof.
  intros H. specialize (H all3 rev3 [1; 2; 3] [3; 2; 3] (all3_writable_z [1; 2; 3] eq_refl) (rev3_readable [1; 2; 3] eq_refl) eq_refl eq_refl [2]).
  discriminate H. repeat constructor; lia.
Qed.
Print Assumptions C84_proxy_refuted.

(** With strides of different signs the range of addresses is wrong, and an operand that
    overlaps is read after it was changed. *)
Theorem C84_mixed_strides_refuted : ~ (forall (c k : container) (mem mem' : list Z) (v : Z -> Z),
  writable c mem -> contents mem v -> readable mem k -> fits (k_shape k) (k_shape c) ->
  fv_assign 1 row_major row_major whole c (FX_fun Z.add (FX_view whole k) (FX_scalar 1)) mem = Ok mem' ->
  forall ix, in_bounds (k_shape c) ix -> rdz mem' (position c ix) = Ok (v (position k (bc_index (k_shape k) ix)) + 1)).
Proof.
  intros H. specialize (H mixed one_elt [5; 6; 7; 8] [9; 9; 10; 9] _ (mixed_writable [5; 6; 7; 8] eq_refl) (list_contents _) (one_readable [5; 6; 7; 8] eq_refl) one_fits eq_refl [1; 1]).
  discriminate H. repeat constructor; lia.
Qed.
Print Assumptions C84_mixed_strides_refuted.

(** Two iterators over the same view are equal when they are at the same place. *)
Theorem C84_iterator_equality : forall p q, fi_eq p q = true <-> p = q.
Proof. exact Z.eqb_eq. Qed.
Print Assumptions C84_iterator_equality.

(** The order of the iterators is inverted: an iterator is never before a later one, and
    it is before itself. *)
Theorem C84_iterator_order_refuted : ~ (forall p q, fi_lt p q = true <-> p < q) /\ forall p q, fi_lt p q = true <-> q <= p.
Proof.
  assert (G : forall p q, fi_lt p q = true <-> q <= p).
  { intros p q. unfold fi_lt, fi_less_than. rewrite negb_true_iff, Z.ltb_ge. reflexivity. }
  split; [|exact G]. intros H. pose proof (proj2 (H 0 1) ltac:(lia)) as X. apply G in X. lia.
Qed.
Print Assumptions C84_iterator_order_refuted.

(** Assignment to an adaptor: the container is resized to the shape of the expression and
    the functor applied element by element; the rest of an element keeps its value when the
    shape does not change. Missing: containers of dynamic layout, functions of the same
    layout as the container with operands of different shapes (both refuted below). *)
Theorem C84_adaptor_partial : forall (T M : Type) (SL : layout) (D : option nat) (DL DT : layout) (rs : list T -> Z -> list T) (a : accessor T M)
    (c : cont T) (e : adx M) (sh : list Z) (f : list Z -> M),
  is_order SL -> is_order DL -> is_order DT -> resizes rs -> well_formed SL D c -> ad_wf e -> ad_value e sh f -> ad_same SL e sh ->
  match D with Some n => length sh = n | None => True end ->
  exists c', fa_assign SL DL DT rs a c e = Ok c' /\ well_formed SL D c' /\ ct_shape c' = sh /\
    (forall ix, in_bounds sh ix -> exists t, elt c' ix = Ok (acc_put a t (f ix))) /\
    (sh = ct_shape c -> forall ix t, in_bounds sh ix -> elt c ix = Ok t -> elt c' ix = Ok (acc_put a t (f ix))).
Proof. intros. eapply adaptor_lemma; eassumption. Qed.
Print Assumptions C84_adaptor_partial.

Example C84_case_adaptor : resizes refill /\ well_formed row_major None (m23 [1; 2; 3; 4; 5; 6]) /\ ad_wf (AD_cont (m3 [7; 8; 9])) /\
  fa_assign row_major row_major row_major refill whole (m23 [1; 2; 3; 4; 5; 6]) (AD_cont (m3 [7; 8; 9])) = Ok (m3 [7; 8; 9]).
Proof.
  split; [exact refill_resizes|]. split; [apply m23_wf; [right; reflexivity|reflexivity]|]. split; [split; [apply m3_wf; reflexivity|exact real3]|reflexivity].
Qed.

(** Containers of dynamic layout with different strides: the values are taken in the order
    of the storage, not of the indices. *)
Theorem C84_adaptor_dynamic_refuted : ~ (forall (c b : cont Z) c', well_formed dynamic None c -> operand_wf b -> ct_shape b = ct_shape c ->
  fa_assign dynamic row_major row_major refill whole c (AD_cont b) = Ok c' -> forall ix, in_bounds (ct_shape c) ix -> elt c' ix = elt b ix).
Proof.
  intros H. specialize (H (d22c [0; 0; 0; 0]) (d22r [1; 2; 3; 4]) (d22c [1; 2; 3; 4]) (d22_wf true [0; 0; 0; 0] eq_refl)).
  specialize (H (conj (d22_wf false [1; 2; 3; 4] eq_refl) real22) eq_refl eq_refl [0; 1]). discriminate H. repeat constructor; lia.
Qed.
Print Assumptions C84_adaptor_dynamic_refuted.

(** A function that broadcasts, of the same layout as the container: the elements of the
    storages are combined one by one, as many as the first operand has. With the smaller
    operand first only some elements are assigned; with the larger one first, the smaller
    one is read past its end. *)
Theorem C84_adaptor_broadcast_refuted :
  ~ (forall (c : cont Z) (e : adx Z) sh f c', well_formed row_major None c -> ad_wf e -> ad_value e sh f ->
       fa_assign row_major row_major row_major refill whole c e = Ok c' -> forall ix, in_bounds sh ix -> elt c' ix = Ok (f ix)) /\
  (exists (c : cont Z) (e : adx Z), well_formed row_major None c /\ ad_wf e /\ ad_shape e = Ok (ct_shape c) /\
       fa_assign row_major row_major row_major refill whole c e = UB).
Proof.
  split.
  - intros H. specialize (H (m23 [0; 0; 0; 0; 0; 0]) (AD_fun Z.add (m3 [10; 20; 30]) (m23 [1; 2; 3; 4; 5; 6])) _ _ (m23 [11; 22; 33; 0; 0; 0]) (m23_wf None [0; 0; 0; 0; 0; 0] (or_intror eq_refl) eq_refl)
      (conj (conj (m3_wf [10; 20; 30] eq_refl) real3) (conj (m23_wf None [1; 2; 3; 4; 5; 6] (or_intror eq_refl) eq_refl) real23))
      (fun_value_23 [1; 2; 3; 4; 5; 6] [10; 20; 30] eq_refl eq_refl) eq_refl [1; 0]). discriminate H. repeat constructor; lia.
  - exists (m23 [0; 0; 0; 0; 0; 0]), (AD_fun Z.add (m23 [1; 2; 3; 4; 5; 6]) (m3 [10; 20; 30])).
    split; [apply m23_wf; [right|]; reflexivity|]. split; [|split; reflexivity].
    exact (conj (conj (m23_wf None [1; 2; 3; 4; 5; 6] (or_intror eq_refl) eq_refl) real23) (conj (m3_wf [10; 20; 30] eq_refl) real3)).
Qed.
Print Assumptions C84_adaptor_broadcast_refuted.
