(** C75: the Fourier transforms. *)
From Coq Require Import List ZArith Lia Reals.
From Verif Require Import Prelude Strides_Model Strides_Spec Access_Model Container_Model Container_Spec SView_Spec AxisIt_Spec Fft_Model Fft_Spec Fft_Proofs Fft2_Proofs Fft4_Proofs Fft5_Proofs.
Import ListNotations.
Open Scope Z_scope.

(** The pairs of real numbers, with cos and sin, satisfy the laws of the arithmetic that the theorems below assume. *)
Example C75_complex_numbers : complex_laws complex (1%R, 0%R) (fun x => (- fst x, - snd x)%R).
Proof. exact complex_is_complex. Qed.
Print Assumptions C75_complex_numbers.

(** C75. The transform of a line, by radix2 if its length is a power of two and by Bluestein's algorithm otherwise, is
    its discrete Fourier transform, for every length. *)
Theorem C75_transform : forall (K : Type) (A : arith K) (one : K) (opp : K -> K) (x : list K),
  complex_laws A one opp -> (0 < length x)%nat -> Z.of_nat (length x) < 2 ^ 62 ->
  transform A x = Ok (list_of (length x) (dft A (length x) (item_of A x))).
Proof.
  intros K A one opp x L Hn Hb. rewrite <- (transform_ok A one opp L (length x) (item_of A x) Hn Hb). f_equal. symmetry. apply list_of_item.
Qed.
Print Assumptions C75_transform.

(** C75. radix2 alone: the transform if the length is a power of two, an exception otherwise. *)
Theorem C75_radix2 : forall (K : Type) (A : arith K) (one : K) (opp : K -> K) (x : list K),
  complex_laws A one opp ->
  (forall k, length x = (2 ^ k)%nat -> radix2 A (S k) x = Ok (list_of (length x) (dft A (length x) (item_of A x)))) /\
  ((forall k, length x <> (2 ^ k)%nat) -> radix2 A 1 x = Throw runtime_error).
Proof.
  intros K A one opp x L. split.
  - intros k E. pose proof (radix2_ok A one opp L k (S k) (item_of A x) (Nat.lt_succ_diag_r k)) as H. rewrite <- E in H. rewrite <- H. f_equal. symmetry. apply list_of_item.
  - intros H. apply radix2_throws; [lia|]. intros (k & E). exact (H k E).
Qed.
Print Assumptions C75_radix2.

(** The lengths 4 and 3. *)
Example C75_case_transform : forall x0 x1 x2 x3 : R * R,
  transform complex [x0; x1; x2; x3] = Ok (list_of 4 (dft complex 4 (item_of complex [x0; x1; x2; x3]))) /\
  transform complex [x0; x1; x2] = Ok (list_of 3 (dft complex 3 (item_of complex [x0; x1; x2]))).
Proof.
  intros. split; [exact (C75_transform _ _ _ _ [x0; x1; x2; x3] complex_is_complex ltac:(cbn; lia) ltac:(vm_compute; reflexivity))|].
  exact (C75_transform _ _ _ _ [x0; x1; x2] complex_is_complex ltac:(cbn; lia) ltac:(vm_compute; reflexivity)).
Qed.

(** C75. fft(e, axis): every line of the result along the axis is the transform of that line of e. Missing from the full
    statement: the axes of which slices_ok is not true (see the refutation), empty arrays, rounding. *)
Theorem C75_fft_partial : forall (K : Type) (A : arith K) (one : K) (opp : K -> K) (l : layout) (c : cont K) (sh : list Z) (x : list Z -> K) (axis : Z) (p n : nat),
  complex_laws A one opp -> is_order l -> array_of l c sh x ->
  Forall (fun d => 0 < d) sh -> prod sh < 2 ^ 62 -> Z.of_nat (length sh) < 2 ^ 64 ->
  axis_names (length sh) axis p -> nth_error sh p = Some (Z.of_nat n) -> slices_ok l sh p ->
  exists c', fft A c axis = Ok c' /\ array_of l c' sh (fun ix => dft A n (line p x ix) (Z.to_nat (nth p ix 0))).
Proof. intros K A one opp l c sh x axis p n L Hl Hc Hp Hs Hd Ha En Ho. exact (fft_array l sh p n Hl Hp Hs En Ho A one opp L c x axis Hd Ha Hc). Qed.
Print Assumptions C75_fft_partial.

(** C75. ifft(e, axis), for an axis that is not negative: the sums with the conjugate factors, exp(2 pi i j k / n). There
    is no division by n. *)
Theorem C75_ifft_partial : forall (K : Type) (A : arith K) (one : K) (opp : K -> K) (l : layout) (c : cont K) (sh : list Z) (x : list Z -> K) (p n : nat),
  complex_laws A one opp -> is_order l -> array_of l c sh x ->
  Forall (fun d => 0 < d) sh -> prod sh < 2 ^ 62 -> Z.of_nat (length sh) < 2 ^ 64 ->
  nth_error sh p = Some (Z.of_nat n) -> slices_ok l sh p ->
  exists c', ifft A c (Z.of_nat p) = Ok c' /\
    array_of l c' sh (fun ix => sumn A n (fun j => mul A (line p x ix j) (turn A (- (2 * Z.of_nat j * Z.of_nat (Z.to_nat (nth p ix 0)))) (Z.of_nat n)))).
Proof.
  intros K A one opp l c sh x p n L Hl Hc Hp Hs Hd En Ho. destruct (ifft_array l sh p n Hl Hp Hs En Ho A one opp L c x Hd Hc) as (c' & E & Hc'). exists c'. split; [exact E|].
  apply (array_ext l sh _ _ _ Hc'). intros ix _. apply (conj_dft A one opp L).
Qed.
Print Assumptions C75_ifft_partial.

(** C75. Both orders of fft and ifft multiply by the extent of the axis. *)
Theorem C75_round_trip_partial : forall (K : Type) (A : arith K) (one : K) (opp : K -> K) (l : layout) (c : cont K) (sh : list Z) (x : list Z -> K) (p n : nat),
  complex_laws A one opp -> is_order l -> array_of l c sh x ->
  Forall (fun d => 0 < d) sh -> prod sh < 2 ^ 62 -> Z.of_nat (length sh) < 2 ^ 64 ->
  nth_error sh p = Some (Z.of_nat n) -> slices_ok l sh p ->
  (exists f r, fft A c (Z.of_nat p) = Ok f /\ ifft A f (Z.of_nat p) = Ok r /\ array_of l r sh (fun ix => mul A (numeral A one n) (x ix))) /\
  (exists f r, ifft A c (Z.of_nat p) = Ok f /\ fft A f (Z.of_nat p) = Ok r /\ array_of l r sh (fun ix => mul A (numeral A one n) (x ix))).
Proof.
  intros K A one opp l c sh x p n L Hl Hc Hp Hs Hd En Ho. split; [exact (ifft_fft l sh p n Hl Hp Hs En Ho A one opp L c x Hd Hc)|exact (fft_ifft l sh p n Hl Hp Hs En Ho A one opp L c x Hd Hc)].
Qed.
Print Assumptions C75_round_trip_partial.

(** ifft is not the inverse of fft: along an axis of two elements or more, no element but 0 is given back. *)
Theorem C75_inverse_refuted : forall (K : Type) (A : arith K) (one : K) (opp : K -> K) (l : layout) (c : cont K) (sh : list Z) (x : list Z -> K) (p n : nat) (ix : list Z),
  complex_laws A one opp -> is_order l -> array_of l c sh x ->
  Forall (fun d => 0 < d) sh -> prod sh < 2 ^ 62 -> Z.of_nat (length sh) < 2 ^ 64 ->
  nth_error sh p = Some (Z.of_nat n) -> slices_ok l sh p -> (2 <= n)%nat -> in_bounds sh ix -> x ix <> zero A ->
  exists f r, fft A c (Z.of_nat p) = Ok f /\ ifft A f (Z.of_nat p) = Ok r /\ elt r ix <> Ok (x ix).
Proof.
  intros K A one opp l c sh x p n ix L Hl Hc Hp Hs Hd En Ho Hn Hix Hx. destruct (ifft_fft l sh p n Hl Hp Hs En Ho A one opp L c x Hd Hc) as (f & r & E1 & E2 & (_ & _ & _ & H)).
  exists f, r. split; [exact E1|]. split; [exact E2|]. rewrite H by exact Hix. intros E. injection E as E. exact (scaled A one opp n (x ix) L Hn Hx E).
Qed.
Print Assumptions C75_inverse_refuted.

(** C75. fft::convolve(x, y, axis), for an axis that is not negative: every line is the circular convolution of the lines
    of x and y. Missing from the full statement: as above, and negative axes. *)
Theorem C75_convolve_partial : forall (K : Type) (A : arith K) (one : K) (opp : K -> K) (l : layout) (cx cy : cont K) (sh : list Z) (x y : list Z -> K) (p n : nat),
  complex_laws A one opp -> is_order l -> array_of l cx sh x -> array_of l cy sh y ->
  Forall (fun d => 0 < d) sh -> prod sh < 2 ^ 62 -> Z.of_nat (length sh) < 2 ^ 64 ->
  nth_error sh p = Some (Z.of_nat n) -> slices_ok l sh p ->
  exists c', fft_convolve A cx cy (Z.of_nat p) = Ok c' /\
    array_of l c' sh (fun ix => circular A n (line p x ix) (line p y ix) (Z.to_nat (nth p ix 0))).
Proof. intros K A one opp l cx cy sh x y p n L Hl Hx Hy Hp Hs Hd En Ho. exact (convolve_array l sh p n Hl Hp Hs En Ho A one opp L cx cy x y Hd Hx Hy). Qed.
Print Assumptions C75_convolve_partial.

(** A 2x2x2x2 array of complex numbers, along its axes 0, 1 and 3. *)
Example C75_case_arrays : forall (x : list Z -> R * R) (p : nat), (p = 0 \/ p = 1 \/ p = 3)%nat ->
  array_of row_major (four x) [2;2;2;2] x /\ Forall (fun d => 0 < d) [2;2;2;2] /\ prod [2;2;2;2] < 2 ^ 62 /\
  nth_error [2;2;2;2] p = Some (Z.of_nat 2) /\ slices_ok row_major [2;2;2;2] p.
Proof.
  intros x p Hp. split; [apply four_array|]. split; [repeat constructor|]. split; [vm_compute; reflexivity|].
  split; [destruct Hp as [ -> |[ -> | -> ]]; reflexivity|]. destruct Hp as [ -> |[ -> | -> ]].
  - right. right. left. reflexivity.
  - right. right. left. reflexivity.
  - right. left. reflexivity.
Qed.

(** Along axis 2 of a 2x2x2x2 array some lines are not transformed and others are transformed twice: see C61. *)
Theorem C75_axis_refuted : forall (K : Type) (A : arith K) (one : K) (opp : K -> K) (x : list Z -> K),
  complex_laws A one opp -> x [1;1;1;0] <> zero A ->
  array_of row_major (four x) [2;2;2;2] x /\
  exists c', fft A (four x) 2 = Ok c' /\ elt c' [1;1;0;0] = Ok (x [1;1;0;0]) /\ x [1;1;0;0] <> dft A 2 (line 2 x [1;1;0;0]) 0.
Proof. intros K A one opp x L Hx. split; [apply four_array|exact (four_wrong A one opp x L Hx)]. Qed.
Print Assumptions C75_axis_refuted.

(** ifft(e, axis) with a negative axis, such as the default -1, reads outside the shape. *)
Theorem C75_ifft_default_refuted : forall (K : Type) (A : arith K) (c : cont K) (axis : Z),
  - 2 ^ 63 <= axis < 0 -> Z.of_nat (length (ct_shape c)) < 2 ^ 63 -> ifft A c axis = UB.
Proof. intros K A. exact (ifft_negative A). Qed.
Print Assumptions C75_ifft_default_refuted.

(** So does fft::convolve(x, y, axis). *)
Theorem C75_convolve_default_refuted : forall (K : Type) (A : arith K) (one : K) (opp : K -> K) (l : layout) (cx cy : cont K) (sh : list Z) (x y : list Z -> K) (p n : nat),
  complex_laws A one opp -> is_order l -> array_of l cx sh x -> array_of l cy sh y ->
  Forall (fun d => 0 < d) sh -> prod sh < 2 ^ 62 -> Z.of_nat (length sh) < 2 ^ 63 ->
  nth_error sh p = Some (Z.of_nat n) -> slices_ok l sh p ->
  fft_convolve A cx cy (Z.of_nat p - Z.of_nat (length sh)) = UB.
Proof. intros K A one opp l cx cy sh x y p n L Hl Hx Hy Hp Hs Hd En Ho. exact (convolve_negative l sh p n Hl Hp Hs En Ho A one opp L cx cy x y Hd Hx Hy). Qed.
Print Assumptions C75_convolve_default_refuted.

(** fft::convolve compares only the extents along the axis: with fewer lines in y, it reads outside y. *)
Theorem C75_convolve_shapes_refuted : forall (K : Type) (A : arith K) (x0 x1 x2 x3 y0 y1 : K),
  fft_convolve A (mk_cont [2;2] [2;1] [2;1] row_major [x0; x1; x2; x3]) (mk_cont [1;2] [0;1] [0;1] row_major [y0; y1]) 1 = UB.
Proof. intros. vm_compute. reflexivity. Qed.
Print Assumptions C75_convolve_shapes_refuted.

(** Different numbers of dimensions, and different extents along the axis, are rejected. *)
Theorem C75_convolve_rejects : forall (K : Type) (A : arith K) (cx cy : cont K) (axis : Z) (p : nat),
  Z.of_nat (length (ct_shape cx)) < 2 ^ 64 -> axis_names (length (ct_shape cx)) axis p ->
  (length (ct_shape cx) <> length (ct_shape cy) \/ nth p (ct_shape cx) 0 <> nth p (ct_shape cy) 0) ->
  fft_convolve A cx cy axis = Throw runtime_error.
Proof. intros K A. exact (convolve_rejects A). Qed.
Print Assumptions C75_convolve_rejects.

Example C75_case_rejects : axis_names 2 (-1) 1 /\ nth 1 [2;3] 0 <> nth 1 [2;4] 0.
Proof. split; [split; [lia|right; reflexivity]|discriminate]. Qed.

(** Along an axis of extent 0, beside others: the increment of the slice iterator divides by 0. *)
Theorem C75_empty_refuted : forall (K : Type) (A : arith K), fft A (mk_cont [2;0] [0;1] [0;1] row_major []) 1 = UB.
Proof. intros. vm_compute. reflexivity. Qed.
Print Assumptions C75_empty_refuted.
