(** Property C92: xexpression_holder. *)
From Coq Require Import List ZArith Bool Lia Arith.
From Verif Require Import Prelude Strides_Model Strides_Spec Container_Model Container_Spec SView_Model SView_Spec Semantic_Model Json_Model Json_Spec Json_Proofs Json2_Proofs Json3_Proofs
  Holder_Model Holder_Spec Holder_Proofs Holder2_Proofs.
Import ListNotations.
Open Scope nat_scope.

(** C92. In a program that makes holders of temporaries only and copies them from const sources, every holder has a value of its own, whatever the sequence of statements; to_json gives that
    value. The variables of the program do not change. *)
Theorem C92_values :
  forall (V X : Type) (kind_of : V -> kind) (empty : kind -> X) (write : X -> res (json V)) (read : json V -> X -> res X) vs p l,
  mean_all read [] p l ->
  exists s, exec_all kind_of empty read (mk_state vs []) p = Done s /\ vars s = vs /\ length (holders s) = length l /\
    (forall h x, nth_error l h = Some (Some x) -> denotes s h (AtHolder h) x /\ h_to_json write s h = write x) /\
    (forall h, nth_error l h = Some None -> h_to_json write s h = Ok JOther).
Proof. exact @values_lemma. Qed.
Print Assumptions C92_values.

(** Two holders of temporaries, a copy of the first, one list read into the copy, and an exchange *)
Example C92_case_values :
  let p := [Temporary sheet; Temporary fresh; Copy 0; Read 2 (JArr [num 8; num 9]); Swap 0 1; Move 1] in
  mean_all r_cont [] p [Some fresh; None; Some (mk_cont [2]%Z [1]%Z [1]%Z column_major [8; 9]%Z); Some sheet] /\
  exec_all kind_num e_cont r_cont (mk_state [] []) p
    = Done (mk_state [] [Some (Own fresh); None; Some (Own (mk_cont [2]%Z [1]%Z [1]%Z column_major [8; 9]%Z)); Some (Own sheet)]).
Proof.
  split; [|vm_compute; reflexivity].
  eapply mean_cons; [apply means_temporary|]. eapply mean_cons; [apply means_temporary|]. eapply mean_cons; [apply means_copy with (x := sheet); reflexivity|].
  eapply mean_cons with (l1 := [Some sheet; Some fresh; Some (mk_cont [2]%Z [1]%Z [1]%Z column_major [8; 9]%Z)]).
  { eapply means_read; [reflexivity|reflexivity|vm_compute; reflexivity|]. split; [reflexivity|]. split; [reflexivity|]. intros [|[|[|k]]] N; try reflexivity; lia. }
  eapply mean_cons with (l1 := [Some fresh; Some sheet; Some (mk_cont [2]%Z [1]%Z [1]%Z column_major [8; 9]%Z)]).
  { eapply means_swap with (l1 := [Some fresh; Some fresh; Some (mk_cont [2]%Z [1]%Z [1]%Z column_major [8; 9]%Z)]); [reflexivity|reflexivity| |];
      (split; [reflexivity|]; split; [reflexivity|]; intros [|[|[|k]]] N; try reflexivity; lia). }
  eapply mean_cons; [|apply mean_nil].
  apply (means_move r_cont _ 1 (Some sheet) [Some fresh; None; Some (mk_cont [2]%Z [1]%Z [1]%Z column_major [8; 9]%Z)]); [reflexivity|].
  split; [reflexivity|]. split; [reflexivity|]. intros [|[|[|k]]] N; try reflexivity; lia.
Qed.

(** Whatever the holders refer to, to_json writes the array the holder gives access to. *)
Theorem C92_to_json :
  forall (V X : Type) (write : X -> res (json V)) (s : state) h p x, denotes s h p x -> h_to_json write s h = write x.
Proof. exact @to_json_ok. Qed.
Print Assumptions C92_to_json.

(** from_json of a list replaces the array the holder gives access to: a variable if the holder was made out of one. Every holder of that place sees the new array, no other holder and no other variable
    changes. *)
Theorem C92_from_json :
  forall (V X : Type) (kind_of : V -> kind) (empty : kind -> X) (read : json V -> X -> res X) (s : state) h p x j k x',
  denotes s h p x -> j = JArr k -> read j x = Ok x' ->
  exists s', h_from_json kind_of empty read s h j = Done s' /\
    (forall h', denotes s h' p x -> denotes s' h' p x') /\
    (forall h' p' y, p' <> p -> denotes s h' p' y -> denotes s' h' p' y) /\
    (forall v, nth_error (vars s') v = if match p with AtVar k => v =? k | _ => false end then Some x' else nth_error (vars s) v).
Proof. intros V X kind_of empty read s h p x j k x' D -> R. exact (from_json_ok kind_of empty read s h p x (JArr k) x' D eq_refl R). Qed.
Print Assumptions C92_from_json.

(** Holders 0 and 2 of variable 0, holder 1 of a temporary *)
Example C92_case_from_json :
  let s := mk_state [sheet; sheet] [Some (Var 0); Some (Own sheet); Some (Hold 0)] in
  denotes s 2 (AtVar 0) sheet /\ denotes s 0 (AtVar 0) sheet /\ denotes s 1 (AtHolder 1) sheet /\
  (exists x', r_cont (JArr [num 8; num 9]) sheet = Ok x') /\
  h_from_json kind_num e_cont r_cont s 2 (JArr [num 8; num 9])
    = Done (mk_state [mk_cont [2]%Z [1]%Z [1]%Z column_major [8; 9]%Z; sheet] [Some (Var 0); Some (Own sheet); Some (Hold 0)]) /\
  h_to_json w_cont s 2 = Ok (JArr [JArr [num 1; num 2; num 3]; JArr [num 4; num 5; num 6]]).
Proof.
  cbn zeta. split; [eapply denotes_hold; [reflexivity|eapply denotes_var; reflexivity]|]. split; [eapply denotes_var; reflexivity|].
  split; [apply denotes_own; reflexivity|]. split; [eexists; vm_compute; reflexivity|]. split; vm_compute; reflexivity.
Qed.

(** A holder made of a variable gives access to the variable: what is read into it is then in the variable. One made of a temporary has its own array, whatever other holders there are. No other holder
    changes. *)
Theorem C92_made :
  forall (V X : Type) (kind_of : V -> kind) (empty : kind -> X) (read : json V -> X -> res X) (s : state),
  (forall v x, nth_error (vars s) v = Some x ->
    exists s', h_variable s v = Done s' /\ vars s' = vars s /\ length (holders s') = S (length (holders s)) /\ (forall h p y, denotes s h p y -> denotes s' h p y) /\
      denotes s' (length (holders s)) (AtVar v) x /\
      forall j k x', j = JArr k -> read j x = Ok x' -> exists s2, h_from_json kind_of empty read s' (length (holders s)) j = Done s2 /\ nth_error (vars s2) v = Some x') /\
  (forall x, exists s', h_temporary s x = Done s' /\ vars s' = vars s /\ (forall h p y, denotes s h p y -> denotes s' h p y) /\
      denotes s' (length (holders s)) (AtHolder (length (holders s))) x).
Proof. intros V X kind_of empty read s. split; [intros v x E; now apply made_lemma|intros x; apply made_temporary]. Qed.
Print Assumptions C92_made.

Example C92_case_made : exists s', h_variable (mk_state [sheet] []) 0 = Done s' /\ nth_error (vars (mk_state [sheet] [])) 0 = Some sheet /\
  h_from_json kind_num e_cont r_cont s' 0 (JArr [num 8; num 9]) = Done (mk_state [mk_cont [2]%Z [1]%Z [1]%Z column_major [8; 9]%Z] [Some (Var 0)]).
Proof. eexists. split; [reflexivity|]. split; vm_compute; reflexivity. Qed.

(** Copying a const holder: the copy of a holder that owns its array owns another array with the same value, so that by the theorem above reading into one does not change the other. Existing holders
    and the variables are as before. The copy of a holder of a variable is a holder of the same variable. *)
Theorem C92_copy :
  forall (X : Type) (s : @state X) h p x, denotes s h p x ->
  exists s', h_copy_const s h = Done s' /\
    (forall h' p' y, denotes s h' p' y -> denotes s' h' p' y) /\ vars s' = vars s /\ length (holders s') = S (length (holders s)) /\
    denotes s' (length (holders s)) (match p with AtHolder k => if k =? h then AtHolder (length (holders s)) else p | _ => p end) x.
Proof. exact @copy_ok. Qed.
Print Assumptions C92_copy.

Example C92_case_copy :
  let s := mk_state [sheet] [Some (Var 0); Some (Own sheet)] in
  denotes s 0 (AtVar 0) sheet /\ denotes s 1 (AtHolder 1) sheet /\
  h_copy_const s 1 = Done (mk_state [sheet] [Some (Var 0); Some (Own sheet); Some (Own sheet)]) /\
  h_copy_const s 0 = Done (mk_state [sheet] [Some (Var 0); Some (Own sheet); Some (Var 0)]).
Proof. cbn zeta. split; [eapply denotes_var; reflexivity|]. split; [apply denotes_own; reflexivity|]. split; reflexivity. Qed.

(** An array with axes, none of them empty, written from one holder and read into another of a different place: shape and elements come back, the first holder is unchanged. Missing: arrays without axes
    and empty ones, see below and C79_empty_refuted. *)
Theorem C92_round_trip_partial :
  forall (V : Type) (T SL DL : layout) (junk : list Z -> list Z) (rs : list V -> Z -> list V) (kind_of : V -> kind) (empty : kind -> cont V),
  T = row_major \/ T = column_major -> (forall d n, (0 <= n)%Z -> Z.of_nat (length (rs d n)) = n) ->
  forall (s : state) h1 h2 p1 p2 (c c0 : cont V),
  denotes s h1 p1 c -> denotes s h2 p2 c0 -> p1 <> p2 ->
  consistent c -> consistent c0 -> (SL <> dynamic -> ct_layout c0 = SL) -> Forall (fun d => (0 < d)%Z) (ct_shape c) -> ct_shape c <> [] ->
  exists j s' c', h_to_json (fun c => to_json T junk (of_cont c) (stored c)) s h1 = Ok j /\
    h_from_json kind_of empty (from_json T junk SL DL rs) s h2 j = Done s' /\
    denotes s' h1 p1 c /\ denotes s' h2 p2 c' /\ ct_shape c' = ct_shape c /\
    (forall ix, in_bounds (ct_shape c) ix -> elt c' ix = elt c ix).
Proof. exact @holder_round. Qed.
Print Assumptions C92_round_trip_partial.

Example C92_case_round_trip :
  let s := mk_state [fresh] [Some (Own sheet); Some (Var 0)] in
  denotes s 0 (AtHolder 0) sheet /\ denotes s 1 (AtVar 0) fresh /\ consistent sheet /\ consistent fresh /\
  (let* j := h_to_json w_cont s 0 in Ok (h_from_json kind_num e_cont r_cont s 1 j))
    = Ok (Done (mk_state [mk_cont [2; 3]%Z [3; 1]%Z [3; 2]%Z row_major [1; 2; 3; 4; 5; 6]%Z] [Some (Own sheet); Some (Var 0)])).
Proof.
  cbn zeta. split; [apply denotes_own; reflexivity|]. split; [eapply denotes_var; reflexivity|]. split; [exact sheet_consistent|].
  split; [exact fresh_consistent|]. vm_compute. reflexivity.
Qed.

(** The JSON of an array without axes is a scalar, and no holder reads it: std::runtime_error. *)
Theorem C92_scalar_refuted :
  forall (V : Type) (T SL DL : layout) (junk : list Z -> list Z) (rs : list V -> Z -> list V) (kind_of : V -> kind) (empty : kind -> cont V),
  T = row_major \/ T = column_major ->
  forall (s : state) h1 h2 p1 (c : cont V), denotes s h1 p1 c -> consistent c -> ct_shape c = [] ->
  exists j, h_to_json (fun c => to_json T junk (of_cont c) (stored c)) s h1 = Ok j /\
    h_from_json kind_of empty (from_json T junk SL DL rs) s h2 j = Threw runtime_error s.
Proof. exact @holder_scalar. Qed.
Print Assumptions C92_scalar_refuted.

Example C92_case_scalar :
  let s := mk_state [] [Some (Own fresh); Some (Own fresh)] in
  denotes s 0 (AtHolder 0) fresh /\ consistent fresh /\
  (let* j := h_to_json w_cont s 0 in Ok (j, h_from_json kind_num e_cont r_cont s 1 j)) = Ok (num 0, Threw runtime_error s).
Proof. cbn zeta. split; [apply denotes_own; reflexivity|]. split; [exact fresh_consistent|]. vm_compute. reflexivity. Qed.

(** Reading lists of numbers, booleans or strings into an empty holder throws in every case, as for a type that is not supported, and leaves the holder with an empty array; reading the same lists once more
    succeeds. *)
Theorem C92_read_refuted :
  forall (V X : Type) (kind_of : V -> kind) (empty : kind -> X) (read : json V -> X -> res X) (s : state) h j k x,
  holder s h = Some None -> j = JArr k -> starts_with x j ->
  exists s', h_from_json kind_of empty read s h j = Threw runtime_error s' /\ denotes s' h (AtHolder h) (empty (kind_of x)) /\
    (forall x', read j (empty (kind_of x)) = Ok x' -> exists s2, h_from_json kind_of empty read s' h j = Done s2 /\ denotes s2 h (AtHolder h) x').
Proof. intros V X kind_of empty read s h j k x H -> S. exact (read_empty kind_of empty read s h (JArr k) x H eq_refl S). Qed.
Print Assumptions C92_read_refuted.

Example C92_case_read :
  let s := mk_state [] [None] in let j := JArr [num 8; num 9] in
  starts_with 8%Z j /\ h_from_json kind_num e_cont r_cont s 0 j = Threw runtime_error (mk_state [] [Some (Own fresh)]) /\
  h_from_json kind_num e_cont r_cont (mk_state [] [Some (Own fresh)]) 0 j = Done (mk_state [] [Some (Own (mk_cont [2]%Z [1]%Z [1]%Z row_major [8; 9]%Z))]).
Proof. cbn zeta. split; [repeat constructor|]. split; vm_compute; reflexivity. Qed.

(** The empty list read into an empty holder, and a copy of an empty holder, are undefined. *)
Theorem C92_empty_refuted :
  forall (V X : Type) (kind_of : V -> kind) (empty : kind -> X) (read : json V -> X -> res X) (s : state) h, holder s h = Some None ->
  h_from_json kind_of empty read s h (JArr []) = Undefined /\ h_copy_const s h = Undefined /\ forall k, h_assign s k h = Undefined.
Proof.
  intros V X kind_of empty read s h H. unfold h_from_json, h_copy_const, h_assign, clone. cbn [from_json_from is_array negb]. rewrite H. repeat split.
Qed.
Print Assumptions C92_empty_refuted.

Example C92_case_empty : holder (mk_state [sheet] [None]) 0 = Some None.
Proof. reflexivity. Qed.

(** A holder made out of a holder that is not const is no copy: it gives access to the same array, even if the first holder owns it, so that reading into the second changes the first. *)
Theorem C92_copy_refuted :
  forall (V X : Type) (kind_of : V -> kind) (empty : kind -> X) (read : json V -> X -> res X) (s : state) h p x j k x',
  denotes s h p x -> j = JArr k -> read j x = Ok x' ->
  exists s1 s2, h_copy_lvalue s h = Done s1 /\ denotes s1 (length (holders s)) p x /\
    h_from_json kind_of empty read s1 (length (holders s)) j = Done s2 /\ denotes s2 h p x'.
Proof.
  intros V X kind_of empty read s h p x j k x' D -> R. destruct (copy_lvalue_ok s h p x D) as (s1 & E & D0 & D1).
  destruct (from_json_ok kind_of empty read s1 _ p x (JArr k) x' D1 eq_refl R) as (s2 & F & G & _). exists s1, s2. repeat split; auto.
Qed.
Print Assumptions C92_copy_refuted.

(** If that holder is then assigned to the first, both refer to the first: the array is lost and to_json does not end. *)
Theorem C92_assign_back_refuted :
  forall (V X : Type) (write : X -> res (json V)) (s : state) h p x, denotes s h p x ->
  exists s1 s2, h_copy_lvalue s h = Done s1 /\ h_to_json write s1 (length (holders s)) = write x /\
    h_assign s1 h (length (holders s)) = Done s2 /\ h_to_json write s2 h = UB /\ h_to_json write s2 (length (holders s)) = UB.
Proof. exact @self_lemma. Qed.
Print Assumptions C92_assign_back_refuted.

Example C92_case_copy_lvalue :
  let s := mk_state [] [Some (Own sheet)] in
  denotes s 0 (AtHolder 0) sheet /\ h_copy_lvalue s 0 = Done (mk_state [] [Some (Own sheet); Some (Hold 0)]) /\
  h_from_json kind_num e_cont r_cont (mk_state [] [Some (Own sheet); Some (Hold 0)]) 1 (JArr [num 8; num 9])
    = Done (mk_state [] [Some (Own (mk_cont [2]%Z [1]%Z [1]%Z column_major [8; 9]%Z)); Some (Hold 0)]) /\
  h_assign (mk_state [] [Some (Own sheet); Some (Hold 0)]) 0 1 = Done (mk_state [] [Some (Hold 0); Some (Hold 0)]).
Proof. cbn zeta. split; [apply denotes_own; reflexivity|]. repeat split. Qed.
