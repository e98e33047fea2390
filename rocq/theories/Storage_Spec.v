(** What a program on storages is meant to do, with no memory in sight: a
    variable holds a sequence of cells. *)
From Coq Require Import List Bool Arith.
From Verif Require Import Prelude Storage_Model.
Import ListNotations.
Set Implicit Arguments.

Section Spec.
Context {V : Type}.

(** What each variable holds; [None]: no object. *)
Definition values : Type := nat -> option (list (option V)).

Definition put (s : values) (i : nat) (x : option (list (option V))) : values :=
  fun k => if k =? i then x else s k.

(** [n] new elements: default-constructed, or not to be relied on. *)
Definition blank (T : elem V) (n : nat) : list (option V) :=
  repeat (if e_trivial T then None else Some (e_default T)) n.

(** Resizing to another size forgets everything. *)
Definition resized (T : elem V) (c : list (option V)) (n : nat) : list (option V) :=
  if n =? length c then c else blank T n.

(** The answer and the values after an instruction on vectors. *)
Definition uv_means (T : elem V) (s : values) (o : op V) : answer V * values :=
  match o with
  | ONew i => match s i with None => (Done, put s i (Some [])) | _ => (Skip, s) end
  | OCount i n => match s i with None => (Done, put s i (Some (blank T n))) | _ => (Skip, s) end
  | OFill i n v =>
      match s i with None => (Done, put s i (Some (repeat (Some v) n))) | _ => (Skip, s) end
  | OList i l => match s i with None => (Done, put s i (Some (map Some l))) | _ => (Skip, s) end
  | OCopy i j =>
      match s i, s j with
      | None, Some c => (Done, put s i (Some c)) | _, _ => (Skip, s) end
  | OMove i j =>
      match s i, s j with
      | None, Some c => (Done, put (put s j (Some [])) i (Some c)) | _, _ => (Skip, s) end
  | OAssign i j =>
      match s i, s j with
      | Some _, Some c => (Done, put s i (Some c)) | _, _ => (Skip, s) end
  | OMoveAssign i j =>
      match s i, s j with
      | Some _, Some c => (Done, put (put s j (Some [])) i (Some c)) | _, _ => (Skip, s) end
  | OResize i n =>
      match s i with Some c => (Done, put s i (Some (resized T c n))) | None => (Skip, s) end
  | OClear i => match s i with Some _ => (Done, put s i (Some [])) | None => (Skip, s) end
  | OSwap i j =>
      match s i, s j with
      | Some c, Some d => (Done, put (put s i (Some d)) j (Some c)) | _, _ => (Skip, s) end
  | OWrite i k v =>
      match s i with
      | Some c => if k <? length c
                  then (Done, put s i (Some (firstn k c ++ Some v :: skipn (S k) c)))
                  else (Skip, s)
      | None => (Skip, s) end
  | ORead i k =>
      match s i with
      | Some c => match nth_error c k with Some x => (Got x, s) | None => (Skip, s) end
      | None => (Skip, s) end
  | OAt i k =>
      match s i with
      | Some c => match nth_error c k with Some x => (Got x, s) | None => (Thrown out_of_range, s) end
      | None => (Skip, s) end
  | OSize i => match s i with Some c => (Size (length c), s) | None => (Skip, s) end
  | ODestroy i => match s i with Some _ => (Done, put s i None) | None => (Skip, s) end
  end.

(** The instructions that ask for memory: those that make a sequence that is
    not empty, or of another length than the one it replaces. *)
Definition uv_needs (s : values) (o : op V) : bool :=
  match o with
  | OCount i n => match s i with None => negb (n =? 0) | _ => false end
  | OFill i n _ => match s i with None => negb (n =? 0) | _ => false end
  | OList i l => match s i with None => negb (length l =? 0) | _ => false end
  | OCopy i j =>
      match s i, s j with None, Some c => negb (length c =? 0) | _, _ => false end
  | OAssign i j =>
      match s i, s j with Some c, Some d => negb (length d =? length c) | _, _ => false end
  | OResize i n => match s i with Some c => negb (n =? length c) | None => false end
  | OClear i => match s i with Some c => negb (0 =? length c) | None => false end
  | _ => false
  end.

(** The histories of a program: each instruction does what it means, or asks for
    memory, throws and changes nothing. *)
Inductive uv_history (T : elem V) : values -> list (op V) -> list (answer V) -> values -> Prop :=
  | uh_end s : uv_history T s [] [] s
  | uh_works s o p l z :
      uv_history T (snd (uv_means T s o)) p l z ->
      uv_history T s (o :: p) (fst (uv_means T s o) :: l) z
  | uh_fails s o p l z :
      uv_needs s o = true ->
      uv_history T s p l z ->
      uv_history T s (o :: p) (Thrown bad_alloc :: l) z.

(** The history in which memory never runs out. *)
Fixpoint uv_answers (T : elem V) (s : values) (p : list (op V)) : list (answer V) * values :=
  match p with
  | [] => ([], s)
  | o :: p' =>
      let '(l, z) := uv_answers T (snd (uv_means T s o)) p' in
      (fst (uv_means T s o) :: l, z)
  end.

(** The same for buffer adaptors that own their buffer.  A buffer that has been
    moved from holds nothing; move assignment exchanges. *)
Definition ob_means (T : elem V) (s : values) (o : bop V) : answer V * values :=
  match o with
  | BAdopt i l => match s i with None => (Done, put s i (Some (map Some l))) | _ => (Skip, s) end
  | BReset i l | BFrom i l =>
      match s i with Some _ => (Done, put s i (Some (map Some l))) | None => (Skip, s) end
  | BMove i j =>
      match s i, s j with
      | None, Some c => (Done, put (put s j (Some [])) i (Some c)) | _, _ => (Skip, s) end
  | BAssign i j =>
      match s i, s j with
      | Some _, Some c => (Done, put s i (Some c)) | _, _ => (Skip, s) end
  | BMoveAssign i j | BSwap i j =>
      match s i, s j with
      | Some c, Some d => (Done, put (put s i (Some d)) j (Some c)) | _, _ => (Skip, s) end
  | BResize i n =>
      match s i with Some c => (Done, put s i (Some (resized T c n))) | None => (Skip, s) end
  | BWrite i k v =>
      match s i with
      | Some c => if k <? length c
                  then (Done, put s i (Some (firstn k c ++ Some v :: skipn (S k) c)))
                  else (Skip, s)
      | None => (Skip, s) end
  | BRead i k =>
      match s i with
      | Some c => match nth_error c k with Some x => (Got x, s) | None => (Skip, s) end
      | None => (Skip, s) end
  | BSize i => match s i with Some c => (Size (length c), s) | None => (Skip, s) end
  | BDestroy i => match s i with Some _ => (Done, put s i None) | None => (Skip, s) end
  end.

Definition ob_needs (s : values) (o : bop V) : bool :=
  match o with
  | BAdopt i _ => match s i with None => true | _ => false end
  | BReset i _ => match s i with Some _ => true | _ => false end
  | BFrom i l => match s i with Some c => negb (length l =? length c) | None => false end
  | BAssign i j => match s i, s j with Some _, Some _ => negb (i =? j) | _, _ => false end
  | BResize i n => match s i with Some c => negb (n =? length c) | None => false end
  | _ => false
  end.

Inductive ob_history (T : elem V) : values -> list (bop V) -> list (answer V) -> values -> Prop :=
  | oh_end s : ob_history T s [] [] s
  | oh_works s o p l z :
      ob_history T (snd (ob_means T s o)) p l z ->
      ob_history T s (o :: p) (fst (ob_means T s o) :: l) z
  | oh_fails s o p l z :
      ob_needs s o = true ->
      ob_history T s p l z ->
      ob_history T s (o :: p) (Thrown bad_alloc :: l) z.

(** The variables an instruction puts a value into that may have held another. *)
Definition overwritten (o : bop V) : list nat :=
  match o with
  | BReset i _ | BFrom i _ | BAssign i _ | BResize i _ => [i]
  | BMoveAssign i j | BSwap i j => [i; j]
  | _ => []
  end.

(** The variables that may have been moved from, after an instruction. *)
Definition moved_after (moved : list nat) (o : bop V) : list nat :=
  match o with
  | BMove i j => if existsb (Nat.eqb j) moved then i :: moved else j :: moved
  | BDestroy i => filter (fun k => negb (k =? i)) moved
  | _ => moved
  end.

(** A careful program never gives a new value to a variable that has been moved
    from: it destroys it first. *)
Fixpoint careful (moved : list nat) (p : list (bop V)) : Prop :=
  match p with
  | [] => True
  | o :: p' =>
      (forall i, In i (overwritten o) -> ~ In i moved) /\
      careful (moved_after moved o) p'
  end.

(** The block a variable is responsible for. *)
Definition uv_owns (env : nat -> option uvec) (i b : nat) : Prop :=
  exists u, env i = Some u /\ u_begin u = Some b.
Definition ob_owns (env : nat -> option obuf) (i b : nat) : Prop :=
  exists o, env i = Some o /\ o_moved o = false /\ o_data o = Some b.

Definition live (h : heap V) (b : nat) : Prop := h_block h b <> None.

(** Lexicographic order, from the order of the elements. *)
Fixpoint lexi (lt : V -> V -> Prop) (a b : list V) : Prop :=
  match a, b with
  | _, [] => False
  | [], _ :: _ => True
  | x :: a', y :: b' => lt x y \/ (x = y /\ lexi lt a' b')
  end.

(** [ltb] decides a strict total order. *)
Definition total_order (lt : V -> V -> Prop) (ltb : V -> V -> bool) : Prop :=
  (forall x y, ltb x y = true <-> lt x y) /\
  (forall x, ~ lt x x) /\
  (forall x y z, lt x y -> lt y z -> lt x z) /\
  (forall x y, lt x y \/ x = y \/ lt y x).

End Spec.
Arguments values : clear implicits.
