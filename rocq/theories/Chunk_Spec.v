(** What a chunked array should do: behave as an array. *)
From Coq Require Import List ZArith Bool.
From Verif Require Import Prelude Strides_Model Strides_Spec Container_Model Container_Spec Chunk_Model.
Import ListNotations.
Open Scope Z_scope.

(** A shape and a chunk shape of the same length: representable extents, positive
    chunk extents. *)
Definition chunkable (sh cs : list Z) : Prop :=
  Forall2 (fun s c => 0 <= s < 2 ^ 64 /\ 0 < c < 2 ^ 64) sh cs.

(** The chunked array [k] has shape [sh], chunks of shape [cs] and the elements [ev]. *)
Definition is_array {V} (k : chunked V) (sh cs : list Z) (ev : list Z -> V) : Prop :=
  k_shape k = sh /\ k_chunk_shape k = cs /\
  forall ix, in_bounds sh ix -> k_get k ix = Ok (ev ix).

(** Operations on a chunked array: a(ix) = v, noalias(a) = e for an e of the same
    shape, a = e for an e of any shape of that dimension, and a op= scalar. *)
Inductive kop (V : Type) :=
| K_set (ix : list Z) (v : V)
| K_noalias (ev : list Z -> V)
| K_assign (sh : list Z) (ev : list Z -> V)
| K_scalar (f : V -> V).
Arguments K_set {V}. Arguments K_noalias {V}. Arguments K_assign {V}. Arguments K_scalar {V}.

Definition run_kop {V} (SL GL DL TL : layout) (fresh : list V -> Z -> list V) (v0 : V) (o : kop V) (k : chunked V)
  : res (chunked V) :=
  match o with
  | K_set ix v => k_set k ix v
  | K_noalias ev => k_assign TL ev k
  | K_assign sh ev => k_assign_op SL GL DL TL fresh v0 k sh ev
  | K_scalar f => Ok (k_scalar f k)
  end.
Fixpoint run_kops {V} SL GL DL TL (fresh : list V -> Z -> list V) (v0 : V) (os : list (kop V)) (k : chunked V)
  : res (chunked V) :=
  match os with
  | [] => Ok k
  | o :: os' => let* k' := run_kop SL GL DL TL fresh v0 o k in run_kops SL GL DL TL fresh v0 os' k'
  end.

(** The same operations on an abstract array: a shape and a function. *)
Definition abs_kop {V} (o : kop V) (a : list Z * (list Z -> V)) : list Z * (list Z -> V) :=
  match o with
  | K_set ix v => (fst a, fun jx => if list_eq_dec Z.eq_dec jx ix then v else snd a jx)
  | K_noalias ev => (fst a, ev)
  | K_assign sh ev => (sh, ev)
  | K_scalar f => (fst a, fun jx => f (snd a jx))
  end.
Definition kop_ok {V} (cs : list Z) (o : kop V) (a : list Z * (list Z -> V)) : Prop :=
  match o with
  | K_set ix _ => in_bounds (fst a) ix
  | K_assign sh _ => chunkable sh cs
  | _ => True
  end.
Fixpoint abs_kops {V} (os : list (kop V)) a : list Z * (list Z -> V) :=
  match os with [] => a | o :: os' => abs_kops os' (abs_kop o a) end.
Fixpoint kops_ok {V} (cs : list Z) (os : list (kop V)) a : Prop :=
  match os with [] => True | o :: os' => kop_ok cs o a /\ kops_ok cs os' (abs_kop o a) end.

(** The iterator after n increments. *)
Fixpoint it_after (g : chunking) (size : Z) (n : nat) : res chunk_it :=
  match n with
  | O => it_begin g
  | S n' => let* it := it_after g size n' in it_next g size it
  end.

(** [ix] is in the box given by ranges. *)
Definition in_box (sl : list (Z * Z)) (ix : list Z) : Prop := Forall2 (fun p x => fst p <= x < snd p) sl ix.
