(** JSON input and output: io/xjson.hpp. *)
From Coq Require Import List ZArith Bool.
From Verif Require Import Prelude Strides_Model Container_Model Slice_Model SView_Model SView_Spec.
Import ListNotations.
Open Scope Z_scope.

(** nlohmann::basic_json as xjson.hpp uses it: an array, a scalar that converts to the
    value type of the expression, and anything else (null, an object, a string).
    Simplified: the conversion of a number is the identity. *)
Inductive json (V : Type) := JVal (x : V) | JArr (l : list (json V)) | JOther.
Arguments JVal {V}. Arguments JArr {V}. Arguments JOther {V}.

(** xjson.hpp 78: j.get<value_type>(): nlohmann throws type_error when it is not such a
    scalar. The exception is not one of xtensor's; it is represented by
    [invalid_argument]. *)
Definition j_get {V} (j : json V) : res V :=
  match j with JVal x => Ok x | _ => Throw invalid_argument end.

(** xjson.hpp 87, 99, 116: j[i] of a const json: type_error unless it is an array, and
    std::vector::operator[] then, which does not check. *)
Definition j_at {V} (j : json V) (i : nat) : res (json V) :=
  match j with
  | JArr l => match nth_error l i with Some k => Ok k | None => UB end
  | _ => Throw invalid_argument
  end.

(** xjson.hpp 61, 86: the slices pushed by the recursion are all integers *)
Definition picks (slices : list Z) : list item := map (fun i => Pick (UInt i)) slices.

Section Json.
Context {V : Type}.
(** [T] is XTENSOR_DEFAULT_TRAVERSAL; [junk slices] is what the memory of the strides of
    the view of these slices contains. *)
Variable T : layout.
Variable junk : list Z -> list Z.

(** xjson.hpp 46-68: to_json_impl. [e] is the expression and [value] reads one of its
    elements. The recursion stops because every slice removes an axis: [fuel] is one more
    than the number of axes that are left. *)
Fixpoint to_json_impl (e : xexp) (value : cell -> res V) (fuel : nat) (slices : list Z) : res (json V) :=
  match fuel with
  | O => UB
  | S fuel =>
      let* view := strided_view T e (picks slices) (junk slices) in
      match w_shape view with
      | [] => let* k := w_call view [] in
              let* x := value k in
              Ok (JVal x)
      | nrows :: _ =>
          let* l := for_up (fun i l =>
            let* k := to_json_impl e value fuel (slices ++ [Z.of_nat i]) in
            Ok (l ++ [k])) 0 (Z.to_nat nrows) [] in
          Ok (JArr l)
      end
  end.

(** xjson.hpp 132-137: to_json *)
Definition to_json (e : xexp) (value : cell -> res V) : res (json V) :=
  to_json_impl e value (S (length (x_shape e))) [].

(** xjson.hpp 70-92: from_json_impl. [e] is the expression that is written, whose elements
    live in the storage of [c]. *)
Fixpoint from_json_impl (e : xexp) (fuel : nat) (slices : list Z) (j : json V) (c : cont V) : res (cont V) :=
  match fuel with
  | O => UB
  | S fuel =>
      let* view := strided_view T e (picks slices) (junk slices) in
      match w_shape view with
      | [] => let* x := j_get j in
              w_assign view [] x c
      | nrows :: _ =>
          for_up (fun i c =>
            let* k := j_at j i in
            from_json_impl e fuel (slices ++ [Z.of_nat i]) k c) 0 (Z.to_nat nrows) c
      end
  end.

(** xjson.hpp 94-105: json_dimension *)
Fixpoint json_dimension (j : json V) : nat :=
  match j with
  | JArr (k :: _) => S (json_dimension k)
  | _ => O
  end.

(** xstorage.hpp 932-936: s[pos] = x for an xt::svector<size_t, 4>, which is the shape type
    of xarray and of its strided views (xshape.hpp 28-29). The storage of the vector has
    four places (xstorage.hpp 758-764), or as many as its size if that is more
    (xstorage.hpp 976-989, 1326-1354): a write after the end changes nothing that can be seen while it
    stays inside of it. *)
Definition set_extent (s : list Z) (pos : nat) (x : Z) : res (list Z) :=
  if (pos <? length s)%nat then wr s pos x
  else if (pos <? 4)%nat then Ok s
  else UB.

(** xjson.hpp 107-119: json_shape *)
Fixpoint json_shape (j : json V) (s : list Z) (pos : nat) : res (list Z) :=
  match j with
  | JArr l =>
      let* s := set_extent s pos (Z.of_nat (length l)) in
      match l with
      | [] => Ok s
      | k :: _ => json_shape k s (S pos)
      end
  | _ => Ok s
  end.

(** xjson.hpp 155-167: from_json for a container, here xarray. [SL], [DL] and [rs] are those
    of Container_Model. *)
Definition from_json (SL DL : layout) (rs : list V -> Z -> list V) (j : json V) (c : cont V) : res (cont V) :=
  let* s := json_shape j (repeat 0 (json_dimension j)) 0 in
  let* c := c_resize SL DL rs c s false in
  from_json_impl (of_cont c) (S (length (ct_shape c))) [] j c.

(** std::equal(s.cbegin(), s.cend(), shape.cbegin()): reading past the end of the second is
    undefined *)
Fixpoint std_equal (s shape : list Z) : res bool :=
  match s with
  | [] => Ok true
  | a :: s => match shape with
              | [] => UB
              | b :: shape => if a =? b then std_equal s shape else Ok false
              end
  end.

(** xjson.hpp 169-184: from_json for an expression with view semantics, here a strided
    view [e] of the container [c]: s is default constructed (173), so it is empty. *)
Definition from_json_view (j : json V) (e : xexp) (c : cont V) : res (cont V) :=
  let* s := json_shape j [] 0 in
  let* ok := std_equal s (x_shape e) in
  if negb ok then Throw runtime_error
  else from_json_impl e (S (length (x_shape e))) [] j c.
End Json.
