(** Model of eval and as_strided, in programs whose objects have lifetimes: core/xeval.hpp 26-174. *)
From Coq Require Import List Bool Arith.
From Verif Require Import Prelude Strides_Model Layout_Model.
Import ListNotations.
Open Scope nat_scope.

Section Eval.
(** [X]: shape and elements. [def]: XTENSOR_DEFAULT_LAYOUT. [tmp]: the layout of temporary_type_t for an expression of a layout. *)
Context {X : Type} (def : layout) (tmp : layout -> layout).
(** The objects of a program: containers; views with a data interface on a container, which read and write a part of it; other expressions, as a function of containers.
    Simplified: views and functions are of container variables and not of one another. *)
Inductive obj := Arr (L : layout) (x : X) | View (L : layout) (o : nat) (look : X -> X) (put_back : X -> X -> X) | Lazy (L : layout) (f : list X -> X) (os : list nat).
(** None: the lifetime has ended *)
Definition memory := list (option obj).
Definition get (m : memory) (o : nat) : res obj := match nth_error m o with Some (Some x) => Ok x | _ => UB end.
Definition contents (m : memory) (o : nat) : res X := let* b := get m o in match b with Arr _ x => Ok x | _ => UB end.
Fixpoint contents_all (m : memory) (os : list nat) : res (list X) :=
  match os with [] => Ok [] | o :: os => let* x := contents m o in let* xs := contents_all m os in Ok (x :: xs) end.
(** The elements seen through an object *)
Definition value (m : memory) (o : nat) : res X :=
  let* b := get m o in
  match b with
  | Arr _ x => Ok x
  | View _ o look _ => let* x := contents m o in Ok (look x)
  | Lazy _ f os => let* xs := contents_all m os in Ok (f xs)
  end.

(** 29-30: is_container; has_data_interface; static_layout; 67-71: has_same_layout *)
Definition is_container (b : obj) : bool := match b with Arr _ _ => true | _ => false end.
Definition has_data (b : obj) : bool := match b with Lazy _ _ _ => false | _ => true end.
Definition static_layout (b : obj) : layout := match b with Arr L _ | View L _ _ _ | Lazy L _ _ => L end.
Definition same_layout (L : layout) (b : obj) : bool := layout_eqb (static_layout b) L || layout_eqb L any.

(** The argument: an lvalue, or a temporary, which ends with the full expression *)
Inductive arg := Named (o : nat) | Temporary (b : obj).
Definition enter (m : memory) (a : arg) : nat * memory := match a with Named o => (o, m) | Temporary b => (length m, m ++ [Some b]) end.
Definition leave (m : memory) (a : arg) (o : nat) : memory := match a with Named _ => m | Temporary _ => upd m o None end.
(** auto&& r = ...: [r] is the object the function returns a reference to, or a new one, whose lifetime is that of the variable. *)
Definition fresh_copy (m : memory) (o : nat) (L : layout) : res (nat * memory) := let* x := value m o in Ok (length m, m ++ [Some (Arr L x)]).
(** 45-57: eval *)
Definition eval (m : memory) (a : arg) : res (nat * memory) :=
  let '(o, m) := enter m a in
  let* b := get m o in
  let* '(r, m) := (if is_container b then Ok (o, m) else fresh_copy m o (tmp (static_layout b))) in
  Ok (r, leave m a o).
(** 148-172: as_strided<L>; xtensor or xarray according to the shape type, not distinguished here *)
Definition as_strided (L : layout) (m : memory) (a : arg) : res (nat * memory) :=
  let '(o, m) := enter m a in
  let* b := get m o in
  let* '(r, m) := (if has_data b && same_layout L b then Ok (o, m) else fresh_copy m o (layout_remove_any def L)) in
  Ok (r, leave m a o).

(** The statements of a program: a new object, the end of one, and assignment of elements to a container or through a view *)
Inductive stmt := Make (b : obj) | End (o : nat) | Write (o : nat) (x : X).
Definition exec (m : memory) (c : stmt) : res memory :=
  match c with
  | Make b => Ok (m ++ [Some b])
  | End o => let* _ := get m o in Ok (upd m o None)
  | Write o x =>
      let* b := get m o in
      match b with
      | Arr L _ => Ok (upd m o (Some (Arr L x)))
      | View _ o' _ put_back =>
          let* b' := get m o' in
          match b' with Arr L y => Ok (upd m o' (Some (Arr L (put_back y x)))) | _ => UB end
      | Lazy _ _ _ => UB
      end
  end.
Fixpoint run (m : memory) (p : list stmt) : res memory := match p with [] => Ok m | c :: p => let* m := exec m c in run m p end.
End Eval.
