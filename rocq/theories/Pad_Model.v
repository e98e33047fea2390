(** Padding and tiling (misc/xpad.hpp). XTENSOR_ASSERT checks nothing in a default
    build and is not modelled. Sizes are integers without overflow; they are cast to
    std::ptrdiff_t by xt::range (views/xslice.hpp 818-846). *)
From Coq Require Import List ZArith Bool.
From Verif Require Import Prelude Strides_Model Access_Model Slice_Model Container_Model Reduce_Spec Select_Model.
Import ListNotations.
Open Scope Z_scope.

(** strided_view(out, slices): the slices resolved axis by axis (views/xstrided_view_base.hpp,
    SView_Model); only ranges and xt::all occur here, one per axis. *)
Fixpoint slices_of (us : list user_slice) (shape : list Z) : res (list slice) :=
  match us, shape with
  | u :: us', d :: shape' =>
      let* s := resolve u d in
      let* r := slices_of us' shape' in
      Ok (s :: r)
  | _, _ => Ok []
  end.
(** Index of the underlying array for an index of the view. *)
Fixpoint region_index (ss : list slice) (j : list Z) : res (list Z) :=
  match ss, j with
  | s :: ss', x :: j' =>
      let* y := slice_at s x in
      let* r := region_index ss' j' in
      Ok (y :: r)
  | _, _ => Ok []
  end.

(** core/xsemantic.hpp 773-793: a right-hand side of another shape is broadcast. With as
    many axes (as here): an axis of extent 1 is repeated, a target axis of extent 1 is
    outgrown (undefined afterwards), any other difference throws (core/xstrides.hpp
    broadcast_shape). *)
Fixpoint fits_region (rsh tsh : list Z) : res unit :=
  match rsh, tsh with
  | r :: rsh', t :: tsh' =>
      if (r =? t) || (r =? 1) then fits_region rsh' tsh'
      else if t =? 1 then UB else Throw broadcast_error
  | _, _ => Ok tt
  end.
Fixpoint bcast_index (rsh j : list Z) : list Z :=
  match rsh, j with
  | r :: rsh', x :: j' => (if r =? 1 then 0 else x) :: bcast_index rsh' j'
  | _, _ => []
  end.

Section Pad.
  Context {V : Type}.
  (** XTENSOR_DEFAULT_TRAVERSAL; whether an assignment goes through a temporary (it does
      when the memory ranges overlap, core/xsemantic.hpp 620-640) *)
  Variables (TL : layout) (tmp : list slice -> bool).

  (** strided_view(out, us) = rhs, where rhs has shape [rsh] and may read [out] *)
  Definition region_set (c : cont V) (us : list user_slice) (rsh : list Z) (rhs : cont V -> list Z -> res V) : res (cont V) :=
    let* ss := slices_of us (ct_shape c) in
    let tsh := map slice_size ss in
    let* _ := fits_region rsh tsh in
    if tmp ss then
      let* t := for_each (fun j t => let* v := rhs c (bcast_index rsh j) in Ok (t ++ [(j, v)])) (indices_of TL tsh) [] in
      for_each (fun '(j, v) c => let* ix := region_index ss j in c_write c ix v) t c
    else
      for_each (fun j c =>
                  let* v := rhs c (bcast_index rsh j) in
                  let* ix := region_index ss j in
                  c_write c ix v) (indices_of TL tsh) c.

  (** strided_view(out, ust) = strided_view(out, uss), also through xt::broadcast *)
  Definition region_copy (c : cont V) (ust uss : list user_slice) : res (cont V) :=
    let* ss := slices_of uss (ct_shape c) in
    region_set c ust (map slice_size ss) (fun c j => let* ix := region_index ss j in c_read c ix).

  Variables (SL DL : layout) (fresh : list V -> Z -> list V) (n0 : nat) (v0 : V).

  (** return_type out(new_shape); out(new_shape, value) (containers/xarray.hpp 294-321) *)
  Definition out_of (shape : list Z) : res (cont V) := c_resize_layout SL DL fresh (c_default SL n0 v0) shape SL.
  Definition out_filled (shape : list Z) (x : V) : res (cont V) :=
    let* c := out_of shape in
    Ok (mk_cont (ct_shape c) (ct_strides c) (ct_back c) (ct_layout c) (map (fun _ => x) (ct_data c))).

  (** misc/xpad.hpp 38-46 *)
  Inductive pad_mode := p_constant | p_symmetric | p_reflect | p_wrap | p_periodic | p_edge.

  (** Lines 88-99: the new shape and the slices of the centre *)
  Fixpoint pad_shape (esh : list Z) (pw : list (Z * Z)) : res (list Z * list user_slice) :=
    match esh with
    | [] => Ok ([], [])
    | n :: esh' =>
        match pw with
        | [] => UB
        | (nb, ne) :: pw' =>
            let* '(sh, sv) := pad_shape esh' pw' in
            Ok (nb + n + ne :: sh, URange (Some nb) (Some (nb + n)) None :: sv)
        end
    end.

  (** The slice vectors: xt::all but along one axis *)
  Definition along (dim axis : nat) (u : user_slice) : list user_slice := upd (repeat UAll dim) axis u.

  (** Lines 122-155: the padding before; lines 157-199: the padding after. [n] is
      e.shape(axis), [total] is out.shape(axis). *)
  Definition before_slice (mode : pad_mode) (n nb : Z) : option user_slice :=
    match mode with
    | p_wrap | p_periodic => Some (URange (Some n) (Some (nb + n)) None)
    | p_symmetric => Some (URange (Some (2 * nb - 1)) (Some (nb - 1)) (Some (-1)))
    | p_reflect => Some (URange (Some (2 * nb)) (Some nb) (Some (-1)))
    | p_edge => Some (URange (Some nb) (Some (nb + 1)) None)
    | p_constant => None
    end.
  Definition after_slice (mode : pad_mode) (n nb ne total : Z) : option user_slice :=
    match mode with
    | p_wrap | p_periodic => Some (URange (Some nb) (Some (nb + ne)) None)
    | p_symmetric =>
        Some (if ne =? nb + n then URange (Some (nb + n - 1)) None (Some (-1))
              else URange (Some (nb + n - 1)) (Some (nb + n - ne - 1)) (Some (-1)))
    | p_reflect =>
        Some (if ne =? nb + n - 1 then URange (Some (nb + n - 2)) None (Some (-1))
              else URange (Some (nb + n - 2)) (Some (nb + n - ne - 2)) (Some (-1)))
    | p_edge => Some (URange (Some (total - ne - 1)) (Some (total - ne)) None)
    | p_constant => None
    end.

  (** Lines 117-203: the body of the loop over the axes *)
  Definition pad_axis (mode : pad_mode) (esh : list Z) (pw : list (Z * Z)) (axis : nat) (out : cont V) : res (cont V) :=
    let dim := length esh in
    let* '(nb, ne) := rd pw axis in
    let* n := rd esh axis in
    let* out :=
      if 0 <? nb then
        match before_slice mode n nb with
        | Some s => region_copy out (along dim axis (URange (Some 0) (Some nb) None)) (along dim axis s)
        | None => Ok out
        end
      else Ok out in
    let* total := rd (ct_shape out) axis in
    if 0 <? ne then
      match after_slice mode n nb ne total with
      | Some s => region_copy out (along dim axis (URange (Some (total - ne)) (Some total) None)) (along dim axis s)
      | None => Ok out
      end
    else Ok out.

  (** Lines 72-207: pad(e, pad_width, mode, constant_value) *)
  Definition pad (mode : pad_mode) (esh : list Z) (e : list Z -> res V) (pw : list (Z * Z)) (x : V) : res (cont V) :=
    let* '(sh, sv) := pad_shape esh pw in
    match mode with
    | p_constant =>
        let* out := out_filled sh x in
        region_set out sv esh (fun _ => e)
    | _ =>
        let* out := out_of sh in
        let* out := region_set out sv esh (fun _ => e) in
        for_up (fun axis out => pad_axis mode esh pw axis out) 0 (length esh) out
    end.

  (** Lines 220-248: one pair of widths for all the axes, one width *)
  Definition pad_same (mode : pad_mode) (esh : list Z) (e : list Z -> res V) (w : Z * Z) (x : V) : res (cont V) :=
    pad mode esh e (repeat w (length esh)) x.

  (** Lines 257-293: detail::tile(e, reps) *)
  Fixpoint tile_shape (esh reps : list Z) : list Z * list user_slice :=
    match esh, reps with
    | n :: esh', r :: reps' =>
        let '(sh, sv) := tile_shape esh' reps' in
        (n * r :: sh, URange (Some 0) (Some n) None :: sv)
    | _, _ => ([], [])
    end.
  Definition tile_axis (esh reps : list Z) (axis : nat) (out : cont V) : res (cont V) :=
    let dim := length esh in
    let* n := rd esh axis in
    let* r := rd reps axis in
    for_up (fun i out =>
              region_copy out (along dim axis (URange (Some (Z.of_nat i * n)) (Some ((Z.of_nat i + 1) * n)) None))
                (along dim axis (URange (Some 0) (Some n) None)))
      1 (Z.to_nat r - 1) out.
  Definition tile (esh : list Z) (e : list Z -> res V) (reps : list Z) : res (cont V) :=
    let '(sh, sv) := tile_shape esh reps in
    let* out := out_of sh in
    let* out := region_set out sv esh (fun _ => e) in
    for_up (fun axis out => tile_axis esh reps axis out) 0 (length esh) out.
  (** Lines 318-324: tile(e, n) repeats along the first axis *)
  Definition tile_first (esh : list Z) (e : list Z -> res V) (r : Z) : res (cont V) :=
    let* tw := wr (repeat 1 (length esh)) 0 r in
    tile esh e tw.
End Pad.
