(** Arrays as numpy indexes them, and the files they are read from. *)
From Coq Require Import ZArith List Bool.
From Verif Require Import Base.Res Base.Bytes Model.Geom Model.GridIO Model.PyGrid Model.RenderMain Spec.Files.
Import ListNotations.
Open Scope Z_scope.

(** Element [i0, i1, ...] of an array in C order: the last index is the fastest. *)
Fixpoint place (sh idx : list Z) : option Z :=
  match sh, idx with
  | [], [] => Some 0
  | d :: sh, i :: idx =>
      if (0 <=? i) && (i <? d) then
        match place sh idx with Some p => Some (i * fold_right Z.mul 1 sh + p) | None => None end
      else None
  | _, _ => None
  end.
Definition element (a : nda) (idx : list Z) : option Z :=
  match place (shape a) idx with Some p => nth_error (elems a) (Z.to_nat p) | None => None end.

(** The axes an image extends along, slowest first, when it is projected along
    [axis]; -1 for no projection. *)
Definition kept (axis : Z) : list Z := filter (fun i => negb (i =? axis)) [2; 1; 0].
Definition span_along (l : location_info) (i : Z) : Z :=
  if i =? 0 then v0 (li_pixelSpan l) else if i =? 1 then v1 (li_pixelSpan l) else v2 (li_pixelSpan l).
Definition image_shape (axis : Z) (l : location_info) : list Z := map (span_along l) (kept axis).
Definition image_len (axis : Z) (l : location_info) : Z := fold_right Z.mul 1 (image_shape axis l).

(** A header that describes its image: types that fit, a known axis, no negative size. *)
Definition describes (q : Z) (c : cosmo_info) (r : render_info) (l : location_info) : Prop :=
  typed_out q c r l /\ In (ri_axis r) [-1; 0; 1; 2] /\
  (forall i, 0 <= span_along l i) /\ image_len (ri_axis r) l < 2 ^ 63.

(** The arrays of an image as bit patterns. *)
Definition bits_of {F} (enc : F -> Z) (im : image F) : finalized :=
  match im with
  | Plain xs => FScalar (map enc xs)
  | Triple v => FVector (map enc (v0 v)) (map enc (v1 v)) (map enc (v2 v))
  end.
Definition image_arrays {F} (im : image F) : list (list F) :=
  match im with Plain xs => [xs] | Triple v => [v0 v; v1 v; v2 v] end.
Definition array_of {F} (enc : F -> Z) (sh : list Z) (im : image F) : py_grid :=
  match im with
  | Plain xs => PyScalar (NDA sh (map enc xs))
  | Triple v => PyVector (NDA sh (map enc (v0 v))) (NDA sh (map enc (v1 v))) (NDA sh (map enc (v2 v)))
  end.

(** The header as Python sees it. *)
Definition header_seen (q : Z) (c : cosmo_info) (r : render_info) (l : location_info) : py_header :=
  PH 2 (PS 336 24 64 40 104 104) (PT (-1) 344 q (negb ((q =? 0) || (q =? 3)))) c r l.
