(** Slopes on a line of equally spaced points, independently of the code. *)
From Coq Require Import ZArith List Reals Bool.
From Verif Require Import Spec.Geometry Spec.Fields.
Import ListNotations.
Open Scope Z_scope.

(** Weights for the slope at point [p] of [ord + 1] neighbouring points, in units of
    1/2 or 1/12 of the inverse distance. *)
Definition weights (ord p : Z) : list Z :=
  nth (Z.to_nat p)
    (if ord =? 2 then [[-3; 4; -1]; [-1; 0; 1]; [1; -4; 3]]
     else [[-25; 48; -36; 16; -3]; [-3; -10; 18; -6; 1]; [1; -8; 0; 8; -1]; [-1; 6; -18; 10; 3]; [3; -16; 36; -48; 25]]) [].
Fixpoint weighted (ws : list Z) (f : Z -> R) (lo : Z) : R :=
  match ws with [] => 0%R | w :: ws => (IZR w * f lo + weighted ws f (lo + 1)%Z)%R end.
Definition stencil (ord : Z) (h : R) (f : Z -> R) (lo p : Z) : R :=
  (weighted (weights ord p) f lo / ((if Z.eqb ord 2 then 2 else 12) * h))%R.

(** The first of the [ord + 1] points around [i] on a line of the points 0..n-1. *)
Definition window (ord n i : Z) : Z := Z.max 0 (Z.min (i - ord / 2) (n - 1 - ord)).
(** The slope at [i]: from the points around it, on a circle or on a line with ends. *)
Definition line_slope (ord : Z) (h : R) (n : Z) (circle : bool) (f : Z -> R) (i : Z) : R :=
  if circle then stencil ord h (fun k => f (k mod n)) (i - ord / 2) (ord / 2)
  else stencil ord h f (window ord n i) (i - window ord n i).

(** The slope along an axis of a field on a grid. *)
Definition field_slope (w : cell) (ord : Z) (h : R) (circle : bool) (vals : list R) (axis : Z) (c : cell) : R :=
  line_slope ord h (axis_of axis w) circle (fun k => at_cell w vals (moved axis c k)) (axis_of axis c).
(** The same weights on the cells next to [c] in the list, as if they were the
    neighbours along axis 2. *)
Definition list_slope (w : cell) (ord : Z) (h : R) (circle : bool) (vals : list R) (c : cell) : R :=
  line_slope ord h (axis_of 2 w) circle (fun k => nth (Z.to_nat (cell_index w c + (k - axis_of 2 c))) vals 0%R) (axis_of 2 c).
(** At least [h] cells away from the two faces across axis 2. *)
Definition inside2 (h : Z) (w c : cell) : bool := (h <=? axis_of 2 c) && (axis_of 2 c <? axis_of 2 w - h).
(** The slope, but next to the faces across axis 2 the one along the list. *)
Definition taken_slope (w : cell) (ord : Z) (h : R) (circle : Z -> bool) (vals : list R) (axis : Z) (c : cell) : R :=
  if (axis =? 2) && negb (inside2 (ord / 2) w c) then list_slope w ord h (circle 2) vals c
  else field_slope w ord h (circle axis) vals axis c.
