(** Fields on a three dimensional grid stored in a list, and central
    differences, independently of the code. *)
From Coq Require Import ZArith List Reals.
From Verif Require Import Spec.Geometry.
Import ListNotations.
Open Scope Z_scope.

(** A box of w0 * w1 * w2 cells, the first coordinate running fastest. *)
Definition volume (w : cell) : Z := let '(a, b, c) := w in a * b * c.
Definition in_grid (w : cell) (k : cell) : Prop :=
  let '(a, b, c) := w in let '(x, y, z) := k in 0 <= x < a /\ 0 <= y < b /\ 0 <= z < c.
Definition cell_index (w : cell) (k : cell) : Z :=
  let '(a, b, c) := w in let '(x, y, z) := k in x + y * a + z * (a * b).
Definition at_cell (w : cell) (l : list R) (k : cell) : R := nth (Z.to_nat (cell_index w k)) l 0%R.

(** Coordinate number [axis], and the cell with that coordinate replaced. *)
Definition axis_of (axis : Z) (k : cell) : Z :=
  let '(x, y, z) := k in if axis =? 0 then x else if axis =? 1 then y else z.
Definition moved (axis : Z) (k : cell) (t : Z) : cell :=
  let '(x, y, z) := k in if axis =? 0 then (t, y, z) else if axis =? 1 then (x, t, z) else (x, y, t).

(** Central differences of second and fourth order with spacing h. *)
Definition central (ord : Z) (h : R) (f : Z -> R) (i : Z) : R :=
  (if Z.eqb ord 2 then (f (i + 1)%Z - f (i - 1)%Z) / (2 * h)
   else (- f (i + 2)%Z + 8 * f (i + 1)%Z - 8 * f (i - 1)%Z + f (i - 2)%Z) / (12 * h))%R.
