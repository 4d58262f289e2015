(** Straight lines through a cube of cells, independently of the code. *)
From Coq Require Import ZArith List Reals.
From Flocq Require Import Core.Raux.
Import ListNotations.

(** A point of space, or the position of a cell: one coordinate for each of the
    axes 0, 1 and 2. *)
Definition next_axis (m : Z) : Z := (m + 1) mod 3.
Definition last_axis (m : Z) : Z := (m + 2) mod 3.

(** The cell with coordinate [i] on axis [m] and [a], [b] on the next two axes. *)
Definition place (m i a b : Z) : Z -> Z := fun axis =>
  if (axis =? m)%Z then i else if (axis =? next_axis m)%Z then a else b.

(** The value in a cell of a box of [w 0] x [w 1] x [w 2] cells, x fastest. *)
Definition cell_value (w : Z -> Z) (grid : list R) (c : Z -> Z) : R :=
  nth (Z.to_nat (c 0 + w 0 * (c 1 + w 1 * c 2))%Z) grid 0%R.

Open Scope R_scope.

(** Bilinear interpolation of values given at the integer points. *)
Definition bilinear (f : Z -> Z -> R) (a b : R) : R :=
  let i := Zfloor a in let j := Zfloor b in
  let p := a - IZR i in let q := b - IZR j in
  (1 - p) * (1 - q) * f i j + (1 - p) * q * f i (j + 1)%Z + p * (1 - q) * f (i + 1)%Z j + p * q * f (i + 1)%Z (j + 1)%Z.

(** The point at distance [t] from the center of a box, in direction [u]. *)
Definition on_line (w : Z -> Z) (u : Z -> R) (t : R) : Z -> R := fun axis => IZR (w axis) / 2 + t * u axis.

(** The density on the line in the layer of cells that the point is in along
    axis [m]. *)
Definition line_density (w : Z -> Z) (grid : list R) (u : Z -> R) (m : Z) (t : R) : R :=
  let p := on_line w u t in
  bilinear (fun a b => cell_value w grid (place m (Zfloor (p m)) a b)) (p (next_axis m)) (p (last_axis m)).

(** [m] is an axis along which [u] is longest. *)
Definition longest (u : Z -> R) (m : Z) : Prop :=
  (0 <= m < 3)%Z /\ forall i, (0 <= i < 3)%Z -> Rabs (u i) <= Rabs (u m).

(** Cell [c] of a box that starts at cell [o] of a periodic axis of [n] cells is
    one of the cells [lo], ..., [hi]-1 or an image of one. *)
Definition covered (n o lo hi c : Z) : Prop := (exists x k, lo <= x < hi /\ x = o + c + k * n)%Z.

(** Squared length. *)
Definition length2 (u : Z -> R) : R := u 0%Z * u 0%Z + u 1%Z * u 1%Z + u 2%Z * u 2%Z.

(** Distance of the center of cell [c] from the point [p], both in units of
    the cell width. *)
Definition cell_distance (c : Z -> Z) (p : Z -> R) : R :=
  sqrt (length2 (fun axis => IZR (c axis) + 1 / 2 - p axis)).

(** The point at which a random direction starts, for numbers in [0,1): in the
    cube around the origin, or in the square across [axis]. *)
Definition cube_point (f : Z -> R) (axis : Z) : Z -> R := fun k => if (k =? axis)%Z then 0 else f k * 2 - 1.
