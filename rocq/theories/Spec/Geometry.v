(** Independent geometric notions: cells, lattice points, determinants,
    convex hulls. *)
From Coq Require Import ZArith Reals.
Open Scope Z_scope.

(** Points and cells as plain triples. *)
Definition cell := (Z * Z * Z)%type.
Definition point := (R * R * R)%type.

(** A box of cells: [o, o + w) along each axis. *)
Definition in_range (c o w : Z) : Prop := o <= c < o + w.
Definition in_box (c o w : cell) : Prop :=
  let '(x, y, z) := c in let '(ox, oy, oz) := o in let '(wx, wy, wz) := w in
  in_range x ox wx /\ in_range y oy wy /\ in_range z oz wz.

(** Congruence modulo the periodic grid width. *)
Definition cong (L a b : Z) : Prop := exists k, a = b + k * L.

(** Two ranges share a cell modulo [L]; they touch if one ends where the other starts. *)
Definition share (L o1 w1 o2 w2 : Z) : Prop :=
  exists a b, in_range a o1 w1 /\ in_range b o2 w2 /\ cong L a b.
Definition touch (L o1 w1 o2 w2 : Z) : Prop :=
  cong L (o1 + w1) o2 \/ cong L (o2 + w2) o1.

(** Lattice point number of a particle in an n x n x n array. *)
Definition lattice_index (n : Z) (c : cell) : Z :=
  let '(x, y, z) := c in x + n * (y + n * z).

Open Scope R_scope.

Definition padd (a b : point) : point :=
  let '(ax, ay, az) := a in let '(bx, by_, bz) := b in (ax + bx, ay + by_, az + bz).
Definition psub (a b : point) : point :=
  let '(ax, ay, az) := a in let '(bx, by_, bz) := b in (ax - bx, ay - by_, az - bz).
Definition pscale (k : R) (a : point) : point :=
  let '(ax, ay, az) := a in (k * ax, k * ay, k * az).
Definition pdot (a b : point) : R :=
  let '(ax, ay, az) := a in let '(bx, by_, bz) := b in ax * bx + ay * by_ + az * bz.
(** The right handed cross product. *)
Definition pcross (a b : point) : point :=
  let '(ax, ay, az) := a in let '(bx, by_, bz) := b in
  (ay * bz - az * by_, az * bx - ax * bz, ax * by_ - ay * bx).

Definition det3 (a b c : point) : R :=
  let '(a1, a2, a3) := a in let '(b1, b2, b3) := b in let '(c1, c2, c3) := c in
  a1 * (b2 * c3 - b3 * c2) - a2 * (b1 * c3 - b3 * c1) + a3 * (b1 * c2 - b2 * c1).

(** Oriented volume (times six) of the tetrahedron p q r s. *)
Definition odet (p q r s : point) : R := det3 (psub q p) (psub r p) (psub s p).

(** Weighted sum of four corners. *)
Definition combine (w1 w2 w3 w4 : R) (p q r s : point) : point :=
  padd (padd (pscale w1 p) (pscale w2 q)) (padd (pscale w3 r) (pscale w4 s)).

(** Closed tetrahedron and its interior. *)
Definition in_tetra (x p q r s : point) : Prop :=
  exists w1 w2 w3 w4, 0 <= w1 /\ 0 <= w2 /\ 0 <= w3 /\ 0 <= w4 /\ w1 + w2 + w3 + w4 = 1 /\
    x = combine w1 w2 w3 w4 p q r s.
Definition in_tetra_open (x p q r s : point) : Prop :=
  exists w1 w2 w3 w4, 0 < w1 /\ 0 < w2 /\ 0 < w3 /\ 0 < w4 /\ w1 + w2 + w3 + w4 = 1 /\
    x = combine w1 w2 w3 w4 p q r s.

Definition cell_point (c : cell) : point := let '(x, y, z) := c in (IZR x, IZR y, IZR z).

(** Congruence of reals modulo [L]. *)
Definition rcong (L a b : R) : Prop := exists k : Z, a = b + IZR k * L.
