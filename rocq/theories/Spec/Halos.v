(** Halo catalogues in a periodic box, independently of the code. *)
From Coq Require Import ZArith List Sorted Reals.
From Verif Require Import Spec.Geometry.
Import ListNotations.
Open Scope R_scope.

(** The point at [x], or one of its images in the periodic box of width [W],
    lies in cell [k] of the [c] equal cells of [0,W). *)
Definition in_cell1 (W : R) (c k : Z) (x : R) : Prop :=
  exists m : Z, W / IZR c * IZR k <= x + IZR m * W < W / IZR c * IZR (k + 1).

Definition in_cell3 (W : R) (c : Z) (k : cell) (p : point) : Prop :=
  let '(kx, ky, kz) := k in let '(x, y, z) := p in
  in_cell1 W c kx x /\ in_cell1 W c ky y /\ in_cell1 W c kz z.

Definition descending (l : list Z) : Prop := StronglySorted (fun a b => (b < a)%Z) l.
Definition ascending (l : list Z) : Prop := StronglySorted Z.lt l.

Definition pdist (p q : point) : R := sqrt (pdot (psub p q) (psub p q)).

(** Spheres around [p] and [q] with radii [rp] and [rq] overlap or touch. *)
Definition spheres_meet (p q : point) (rp rq : R) : Prop := pdist p q <= rp + rq.

(** ... for some periodic image of the second. *)
Definition spheres_meet_periodic (W : R) (p q : point) (rp rq : R) : Prop :=
  exists k : cell, spheres_meet p (padd q (pscale W (cell_point k))) rp rq.

(** Along one axis the interval of half-width [r] around [x] stays in [0,W). *)
Definition stays_inside (W r x : R) : Prop := 0 <= x - r /\ x + r < W.
Definition stays_inside3 (W r : R) (p : point) : Prop :=
  let '(x, y, z) := p in stays_inside W r x /\ stays_inside W r y /\ stays_inside W r z.

(** ... or is at least one cell of a grid of [c] cells shorter than the box. *)
Definition reach_ok (W : R) (c : Z) (r x : R) : Prop := stays_inside W r x \/ 2 * r + W / IZR c <= W.
Definition reach_ok3 (W : R) (c : Z) (r : R) (p : point) : Prop :=
  let '(x, y, z) := p in reach_ok W c r x /\ reach_ok W c r y /\ reach_ok W c r z.

Definition in_cube (W : R) (p : point) : Prop :=
  let '(x, y, z) := p in 0 <= x < W /\ 0 <= y < W /\ 0 <= z < W.

(** Coordinates that differ by at most half the box. *)
Definition near1 (W x y : R) : Prop := Rabs (x - y) <= W / 2.
Definition near3 (W : R) (p q : point) : Prop :=
  let '(px, py, pz) := p in let '(qx, qy, qz) := q in near1 W px qx /\ near1 W py qy /\ near1 W pz qz.
