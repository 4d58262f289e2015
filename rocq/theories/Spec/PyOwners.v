(** The places of particles in the arrays x of a conversion. *)
From Coq Require Import ZArith.
From Verif Require Import Spec.Segments.
Open Scope Z_scope.

(** Particle [i] of a lattice of width [n] stands in the array x of the file of
    segment (x, y, z), at (c, b, a); compare [sees_cube]. *)
Definition stands (n s cells i : Z) (t : Z * Z * Z * Z * Z * Z) : Prop :=
  let '(x, y, z, a, b, c) := t in
  (0 <= x < cells /\ 0 <= y < cells /\ 0 <= z < cells) /\ (0 <= a < s /\ 0 <= b < s /\ 0 <= c < s) /\
  i = periodic_index n (s * x + a) (s * y + b) (s * z + c).
