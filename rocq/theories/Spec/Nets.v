(** Dyadic intervals of the unit line. *)
From Coq Require Import ZArith Reals.

(** The interval number [c] of length 1 / 2^p: from c / 2^p up to (c + 1) / 2^p. *)
Definition cell (p c : Z) (x : R) : Prop :=
  (IZR c / IZR (2 ^ p) <= x < (IZR c + 1) / IZR (2 ^ p))%R.
