(** Notions used in the statements about grid derivatives that mention the
    model's types. *)
From Coq Require Import ZArith List Reals.
From Verif Require Import Base.Num Base.IEEE Model.Geom Model.GridDeriv Spec.Geometry Spec.Fields.
Import ListNotations.

Definition wcell (w : vec3 Z) : cell := (v0 w, v1 w, v2 w).

(** Old value and new contribution under the three operators. *)
Definition combine_op (op : deriv_op) (a b : R) : R :=
  match op with OpNone => b | OpAdd => a + b | OpSubtract => a - b end%R.

(** Cells at least h cells away from every face. *)
Definition away (h : Z) (w c : cell) : Prop :=
  let '(a, b, d) := w in let '(x, y, z) := c in (h <= x < a - h /\ h <= y < b - h /\ h <= z < d - h)%Z.

(** Central difference of a stored field along an axis. *)
Definition part (w : cell) (ord : Z) (dx : R) (vals : list R) (axis : Z) (c : cell) : R :=
  central ord dx (fun k => at_cell w vals (moved axis c k)) (axis_of axis c).

(** A cube of side 5 with cells of unit size. *)
Definition cube5 : grid_location f64 := new_grid_location (V3 0 0 0)%Z (V3 5 5 5)%Z (nofZ 5) 5.
Definition field5 (f : Z -> Z -> Z -> Z) : list f32 :=
  map (fun i => nofZ (let i := Z.of_nat i in f (i mod 5) (i / 5 mod 5) (i / 25))%Z) (seq 0 125).
Definition zero5 : list f32 := repeat (nofZ 0) 125.
