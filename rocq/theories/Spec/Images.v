(** Projections and the inputs of counterexamples. *)
From Coq Require Import ZArith List.
From Verif Require Import Base.Num Base.IEEE Model.Geom Model.GridDeriv Model.Box Spec.Deposits.
Import ListNotations.

(** Cells along the projection axis. *)
Definition depth (w : overlap) : Z :=
  let '(_, _, k) := image_axes (oproj w) in
  match okd w with Segment2D => vget (width (domCb w)) k | Domain2D => vget (width (bufCb w)) k | _ => 1%Z end.

(** The velocity field (0, y, 0) on the cube of side 5, one point per cell. *)
Definition y_flow : list (vec3 f64) :=
  map (fun i => V3 (nofZ 0) (nofZ (Z.of_nat i / 5 mod 5)) (nofZ 0)) (seq 0 125).

(** A projection of depth 2 and a point with velocity 4. *)
Definition proj_bad : overlap := Overlap Domain2D (CB (V3 0 0 0) (V3 6 6 2))%Z (CB (V3 0 0 0) (V3 6 6 2))%Z 16 2.
Definition four : vec3 f64 := V3 (nofZ 4) (nofZ 4) (nofZ 4).
Definition half32 : f32 := (nofZ 1 / nofZ 2)%num.
