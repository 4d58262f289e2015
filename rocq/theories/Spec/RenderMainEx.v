(** Small runs of renderMain used as witnesses and examples. *)
From Coq Require Import ZArith String List Reals.
From Verif Require Import Base.Res Base.Num Base.IEEE Base.Convert Model.Geom Model.Config Model.Density Model.Box Model.SheetIO Model.Main Model.Manager Model.RenderMain Spec.ManagerEx.
Import ListNotations.
Open Scope Z_scope.

(** Four pixels across the simulation, one point per tetrahedron. *)
Definition four_pixels : render_config := RC 4 1 false 0 0 1.
Definition density_names : render_names := RN "Density" "out" "" "".
(** A cubic box at the origin, and a ball at 5. *)
Definition cube_config {D} {ND : Num D} (w : D) (axis : string) : box_config D := BoxC (V3 #0 #0 #0)%num (V3 w w w) axis.
Definition ball_config5 : ball_config f64 := BallC (nofZ 5) (nofZ 5) (nofZ 5) (nofZ 1) (nofZ 0).
(** The sheet of [cube_job], which is all of a simulation of width 10, and one
    bounds file. *)
Definition main_job (balls : list (string * ball_config f64)) (boxes : list (string * box_config f64)) :
    res (list (string * (location f64 * render_record * contents f64))) :=
  render_main to_f64 to_f32 (fun _ => Some (cube_sheet (f32lit 1 (-1)))) 1
    (fun _ _ => V3 (f32lit 1 (-2)) (f32lit 1 (-2)) (f32lit 1 (-2))) (fun _ _ _ _ => 0) (fun _ _ => [0])
    ["sheet"%string] four_pixels density_names [Some (BF balls boxes)].
(** Number of values, and a value in hundredths rounded down. *)
Definition value_count (c : contents f64) : Z := match c with Scalar v => Z.of_nat (List.length v) | Vector v _ => Z.of_nat (List.length v) end.
Definition value_at (c : contents f64) (k : nat) : Z := match c with Scalar v => nfloor (nmul (nofZ 100) (nth k v (nofZ 0))) | _ => -1 end.
Definition total_value (c : contents f64) : Z := match c with Scalar v => nfloor (fold_right nadd (nofZ 0) v) | _ => -1 end.
(** In a simulation of width 8 with four pixels it starts in the first pixel and
    ends in the last. *)
Definition real_config : box_config R := cube_config 6%R "".
