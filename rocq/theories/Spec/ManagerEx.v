(** A sheet of one cube in a simulation of width 10 and a box of 5 cells a side
    on a grid of 21 cells, in float64 and float32.  The low corner of the cube is
    at [lo], the high one at 3/2. *)
From Coq Require Import ZArith String List Bool Reals.
From Verif Require Import Base.Res Base.Num Base.IEEE Base.Convert Model.Geom Model.GridDeriv Model.Density Model.Box Model.Render Model.SheetIO Model.Manager.
Import ListNotations.
Open Scope Z_scope.

Definition cube_sheet (lo : f32) : sheet_file f64 f32 :=
  let c (bit : Z) := if bit =? 0 then lo else f32lit 3 (-1) in
  SF (Sheet (nofZ 10) 1 1 8 (V3 lo lo lo) (V3 (nofZ 2) (nofZ 2) (nofZ 2)))
     (map (fun i => V3 (c (i mod 2)) (c (i / 2 mod 2)) (c (i / 4))) [0; 1; 2; 3; 4; 5; 6; 7]) [].
Definition small_box : rbox f64 :=
  RB (CB (V3 0 0 0) (V3 5 5 5)) 1 21 (ndiv (nofZ 10) (nofZ 21)) None (Scalar (repeat (nofZ 0) 125)).
(** The job with one file, one box, one worker and one sample point per tetrahedron. *)
Definition cube_job (lo : f32) : res (list (rbox f64)) :=
  render_job to_f64 to_f32 (fun _ => Some (cube_sheet lo)) 1
    (fun _ _ => V3 (f32lit 1 (-2)) (f32lit 1 (-2)) (f32lit 1 (-2))) (fun _ _ _ _ => 0) (fun _ _ => [0])
    ["sheet"%string] [small_box] Density 1.
(** The scaled x coordinate of the particle at the low corner. *)
Definition cube_scaled (lo : f32) (w : overlap) : f32 :=
  v0 (nth 0 (scale_xs to_f32 w (sheet_cells to_f64 (sf_hd (cube_sheet lo)) 21) (nmul (rb_cw small_box) (nofZ 21)) (sf_xs (cube_sheet lo)))
      (V3 (nofZ 0) (nofZ 0) (nofZ 0))).
(** A float32 a little above 10 / 21. *)
Definition on_edge : f32 := f32lit 15978301 (-25).

(** One cube of a simulation of width 8 and a box that shows all of it, in reals. *)
Definition real_sheet : sheet_file R R :=
  SF (Sheet 8%R 1 1 8 (V3 1 1 1)%R (V3 1 1 1)%R)
     [V3 1 1 1; V3 2 1 1; V3 1 2 1; V3 2 2 1; V3 1 1 2; V3 2 1 2; V3 1 2 2; V3 2 2 2]%R [].
Definition real_box : rbox R := RB (CB (V3 0 0 0) (V3 4 4 4)) 1 4 2%R None (Scalar (repeat 0%R 64)).
Definition quarter : vec3 R := V3 (1 / 4)%R (1 / 4)%R (1 / 4)%R.
