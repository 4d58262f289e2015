(** Runs of renderMain on the sheet of [wind_sheet] with pixels of width 1. *)
From Coq Require Import ZArith String List Reals.
From Verif Require Import Base.Res Base.Num Model.Geom Model.GridDeriv Model.Config Model.Density Model.Box Model.SheetIO Model.Main Model.Manager Model.RenderMain Spec.ManagerEx Spec.RenderMains Spec.RenderMainEx Spec.VelEx Spec.Writtens.
Import ListNotations.
Open Scope Z_scope.

Definition eight_pixels : render_config := RC 8 1 false 0 0 1.
Definition names_for (quantity : string) : render_names := RN quantity "out" "" "".
(** A cube of width [w] that starts in pixel [o]. *)
Definition wind_cube (o : Z) (w : R) : box_config R := BoxC (V3 (IZR o) (IZR o) (IZR o)) (V3 w w w) "".
Definition wind_bounds (o : Z) (w : R) : list (string * box_config R) := [("all"%string, wind_cube o w)].
(** The input of a run for [q] with that cube. *)
Definition wind_input (name : string) (q o : Z) (w : R) : Prop :=
  vel_main_input 8 eight_pixels (names_for name) [Some (BF [] (wind_bounds o w))] [wind_bounds o w] q 1
    (fun _ _ => quarter) (fun _ _ _ _ => 0) (fun _ _ => [0]) (fun _ => Some wind_sheet) (fun _ => wind_sheet) (fun _ => sf_xs wind_sheet) ["sheet"%string] 8.
Definition still_input (name : string) (q o : Z) (w : R) : Prop :=
  main_input 8 eight_pixels (names_for name) [Some (BF [] (wind_bounds o w))] [wind_bounds o w] q 1
    (fun _ _ => quarter) (fun _ _ _ _ => 0) (fun _ _ => [0]) (fun _ => Some wind_sheet) (fun _ => wind_sheet) (fun _ => sf_xs wind_sheet) ["sheet"%string] 8.
