(** The cube of [real_sheet] moving with velocity (3, 5, 7), a box that shows the
    whole simulation, and a projection along z of a slab of two cells of width 1. *)
From Coq Require Import ZArith List Reals.
From Verif Require Import Base.Res Base.Num Model.Geom Model.GridDeriv Model.Density Model.Box Model.Render Model.SheetIO Model.Manager Spec.ManagerEx.
Import ListNotations.
Open Scope Z_scope.

Definition wind : vec3 R := (V3 3 5 7)%R.
Definition wind_sheet : sheet_file R R := SF (sf_hd real_sheet) (sf_xs real_sheet) (repeat wind 8).
Definition wind_box : rbox R := RB (CB (V3 0 0 0) (V3 4 4 4)) 1 4 2%R None (Vector (repeat (V3 0 0 0)%R 64) (repeat 0 64)).
Definition wind_slab : rbox R := RB (CB (V3 0 0 1) (V3 8 8 2)) 1 8 1%R (Some 2) (Vector (repeat (V3 0 0 0)%R 64) (repeat 0 64)).
