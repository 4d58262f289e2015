(** From a lattice of particles to images. *)
From Coq Require Import ZArith List Reals Bool String Permutation.
From Flocq Require Import Core.Raux.
From Verif Require Import Base.Res Base.ResFacts Model.Geom Model.GridDeriv Model.Density Model.Main Model.Manager Spec.GeomDefs Spec.Work Spec.Renders Spec.Segments.
Import ListNotations.
Open Scope R_scope.

(** The particles of every segment lie, along each axis, in a periodic interval
    shorter than half the simulation. *)
Definition narrow (L : R) (d : vec3 R) (n s cells : Z) (xs : list (vec3 R)) : Prop :=
  forall x y z coord, (0 <= x < cells)%Z -> (0 <= y < cells)%Z -> (0 <= z < cells)%Z -> In coord [v0; v1; v2] ->
    exists lo len, 0 <= len < L / 2 /\ forall a b c, (0 <= a <= s)%Z -> (0 <= b <= s)%Z -> (0 <= c <= s)%Z ->
      periodic_in L lo len (coord (zn d xs (periodic_index n (s * x + a) (s * y + b) (s * z + c)))).

(** The first place at or above [o] that is [x] up to periods. *)
Definition unwrap1 (L o x : R) : R := x + IZR (Zceil ((o - x) / L)) * L.
Definition unwrap (L : R) (o x : vec3 R) : vec3 R :=
  V3 (unwrap1 L (v0 o) (v0 x)) (unwrap1 L (v1 o) (v1 x)) (unwrap1 L (v2 o) (v2 x)).
Definition unwrap_sheet (L : R) (f : sheet_file R R) : list (vec3 R) := map (unwrap L (s_origin (sf_hd f))) (sf_xs f).

(** The names of all segments, in some order. *)
Definition lists_sheets (cells : Z) (files : list string) : Prop :=
  NoDup files /\ forall file, In file files <->
    exists x y z, (0 <= x < cells)%Z /\ (0 <= y < cells)%Z /\ (0 <= z < cells)%Z /\ file = sheet_name x y z.

(** What is asked of a conversion and a rendering run: a complete lattice, in
    segments that are whole numbers of steps wide, and boxes that show all of the
    simulation in three dimensions. *)
Definition pipeline_input (L : R) (d : vec3 R) (n s cells skip : Z) (xs vs : list (vec3 R)) (q workers : Z) (rnd : Z -> Z -> vec3 R)
  (choose : Z -> Z -> Z -> Z -> Z) (order : Z -> Z -> list Z) (files : list string) (boxes : list (rbox R)) : Prop :=
  (0 < L)%R /\ (0 < cells)%Z /\ (0 < skip <= s)%Z /\ (s mod skip = 0)%Z /\ n = (cells * s)%Z /\ zlen xs = (n * n * n)%Z /\ zlen vs = (n * n * n)%Z /\
  (forall a, In a [0; 1; 2]%Z -> Forall (fun x => (0 <= vget x a < L)%R) xs) /\ narrow L d n s cells xs /\
  boxes <> [] /\ Forall (fun b => box_ok L b /\ whole b /\ rb_proj b = None) boxes /\
  (1 <= workers)%Z /\ requires_velocity q = Ok false /\
  (forall bi j, unit_cube (rnd bi j)) /\ (forall k ri id j, (0 <= choose k ri id j < 64)%Z) /\ (forall k ri, Permutation (order k ri) (zseq workers)) /\
  lists_sheets cells files.
