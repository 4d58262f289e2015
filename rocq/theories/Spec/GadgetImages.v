(** Sets of Gadget files that can be rendered, in real numbers. *)
From Coq Require Import ZArith List Reals Bool String Permutation.
From Verif Require Import Base.Res Base.ResFacts Base.Num Model.Geom Model.GridDeriv Base.Bytes Model.Density Model.Main Model.Manager Model.Gadget
  Spec.Files Spec.GeomDefs Spec.Work Spec.Renders Spec.Segments Spec.Pipelines Spec.Gadgets.
Import ListNotations.
Open Scope R_scope.

(** The particles of a set of files, in reals. *)
Definition real_particles (f32_of f64_of : Z -> R) (nar : Z -> Z) (con : convert_config R) : snapshot -> list (particle (vec3 R)) :=
  particles_of (ND := RNum) (NF := RNum) (fun x => x) (fun x => x) f32_of f64_of nar sqrt con.

(** All files have boxes of width [L], and no coordinate is more than one period
    off. *)
Definition in_periods (L : R) (f32_of f64_of : Z -> R) (nar : Z -> Z) (ss : list snapshot) : Prop :=
  0 < L /\ Forall (fun s => f64_of (sn_box s) = L /\
    Forall (fun c => - L <= f32_of (narrowed nar (sn_xwide s) c) < 2 * L) (coords (sn_x s))) ss.

(** The particles of every segment lie, along each axis, in a periodic interval
    shorter than half the simulation. *)
Definition narrow_segments (L : R) (n k cells : Z) (ps : list (particle (vec3 R))) : Prop :=
  forall x y z coord, (0 <= x < cells)%Z -> (0 <= y < cells)%Z -> (0 <= z < cells)%Z -> In coord [v0; v1; v2] ->
    exists lo len, 0 <= len < L / 2 /\ forall a b c p, (0 <= a <= k)%Z -> (0 <= b <= k)%Z -> (0 <= c <= k)%Z -> In p ps ->
      p_id p = (1 + periodic_index n (k * x + a) (k * y + b) (k * z + c))%Z -> periodic_in L lo len (coord (p_x p)).

(** How images are made: boxes that show all of the simulation in three dimensions. *)
Definition render_input (L : R) (cells skip k q workers : Z) (rnd : Z -> Z -> vec3 R) (choose : Z -> Z -> Z -> Z -> Z) (order : Z -> Z -> list Z)
    (files : list string) (boxes : list (rbox R)) : Prop :=
  (0 < skip <= k)%Z /\ (k mod skip = 0)%Z /\ boxes <> [] /\ Forall (fun b => box_ok L b /\ whole b /\ rb_proj b = None) boxes /\
  (1 <= workers)%Z /\ requires_velocity q = Ok false /\
  (forall bi j, unit_cube (rnd bi j)) /\ (forall i ri id j, (0 <= choose i ri id j < 64)%Z) /\ (forall i ri, Permutation (order i ri) (zseq workers)) /\
  lists_sheets cells files.

(** Files that hold all of a lattice of n^3 particles, to be written in cells^3
    segments of width k. *)
Definition gadget_input (L : R) (sys : Bytes.order) (f32_of f64_of : Z -> R) (nar : Z -> Z) (pow : R -> R -> R) (con : convert_config R)
    (s : snapshot) (ss : list snapshot) (n k cells : Z) : Prop :=
  set_ok (cv_idSize con) (s :: ss) /\ Forall (readable sys) (s :: ss) /\ in_periods L f32_of f64_of nar (s :: ss) /\ cv_xUnits con = 1 /\ cv_cells con = cells /\
  (0 < cells)%Z /\ n = (cells * k)%Z /\ all_dark s = (n * n * n)%Z /\ int_cube_root (ND := RNum) pow (n * n * n) = Ok n /\ complete (n * n * n) (ids_of (s :: ss)) /\
  narrow_segments L n k cells (flat_map (real_particles f32_of f64_of nar con) (s :: ss)).
