(** The set-up of the statement about the mass of a whole segment. *)
From Coq Require Import ZArith List Reals Bool.
From Verif Require Import Base.Res Base.Num Model.Geom Model.Box Model.Render.
From Verif Require Import Spec.Geometry Spec.GeomDefs Spec.Work Spec.Deposits.
Import ListNotations.
Open Scope R_scope.

(** A unit buffer holds [points] folded points of the unit cube. *)
Definition good_unit (points : Z) (u : list (vec3 R)) : Prop :=
  exists ps, Forall unit_cube ps /\ zlen ps = points /\ u = distribute_unit ps.

(** Tetrahedron [dir] of the cube at [c] meets the domain. *)
Definition meets (mc : mcarlo R) (xs : list (vec3 R)) (c : cell) (dir : Z) : bool :=
  match tetra_idxs (lattice_index (mc_seg mc + 1) c) (mc_seg mc + 1) (mc_skip mc) dir with
  | Ok i =>
      let corner k := nth (Z.to_nat k) xs zero3 in
      cb_intersect (tetra_cell_bounds (tetra_init tetra_zero (corner (i0 i)) (corner (i1 i)) (corner (i2 i)) (corner (i3 i))) 1)
        (rel_cb mc) (mc_cells mc)
  | _ => false
  end.

(** Number of tetrahedra of the given cubes that meet the domain. *)
Definition meeting (mc : mcarlo R) (xs : list (vec3 R)) (l : list cell) : Z :=
  Z.of_nat (length (filter (fun p => meets mc xs (fst p) (snd p)) (list_prod l (zseq 6)))).

Definition segment_setup (mc : mcarlo R) (xs : list (vec3 R)) : Prop :=
  okd (mc_sub mc) = Segment3D /\ valid_overlap (mc_sub mc) /\
  (0 < mc_skip mc <= mc_seg mc)%Z /\ (0 < mc_points mc)%Z /\
  zlen xs = ((mc_seg mc + 1) * (mc_seg mc + 1) * (mc_seg mc + 1))%Z /\
  Forall (placeable (mc_sub mc)) xs /\
  Forall (good_unit (mc_points mc)) (mc_unit mc) /\
  (forall n, (0 <= mc_choose mc n < zlen (mc_unit mc))%Z).
