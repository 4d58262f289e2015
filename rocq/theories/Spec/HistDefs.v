(** Notions used in the statements about render/hist.go that mention the
    model's record types. *)
From Coq Require Import ZArith List Reals Bool.
From Verif Require Import Base.Res Base.Num Model.Geom Model.GridDeriv Model.Hist.
From Verif Require Import Spec.Geometry Spec.GeomDefs Spec.Work Spec.Histograms.
Import ListNotations.
Open Scope R_scope.

Definition info_ok (info : hist_info R) : Prop :=
  (0 < hi_bins info)%Z /\ hi_min info < hi_max info /\ (is_log info = true -> 0 < hi_min info).

(** The region of the sheet: origin in the periodic box, not wider than the box. *)
Definition sheet_ok (hd : hist_sheet R R) : Prop :=
  forall k, (0 <= k < 3)%Z -> 0 <= vget (hs_origin hd) k < hs_total hd /\ 0 <= vget (hs_width hd) k <= hs_total hd.
Definition hist_box_ok (L : R) (box : hist_box R) : Prop :=
  forall k, (0 <= k < 3)%Z -> 0 <= vget (hb_origin box) k < L /\ 0 <= vget (hb_span box) k <= L.
Definition in_box_R (L : R) (v : vec3 R) : Prop := forall k, (0 <= k < 3)%Z -> 0 <= vget v k < L.

Definition grid_ok (g : hist_grid R) : Prop :=
  0 < hg_pixelWidth g /\ forall k, (0 <= k < 3)%Z ->
    (1 <= vget (hg_pixels g) k)%Z /\ vget (hg_span g) k = IZR (vget (hg_pixels g) k) * hg_pixelWidth g /\
    vget (hg_span g) k <= hg_box g /\ 0 <= vget (hg_origin g) k < hg_box g.
(** Pixel (i, j, k) of the grid holds the position [v]. *)
Definition grid_pixel (g : hist_grid R) (v : vec3 R) (p : cell) : Prop :=
  let holds a i := (0 <= i < vget (hg_pixels g) a)%Z /\ pixel_holds (hg_box g) (vget (hg_origin g) a) (hg_pixelWidth g) (vget v a) i in
  let '(i, j, k) := p in holds 0%Z i /\ holds 1%Z j /\ holds 2%Z k.
Definition pixel_number (g : hist_grid R) (p : cell) : Z :=
  let '(i, j, k) := p in (i + vget (hg_pixels g) 0 * (j + vget (hg_pixels g) 1 * k))%Z.
Definition pixel_total (g : hist_grid R) : Z := (vget (hg_pixels g) 0 * vget (hg_pixels g) 1 * vget (hg_pixels g) 2)%Z.

(** The value found for a sample at the (periodic) position [p]: flagged exactly
    if p is strictly inside the box and on the grid, with the value of its pixel. *)
Definition sample_at (L : R) (box : hist_box R) (g : hist_grid R) (grid : list R) (p : vec3 R) (s : R * bool) : Prop :=
  (snd s = true <-> (forall k, (0 <= k < 3)%Z -> strictly_in L (vget (hb_origin box) k) (vget (hb_span box) k) (vget p k)) /\
                    exists px, grid_pixel g p px) /\
  (snd s = true -> forall px, grid_pixel g p px -> get grid (pixel_number g px) = Ok (fst s)).

Definition zero3h : vec3 R := V3 0 0 0.
Definition particle (w : Z) (xs : list (vec3 R)) (c : cell) : vec3 R := nth (Z.to_nat (lattice_index w c)) xs zero3h.

(** [ss] holds one value for each point of one of the unit buffers, carried into
    the tetrahedron [dir] of the cube at [c]. *)
Definition tetra_samples (units : list (list (vec3 R))) (hd : hist_sheet R R) (skip : Z) (xs : list (vec3 R)) (box : hist_box R) (g : hist_grid R) (grid : list R)
    (job : cell * Z) (ss : list (R * bool)) : Prop :=
  exists A B C D u, code_tetra (hs_grid hd) skip (fst job) (snd job) A B C D /\ In u units /\
    Forall2 (fun q s => exists p, sample_at (hs_total hd) box g grid p s /\
      tup p = Geometry.combine (v0 q) (v1 q) (v2 q) (1 - v0 q - v1 q - v2 q)
                (tup (particle (hs_grid hd) xs A)) (tup (particle (hs_grid hd) xs B))
                (tup (particle (hs_grid hd) xs C)) (tup (particle (hs_grid hd) xs D))) u ss.

(** The cubes whose base particle lies strictly inside the sheet's region. *)
Definition base_inside (hd : hist_sheet R R) (xs : list (vec3 R)) (c : cell) : Prop :=
  forall k, (0 <= k < 3)%Z -> strictly_in (hs_total hd) (vget (hs_origin hd) k) (vget (hs_width hd) k) (vget (particle (hs_grid hd) xs c) k).

Definition zsum (l : list Z) : Z := fold_right Z.add 0%Z l.

(** Everything a worker needs: a lattice with one particle per point, all in the
    periodic box, a grid with one value per pixel, unit buffers of equal size. *)
Definition hist_setup (points : Z) (hd : hist_sheet R R) (skip : Z) (xs : list (vec3 R)) (box : hist_box R) (info : hist_info R)
    (g : hist_grid R) (grid : list R) (units : list (list (vec3 R))) : Prop :=
  sheet_ok hd /\ (0 < skip)%Z /\ (0 < hs_seg hd)%Z /\ (hs_seg hd mod skip = 0)%Z /\ hs_grid hd = (hs_seg hd + 1)%Z /\
  zlen xs = (hs_grid hd * hs_grid hd * hs_grid hd)%Z /\ Forall (in_box_R (hs_total hd)) xs /\
  hist_box_ok (hs_total hd) box /\ info_ok info /\
  grid_ok g /\ hg_box g = hs_total hd /\ zlen grid = pixel_total g /\ (is_log info = true -> Forall (fun d => 0 < d) grid) /\
  Forall (fun u => exists ps, Forall unit_cube ps /\ zlen ps = points /\ u = distribute_unit ps) units.

Definition info_count (info : hist_info R) (j : Z) (ss : list (R * bool)) : Z :=
  bin_count (is_log info) (hi_min info) (hi_max info) (hi_bins info) j ss.
