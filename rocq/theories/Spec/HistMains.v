(** What a run of tetraHistMain has to count. *)
From Coq Require Import String.
From Coq Require Import ZArith List Reals Bool Permutation.
From Verif Require Import Base.Res Base.Num Model.Geom Model.GridDeriv Model.Config Model.Render Model.Hist Model.RenderMain Model.HistMain.
From Verif Require Import Spec.Geometry Spec.GeomDefs Spec.Work Spec.Histograms Spec.HistDefs Spec.Renders Spec.RenderMains.
Import ListNotations.
Open Scope R_scope.

(** The region of the sheet and the box share interior points along each axis,
    and along no axis are they the same interval (see C92). *)
Definition sheet_meets (hd : hist_sheet R R) (o s : vec3 R) : Prop :=
  forall k, (0 <= k < 3)%Z ->
    let a := vget (hs_origin hd) k in let aS := vget (hs_width hd) k in let b := vget o k in let bS := vget s k in
    arcs_overlap (hs_total hd) a aS b bS /\ ~ (a = b /\ aS = bS).

(** The cubes of a sheet that are looked at: with a subsampling length of 1, all
    whose base particle lies strictly inside the region of the sheet. *)
Definition used_cubes (hd : hist_sheet R R) (skip workers : Z) (xs : list (vec3 R)) (cubes : list cell) : Prop :=
  NoDup cubes /\ forall c, In c cubes <->
    In c (base_cells (hs_seg hd / skip) skip) /\ (lattice_index (hs_grid hd) c mod (skip * skip * skip * workers) < workers)%Z /\ base_inside hd xs c.

(** [add j] is what one sheet adds to bin [j] of the box at [o] of size [s]. *)
Definition file_adds (skip workers : Z) (info : hist_info R) (g : hist_grid R) (grid : list R) (units : list (list (vec3 R)))
    (o s : vec3 R) (f : hfile R R) (add : Z -> Z) : Prop :=
  (sheet_meets (hf_hd f) o s -> exists cubes sss, used_cubes (hf_hd f) skip workers (hf_xs f) cubes /\
     Forall2 (tetra_samples units (hf_hd f) skip (hf_xs f) (HB o s []) g grid) (list_prod cubes (zseq 6)) sss /\
     forall j, (0 <= j < hi_bins info)%Z -> add j = zsum (map (info_count info j) sss)) /\
  (~ sheet_meets (hf_hd f) o s -> forall j, (0 <= j < hi_bins info)%Z -> add j = 0%Z).

Definition con_info (con : hist_config R) : hist_info R := HI (hc_min con) (hc_max con) (hc_bins con) (hc_scale con).

(** The lines of a table: middles of the bins and counts. *)
Definition table (info : hist_info R) (count : Z -> Z) : list (R * Z) :=
  map (fun j => (bin_middle (is_log info) (hi_min info) (hi_max info) (hi_bins info) j, count j)) (zseq (hi_bins info)).

(** What is asked of a run apart from its sheets: readable bounds files whose
    boxes are in the simulation, a grid of the simulation, a good range of bins. *)
Definition hist_request (L : R) (con : hist_config R) (bounds : list (option (bounds_file R))) (parts : list (list (string * box_config R)))
  (workers : Z) (rnd : Z -> Z -> vec3 R) (choose : Z -> Z -> Z -> Z -> Z) (order : Z -> Z -> list Z) (g : hist_grid R) (grid : list R) : Prop :=
  to_lower (hc_quantity con) = "density"%string /\ info_ok (con_info con) /\ (0 <= hc_particles con)%Z /\ (0 < hc_subsample con)%Z /\
  Forall2 (fun b l => exists f, b = Some f /\ accepted_sections L f l) bounds parts /\
  Forall (fun c => forall k, (0 <= k < 3)%Z -> 0 <= vget (bx_o (snd c)) k < L /\ 0 < vget (bx_w (snd c)) k <= L) (concat parts) /\
  (1 <= workers)%Z /\ (forall bi j, unit_cube (rnd bi j)) /\ (forall k bi id j, (0 <= choose k bi id j < 64)%Z) /\
  (forall k bi, Permutation (order k bi) (zseq workers)) /\
  grid_ok g /\ hg_box g = L /\ zlen grid = pixel_total g /\ (is_log (con_info con) = true -> Forall (fun d => 0 < d) grid).

(** A complete sheet of a simulation of width [L] with [count] particles. *)
Definition hist_sheet_ok (L : R) (skip count : Z) (f : hfile R R) : Prop :=
  let hd := hf_hd f in
  hs_total hd = L /\ (forall k, (0 <= k < 3)%Z -> 0 <= vget (hs_origin hd) k < L /\ 0 < vget (hs_width hd) k <= L) /\
  (0 < hs_seg hd)%Z /\ (hs_seg hd mod skip = 0)%Z /\ hs_grid hd = (hs_seg hd + 1)%Z /\
  hf_count f = count /\ zlen (hf_xs f) = count /\ count = (hs_grid hd * hs_grid hd * hs_grid hd)%Z /\ Forall (in_box_R L) (hf_xs f).

(** A rendered image as the grid of a histogram: what io.ReadGridHeader finds in
    the file of an image at [loc] of a simulation of width [L]. *)
Definition image_grid (L : R) (loc : location R) : hist_grid R :=
  HG (lc_origin loc) (lc_span loc) (lc_pixelSpan loc) (lc_pixelWidth loc) L.
