(** Properties of the histograms (C89-C92, C120-C127). *)
From Coq Require Import String.
From Coq Require Import ZArith Reals List Lia Lra Bool Permutation.
From Flocq Require Import IEEE754.BinarySingleNaN.
From Verif Require Import Base.Res Base.ResFacts Base.Num Base.IEEE Base.Convert Model.Geom Model.GridDeriv Model.Hist
  Spec.Histograms Spec.HistDefs Spec.Geometry Spec.GeomDefs Spec.Work Proof.HistP Proof.HistQ Proof.HistS Proof.HistT.
Import ListNotations.
Open Scope list_scope.
Open Scope Z_scope.
Local Notation idR := (fun x : R => x).

(** C89: counts. *)
Theorem C89_counts : forall (x : list R) (ok : list bool) (info : hist_info R) counts,
  info_ok info -> zlen ok = zlen x -> zlen counts = hi_bins info ->
  (is_log info = true -> Forall (fun s => snd s = true -> (0 < fst s)%R) (List.combine x ok)) ->
  exists counts', histogram log10R x ok info counts = Ok counts' /\ zlen counts' = hi_bins info /\
    forall j, 0 <= j < hi_bins info -> zn 0 counts' j = zn 0 counts j +
      bin_count (is_log info) (hi_min info) (hi_max info) (hi_bins info) j (List.combine x ok).
Proof. exact histogram_ok. Qed.
Print Assumptions C89_counts.

(** C89: the bins divide the range. *)
Theorem C89_one_bin : forall lg mn mx bins, 0 < bins -> (mn < mx)%R -> (lg = true -> (0 < mn)%R) ->
  forall x, (lg = true -> (0 < x)%R) ->
    ((mn <= x < mx)%R -> exists! j, 0 <= j < bins /\ in_bin lg mn mx bins j x) /\
    (forall j, 0 <= j < bins -> in_bin lg mn mx bins j x -> (mn <= x < mx)%R).
Proof. exact bins_divide. Qed.
Print Assumptions C89_one_bin.

(** C89: centers. *)
Theorem C89_centers : forall info : hist_info R, info_ok info ->
  exists cs, hist_centers log10R pow10R info = Ok cs /\ zlen cs = hi_bins info /\
    forall j, 0 <= j < hi_bins info ->
      zn 0%R cs j = bin_middle (is_log info) (hi_min info) (hi_max info) (hi_bins info) j /\
      in_bin (is_log info) (hi_min info) (hi_max info) (hi_bins info) j (zn 0%R cs j).
Proof. exact centers_thm. Qed.
Print Assumptions C89_centers.

Example C89_example : info_ok (HI 1%R 1000%R 3 "LOG") /\ is_log (HI 1%R 1000%R 3 "LOG") = true /\
  Forall (fun s => snd s = true -> (0 < fst s)%R) (List.combine [5%R; (-2)%R; 1000%R] [true; false; true]).
Proof.
  split; [|split; [reflexivity|]]; [repeat split; cbn; try lra; lia|].
  repeat constructor; cbn; intros; try lra; discriminate.
Qed.

(** C90. *)
Theorem C90_split : forall seg gw workers, 0 <= seg -> 0 < gw -> 1 <= workers ->
  exists work : Z -> list cell,
    Permutation (flat_map work (zseq workers)) (base_cells seg 1) /\
    forall (S : Type) worker (visit : Z -> S -> res S) s,
      cube_loop seg gw 1 workers worker visit s = each (work worker) (fun c => visit (lattice_index gw c)) s.
Proof. exact hist_split_1. Qed.
Print Assumptions C90_split.

Example C90_example : zlen (base_cells 3 1) = 27 /\
  cube_loop 3 4 1 2 0 (fun idx l => Ok (l ++ [idx])) [] = Ok [0; 2; 4; 6; 8; 10; 16; 18; 20; 22; 24; 26; 32; 34; 36; 38; 40; 42].
Proof. split; vm_compute; reflexivity. Qed.

(** C91: refuted for every skip above 1. *)
Theorem C91_split_refuted : forall skip workers, 2 <= skip -> 1 <= workers ->
  exists seg c, 0 < seg /\ seg mod skip = 0 /\ In c (base_cells (seg / skip) skip) /\
    forall worker, 0 <= worker < workers ->
      exists visited, cube_loop seg (seg + 1) skip workers worker (fun idx l => Ok (l ++ [idx])) [] = Ok visited /\
        ~ In (lattice_index (seg + 1) c) visited.
Proof. exact hist_missed. Qed.
Print Assumptions C91_split_refuted.

(** C91, the part that holds: no cube is visited twice. *)
Theorem C91_split_partial : forall seg gw skip workers, 0 <= seg -> 0 < gw -> 0 < skip -> 1 <= workers ->
  exists work : Z -> list cell,
    NoDup (flat_map work (zseq workers)) /\
    (forall c, In c (flat_map work (zseq workers)) -> In c (base_cells ((seg + skip - 1) / skip) skip)) /\
    forall (S : Type) worker (visit : Z -> S -> res S) s,
      cube_loop seg gw skip workers worker visit s = each (work worker) (fun c => visit (lattice_index gw c)) s.
Proof. exact hist_split_any. Qed.
Print Assumptions C91_split_partial.

Example C91_example : cube_loop 4 5 2 1 0 (fun idx l => Ok (l ++ [idx])) [] = Ok [0] /\ zlen (base_cells (4 / 2) 2) = 8.
Proof. split; vm_compute; reflexivity. Qed.

(** C92: refuted for every interval compared with itself. *)
Theorem C92_same_refuted : forall L a s, (0 <= a < L -> 0 < s <= L ->
  arcs_overlap L a s a s /\ intersect1D a s a s L = false)%R.
Proof. exact same_interval_missed. Qed.
Print Assumptions C92_same_refuted.

(** C92, the part that holds: all other pairs. *)
Theorem C92_intersect_partial : forall a aS b bS L, (0 <= a < L -> 0 < aS <= L -> 0 <= b < L -> 0 < bS <= L ->
  intersect1D a aS b bS L = true <-> arcs_overlap L a aS b bS /\ ~ (a = b /\ aS = bS))%R.
Proof. exact intersect1D_iff. Qed.
Print Assumptions C92_intersect_partial.

Theorem C92_contains_partial : forall a span b L, (0 < L -> 0 <= a < L -> 0 <= span <= L -> 0 <= b < 2 * L ->
  contains1D a span b L = true <-> strictly_in L a span b)%R.
Proof. exact contains1D_iff. Qed.
Print Assumptions C92_contains_partial.

Example C92_example : strictly_in 100 95 10 3.
Proof. exists 1. lra. Qed.

(** C120. *)
Theorem C120_schedules : forall bins n (prog : nat -> list (list Z -> list Z)) b0 counts0,
  let result i := fold_left (fun b u => u b) (prog i) (b0 i) in
  0 <= bins -> zlen counts0 = bins -> (forall i, zlen (result i) = bins) ->
  let add := add_counts bins in
  (forall s, hreach _ _ add n prog b0 counts0 s -> hfinal _ _ n s ->
     zlen (h_counts s) = bins /\
     forall j, 0 <= j < bins -> zn 0 (h_counts s) j = zn 0 counts0 j + zsum (map (fun i => zn 0 (result i) j) (seq 0 n))) /\
  (forall s, hreach _ _ add n prog b0 counts0 s -> ~ hfinal _ _ n s -> exists s', hstep _ _ add n prog s s') /\
  (forall ex, ex O = hinit _ _ b0 counts0 -> ~ (forall k, hstep _ _ add n prog (ex k) (ex (Datatypes.S k)))).
Proof. exact hist_schedule. Qed.
Print Assumptions C120_schedules.

Example C120_example : let prog (i : nat) := [fun _ : list Z => [0; Z.of_nat i]; fun l => upd l 0 5] in
  forall i, zlen (fold_left (fun b u => u b) (prog i) []) = 2.
Proof. intros prog i. reflexivity. Qed.

(** C121: refuted for every skip. *)
Theorem C121_bounding_box_refuted : forall skip, 1 <= skip ->
  exists (hd : hist_sheet R R) xs c corner o s, sheet_ok hd /\ Forall (in_box_R (hs_total hd)) xs /\ cube_room (hs_grid hd) skip c /\
    zlen xs = hs_grid hd * hs_grid hd * hs_grid hd /\ cube_corner skip c corner /\
    (let '(x, y, z) := c in cube_bounding_box idR hd skip xs x y z = Ok (o, s)) /\
    ~ exists m : Z, (vget o 0 <= vget (zn (V3 0 0 0) xs (lattice_index (hs_grid hd) corner)) 0 + IZR m * hs_total hd <= vget o 0 + vget s 0)%R.
Proof. exact cube_box_bad. Qed.
Print Assumptions C121_bounding_box_refuted.

(** C121: what the function computes instead: a box of width 0. *)
Theorem C121_bounding_box_partial : forall (hd : hist_sheet R R) skip xs ix iy iz, let w := hs_grid hd in
  let i := ix + iy * w + iz * w * w in
  (0 <= hs_total hd)%R -> 0 < skip -> 0 <= i < zlen xs ->
  cube_bounding_box idR hd skip xs ix iy iz = Ok (zn (V3 0 0 0)%R xs i, V3 0 0 0)%R.
Proof. exact cube_bounding_box_ok. Qed.
Print Assumptions C121_bounding_box_partial.

Example C121_example : 0 <= 1 + 0 * hs_grid wx_sheet + 1 * hs_grid wx_sheet * hs_grid wx_sheet < zlen wx_xs.
Proof. cbn. lia. Qed.

(** C122: refuted for every skip: a cube with a corner strictly inside the
    sheet's region is skipped although all its particles are in that region. *)
Theorem C122_cube_kept_refuted : forall skip, 1 <= skip ->
  exists (hd : hist_sheet R R) xs c, sheet_ok hd /\ cube_room (hs_grid hd) skip c /\
    zlen xs = hs_grid hd * hs_grid hd * hs_grid hd /\
    Forall (fun v => forall k, 0 <= k < 3 -> (vget (hs_origin hd) k <= vget v k <= vget (hs_origin hd) k + vget (hs_width hd) k)%R) xs /\
    (exists corner, cube_corner skip c corner /\ forall k, 0 <= k < 3 ->
       strictly_in (hs_total hd) (vget (hs_origin hd) k) (vget (hs_width hd) k) (vget (zn (V3 0 0 0)%R xs (lattice_index (hs_grid hd) corner)) k)) /\
    cube_intersects idR idR hd skip xs (lattice_index (hs_grid hd) c) = Ok false.
Proof. exact cube_dropped. Qed.
Print Assumptions C122_cube_kept_refuted.

(** C122: a cube is kept exactly if its base particle is strictly inside the
    sheet's own region. *)
Theorem C122_cube_kept_partial : forall (hd : hist_sheet R R) skip xs c,
  sheet_ok hd -> cube_room (hs_grid hd) skip c -> zlen xs = hs_grid hd * hs_grid hd * hs_grid hd ->
  let base := zn (V3 0 0 0)%R xs (lattice_index (hs_grid hd) c) in
  in_box_R (hs_total hd) base ->
  exists b, cube_intersects idR idR hd skip xs (lattice_index (hs_grid hd) c) = Ok b /\
    (b = true <-> forall k, 0 <= k < 3 -> strictly_in (hs_total hd) (vget (hs_origin hd) k) (vget (hs_width hd) k) (vget base k)).
Proof. exact cube_intersects_ok. Qed.
Print Assumptions C122_cube_kept_partial.

Example C122_example : cube_room (hs_grid wx_sheet) 1 (0, 0, 0) /\ zlen wx_xs = hs_grid wx_sheet * hs_grid wx_sheet * hs_grid wx_sheet.
Proof. split; cbn; lia. Qed.

(** C123: refuted by rounding: 17 pixels per side, number 17 in all directions. *)
Theorem C123_grid_index_refuted : exists (v : vec3 f32) (hd : hist_sheet f64 f32) (box : hist_box f64),
  forall grid : list f64, zlen grid = 17 * 17 * 17 ->
    grid_index to_f64 wg_grid v = 17 + 17 * 17 + 17 * (17 * 17) /\
    sample_density to_f64 to_f32 hd box wg_grid grid v = Panic.
Proof. exact grid_index_rounds. Qed.
Print Assumptions C123_grid_index_refuted.

(** C123, the part that holds: exact arithmetic. *)
Theorem C123_grid_index_partial : forall g v, grid_ok g -> in_box_R (hg_box g) v ->
  (exists px, grid_pixel g v px /\ (forall q, grid_pixel g v q -> q = px) /\
     grid_index idR g v = pixel_number g px /\ 0 <= pixel_number g px < pixel_total g) \/
  ((forall px, ~ grid_pixel g v px) /\ grid_index idR g v = -1).
Proof. exact grid_thm. Qed.
Print Assumptions C123_grid_index_partial.

Example C123_example : grid_ok wx_grid /\ in_box_R (hg_box wx_grid) (V3 50 50 50)%R.
Proof.
  split; [apply wx_setup|]. intros k Hk. assert (k = 0 \/ k = 1 \/ k = 2) as [->|[->| ->]] by lia; cbn; lra.
Qed.

(** C124: refuted. *)
Theorem C124_crossing_refuted : exists points hd xs box info g grid units ds,
  hist_setup points hd 1 xs box info g grid units /\
  Forall (fun v => exists m : Z, Rabs (v0 v - IZR m * hs_total hd) <= 1)%R xs /\
  (forall x, strictly_in (hs_total hd) (v0 (hb_origin box)) (v0 (hb_span box)) x -> forall m : Z, Rabs (x - IZR m * hs_total hd) > 39)%R /\
  get_densities idR idR hd 1 xs box g grid units 0 0 0 = Ok (ds, [true]).
Proof. exact crossing_bad. Qed.
Print Assumptions C124_crossing_refuted.

(** C124, the part that holds: the samples are taken at points of the
    tetrahedron between the particles' positions as they are stored. *)
Theorem C124_samples_partial : forall points hd skip xs box info g grid units c dir draw,
  hist_setup points hd skip xs box info g grid units ->
  cube_room (hs_grid hd) skip c -> 0 <= dir < 6 -> 0 <= draw < zlen units ->
  exists ss, get_densities idR idR hd skip xs box g grid units draw (lattice_index (hs_grid hd) c) dir = Ok (map fst ss, map snd ss) /\
    tetra_samples units hd skip xs box g grid (c, dir) ss /\ zlen ss = points.
Proof. exact densities_thm. Qed.
Print Assumptions C124_samples_partial.

(** C124, the part that holds: a sample one box width away is the same sample. *)
Theorem C124_wrap_partial : forall (hd : hist_sheet R R) (box : hist_box R) g grid p q,
  hist_box_ok (hs_total hd) box -> grid_ok g -> hg_box g = hs_total hd -> zlen grid = pixel_total g ->
  (forall k, 0 <= k < 3 -> (- hs_total hd <= vget p k < 2 * hs_total hd)%R) ->
  in_box_R (hs_total hd) q -> (forall k, 0 <= k < 3 -> rcong (hs_total hd) (vget q k) (vget p k)) ->
  exists s, sample_density idR idR hd box g grid p = Ok s /\ sample_at (hs_total hd) box g grid q s.
Proof. exact sample_wrap_ok. Qed.
Print Assumptions C124_wrap_partial.

Example C124_example : hist_setup 1 wx_sheet 1 wx_xs wx_box wx_info wx_grid [7%R] wx_units.
Proof. exact wx_setup. Qed.

(** C125: refuted: segments 3 wide, skip 2. *)
Theorem C125_no_panic_refuted : exists hd : hist_sheet R R, hs_seg hd = 3 /\ hs_grid hd = 4 /\
  forall xs box info g grid units choose, zlen xs = 64 -> Forall (in_box_R (hs_total hd)) xs ->
    chan_histogram idR idR log10R hd 2 xs box info g grid units "Density" 1 0 choose = Panic.
Proof. exact (ex_intro _ wp_sheet (conj eq_refl (conj eq_refl not_multiple_panics))). Qed.
Print Assumptions C125_no_panic_refuted.

(** C125, the part that holds: the skip divides the width (part of
    [hist_setup]).  The worker's histogram counts the samples of its cubes. *)
Theorem C125_worker_partial : forall points hd skip xs box info g grid units,
  hist_setup points hd skip xs box info g grid units ->
  forall choose : Z -> Z, (forall n, 0 <= choose n < zlen units) ->
  forall quantity workers worker, Config.to_lower quantity = "density"%string -> 1 <= workers ->
  exists h sss cubes, chan_histogram idR idR log10R hd skip xs box info g grid units quantity workers worker choose = Ok h /\
    zlen h = hi_bins info /\
    (forall c, In c cubes <-> In c (base_cells (hs_seg hd / skip) skip) /\
       lattice_index (hs_grid hd) c mod (skip * skip * skip * workers) = worker /\ base_inside hd xs c) /\ NoDup cubes /\
    Forall2 (tetra_samples units hd skip xs box g grid) (list_prod cubes (zseq 6)) sss /\
    forall j, 0 <= j < hi_bins info -> zn 0 h j = zsum (map (info_count info j) sss).
Proof. exact worker_thm. Qed.
Print Assumptions C125_worker_partial.

Example C125_example : hist_setup 1 wx_sheet 1 wx_xs wx_box wx_info wx_grid [7%R] wx_units /\
  (forall n : Z, 0 <= (fun _ => 0) n < zlen wx_units) /\ Config.to_lower "Density" = "density"%string.
Proof. split; [exact wx_setup|split; [intros; cbn; lia|reflexivity]]. Qed.

(** C126: refuted by rounding and by NaN. *)
Theorem C126_float_refuted :
  (exists (x mx : f64) (info : hist_info f64), info = HI (#0)%num mx 3 "Linear" /\ (x <? mx)%num = true /\ (x >=? #0)%num = true /\
     forall log10, histogram log10 [x] [true] info [0; 0; 0] = Ok [0; 0; 0]) /\
  (exists info : hist_info f64, info = HI (#0)%num (#1)%num 3 "Linear" /\
     forall log10, histogram log10 [B754_nan] [true] info [0; 0; 0] = Panic).
Proof. exact (conj float_sample_lost nan_sample_panics). Qed.
Print Assumptions C126_float_refuted.

(** C127. *)
Theorem C127_file : forall points hd xs box info g grid units quantity n choose (prog : nat -> list (list Z -> list Z)) b0 counts0,
  hist_setup points hd 1 xs box info g grid units -> Config.to_lower quantity = "density"%string -> (1 <= n)%nat ->
  (forall i k, 0 <= choose i k < zlen units) -> zlen counts0 = hi_bins info ->
  let result i := fold_left (fun b u => u b) (prog i) (b0 i) in
  (forall i, (i < n)%nat -> chan_histogram idR idR log10R hd 1 xs box info g grid units quantity (Z.of_nat n) (Z.of_nat i) (choose i) = Ok (result i)) ->
  (forall i, zlen (result i) = hi_bins info) ->
  exists inside ss, (forall c, In c (base_cells (hs_seg hd) 1) -> (inside c = true <-> base_inside hd xs c)) /\
    Forall2 (tetra_samples units hd 1 xs box g grid) (list_prod (filter inside (base_cells (hs_seg hd) 1)) (zseq 6)) ss /\
    forall s, hreach _ _ (add_counts (hi_bins info)) n prog b0 counts0 s -> hfinal _ _ n s ->
      zlen (h_counts s) = hi_bins info /\
      forall j, 0 <= j < hi_bins info -> zn 0 (h_counts s) j = zn 0 counts0 j + zsum (map (info_count info j) ss).
Proof. exact hist_file. Qed.
Print Assumptions C127_file.

(** Workers that write their histogram in one step. *)
Example C127_example : exists prog : nat -> list (list Z -> list Z),
  forall i, (i < 2)%nat -> chan_histogram idR idR log10R wx_sheet 1 wx_xs wx_box wx_info wx_grid [7%R] wx_units "Density" 2 (Z.of_nat i) (fun _ => 0) =
    Ok (fold_left (fun b u => u b) (prog i) []).
Proof.
  exists (fun i => match chan_histogram idR idR log10R wx_sheet 1 wx_xs wx_box wx_info wx_grid [7%R] wx_units "Density" 2 (Z.of_nat i) (fun _ => 0) with Ok h => [fun _ => h] | _ => [] end).
  intros i Hi. destruct (C125_worker_partial _ _ _ _ _ _ _ _ _ wx_setup (fun _ => 0) ltac:(intros; cbn; lia) "Density" 2 (Z.of_nat i) eq_refl ltac:(lia)) as (h & _ & _ & E & _).
  rewrite E. reflexivity.
Qed.
