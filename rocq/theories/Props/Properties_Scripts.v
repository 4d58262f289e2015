(** Properties of the programs in render/scripts (C134-C148, C185). *)
From Coq Require Import ZArith Reals List Lia Lra Bool Permutation.
From Flocq Require Import Core.Raux IEEE754.BinarySingleNaN.
From Verif Require Import Base.Res Base.ResFacts Base.Num Base.IEEE Model.Geom Model.GridDeriv Model.Halo Model.Cosmo Model.Catalog Model.Profile Model.ReadHalo
  Spec.Work Spec.Lines Spec.Binning Spec.Catalogs Proof.ProfileL Proof.ProfileR Proof.ProfileP Proof.ProfileQ Proof.ProfileB Proof.ProfileX Spec.Geometry Spec.Halos Proof.CatalogP Proof.ReadHaloP Proof.ReadHaloM
  Base.Bytes Model.SheetIO Model.GridIO Model.ProfileMain Spec.Files Spec.Regions Spec.ProfileRuns Proof.ProfileM.
Import ListNotations.
Open Scope R_scope.
Local Notation realK := (CC PI gravity megaparsec solar_mass (177653 / 1000)).

(** C134: holds for cubes only. *)
Theorem C134_line_profile_partial : forall (isnan : R -> bool) (s : Z) (grid : list R) (u : vec3 R) (cw : R),
  (0 <= s)%Z -> zlen grid = (s * s * s)%Z -> length2 (vget u) = 1 ->
  exists m rs rhos, longest (vget u) m /\ extract_line sqrt isnan grid (V3 s s s) u cw = Ok (Some (rs, rhos)) /\
    zlen rhos = zlen rs /\ (s / 2 - 1 <= zlen rs <= s / 2)%Z /\ (Z.odd s = true -> zlen rs = (s / 2)%Z) /\
    (Z.even s = true -> (0 < s)%Z -> 0 < vget u m -> zlen rs = (s / 2 - 1)%Z) /\
    forall j, (0 <= j < zlen rs)%Z -> let t := IZR j / Rabs (vget u m) in
      nth (Z.to_nat j) rs 0 = t * cw /\ nth (Z.to_nat j) rhos 0 = line_density (fun _ => s) grid (vget u) m t.
Proof. exact line_cube. Qed.
Print Assumptions C134_line_profile_partial.

Example C134_example : length2 (vget (V3 (3 / 5) (-4 / 5) 0)) = 1 /\ longest (vget (V3 (3 / 5) (-4 / 5) 0)) 1 /\
  line_quarters (extract_line sqrt64 nan64 (ofZs (zcount 125)) (V3 5 5 5)%Z (V3 (nofZ 1) (nofZ 0) (nofZ 0)) (nofZ 1)) = Some ([0; 4], [4 * 77; 4 * 78])%Z.
Proof.
  split; [unfold length2, vget; cbn; lra|]. split; [|vm_compute; reflexivity].
  split; [lia|]. intros i Hi. assert (J : (i = 0 \/ i = 1 \/ i = 2)%Z) by lia.
  unfold vget. destruct J as [-> | [-> | -> ]]; cbn; unfold Rabs; repeat destruct Rcase_abs; lra.
Qed.

(** C134: for a box of 4 x 5 x 6 cells the line along z starts with density 54.5
    instead of 72; for one of 2 x 4 x 4 cells the line along y is empty. *)
Theorem C134_line_profile_refuted :
  line_quarters (extract_line sqrt64 nan64 (ofZs (zcount 120)) (V3 4 5 6)%Z (V3 (nofZ 0) (nofZ 0) (nofZ 1)) (nofZ 1)) =
    Some ([0; 4; 8], [4 * 54 + 2; 4 * 74 + 2; 4 * 94 + 2])%Z /\
  line_density (vget (V3 4 5 6)%Z) (map IZR (zcount 120)) (vget (V3 0 0 1)) 2 0 = 72 /\
  extract_line sqrt64 nan64 (ofZs (zcount 32)) (V3 2 4 4)%Z (V3 (nofZ 0) (nofZ 1) (nofZ 0)) (nofZ 1) = Ok (Some ([], [])).
Proof. exact line_box. Qed.
Print Assumptions C134_line_profile_refuted.

(** C135: no line is ever rejected, in any arithmetic. *)
Theorem C135_reject_refuted : forall {D} {ND : Num D} (fsqrt : D -> D) (isnan : D -> bool) (grid : list D) (span : vec3 Z) (cw : D),
  (0 <= v0 span)%Z -> (0 <= v1 span)%Z -> (0 <= v2 span)%Z -> zlen grid = (v0 span * v1 span * v2 span)%Z ->
  (forall u, exists rs rhos, extract_line fsqrt isnan grid span u cw = Ok (Some (rs, rhos))) /\
  forall n units, (0 <= n)%Z -> exists lines, line_profiles fsqrt isnan (Z.to_nat n) grid span n cw units 0 [] = Ok (lines, n) /\
    zlen lines = n /\ forall k def, (0 <= k < n)%Z -> fst (fst (zn def lines k)) = units k.
Proof. exact @never_rejected. Qed.
Print Assumptions C135_reject_refuted.

(** A line of which the density is NaN. *)
Example C135_example : exists rs rho,
  extract_line sqrt64 nan64 (repeat (B754_nan : f64) 64) (V3 4 4 4)%Z (V3 (nofZ 1) (nofZ 0) (nofZ 0)) (nofZ 1) = Ok (Some (rs, [rho])) /\ is_nan rho = true.
Proof. exact nan_line. Qed.

(** C136: the distances are from a point a quarter of a cell above the center. *)
Theorem C136_radii_partial : forall (span : vec3 Z) (cw : R),
  (0 <= v0 span)%Z -> (0 <= v1 span)%Z -> (0 <= v2 span)%Z -> 0 <= cw ->
  exists rs, radii sqrt span cw = Ok rs /\ zlen rs = (v0 span * v1 span * v2 span)%Z /\
    forall c, (forall i, (0 <= i < 3)%Z -> (0 <= c i < vget span i)%Z) ->
      cell_value (vget span) rs c = cell_distance c (fun i => IZR (vget span i) / 2 + 1 / 4) * cw.
Proof. exact radii_real. Qed.
Print Assumptions C136_radii_partial.

Example C136_example : forall i, (0 <= i < 3)%Z -> (0 <= (fun k : Z => k) i < vget (V3 2 3 4)%Z i)%Z.
Proof. intros i Hi. assert (J : (i = 0 \/ i = 1 \/ i = 2)%Z) by lia. destruct J as [-> | [-> | -> ]]; cbn; lia. Qed.

(** C136: so that of the first cell is too large in every box. *)
Theorem C136_radii_refuted : forall (span : vec3 Z) (cw : R),
  (0 < v0 span)%Z -> (0 < v1 span)%Z -> (0 < v2 span)%Z -> 0 < cw ->
  exists rs, radii sqrt span cw = Ok rs /\
    cell_distance (fun _ => 0%Z) (fun i => IZR (vget span i) / 2) * cw < cell_value (vget span) rs (fun _ => 0%Z).
Proof. exact radii_wrong. Qed.
Print Assumptions C136_radii_refuted.

(** C137 *)
Theorem C137_direction_partial : forall (f : Z -> R) (axis : Z),
  let p := cube_point f axis in 0 < length2 p ->
  exists k, 0 < k /\ (forall i, (0 <= i < 3)%Z -> vget (random_unit sqrt (f 0%Z) (f 1%Z) (f 2%Z) axis) i = k * p i) /\
    length2 (vget (random_unit sqrt (f 0%Z) (f 1%Z) (f 2%Z) axis)) = 1.
Proof. exact unit_ok. Qed.
Print Assumptions C137_direction_partial.

Example C137_example : 0 < length2 (cube_point (fun _ => 1 / 4) 1).
Proof. unfold length2, cube_point. cbn. lra. Qed.

(** C137: the middle of the cube gives NaN. *)
Theorem C137_direction_refuted : forall axis, (axis = 3 \/ axis = 0 \/ axis = 1 \/ axis = 2)%Z ->
  let u := random_unit sqrt64 (f64lit 1 (-1)) (f64lit 1 (-1)) (f64lit 1 (-1)) axis in
  is_nan (v0 u) = true /\ is_nan (v1 u) = true /\ is_nan (v2 u) = true.
Proof. exact unit_nan. Qed.
Print Assumptions C137_direction_refuted.

(** C138 *)
Theorem C138_remove_partial : forall {D} (d nan : D) (bh bsh : cellbounds) (n : Z) (grid : list D),
  let o := origin bh in let s := width bh in
  let lo := origin bsh in let hi := vmap2 Z.add (origin bsh) (width bsh) in
  (0 <= v0 s <= n)%Z -> (0 <= v1 s <= n)%Z -> (0 <= v2 s <= n)%Z -> zlen grid = (v0 s * v1 s * v2 s)%Z ->
  (v0 o - n <= v0 lo /\ v0 hi <= v0 o + n)%Z ->
  (v1 o - n <= v1 lo /\ v1 hi <= v1 o + n)%Z ->
  (v2 o - n <= v2 lo /\ v2 hi <= v2 o + n)%Z ->
  exists g, remove_subhalo bh bsh nan n grid = Ok g /\ zlen g = zlen grid /\
    forall a b c, (0 <= a < v0 s)%Z /\ (0 <= b < v1 s)%Z /\ (0 <= c < v2 s)%Z ->
      let i := (c * v0 s * v1 s + b * v0 s + a)%Z in
      let removed := covered n (v0 o) (v0 lo) (v0 hi) a /\ covered n (v1 o) (v1 lo) (v1 hi) b /\ covered n (v2 o) (v2 lo) (v2 hi) c in
      (removed -> zn d g i = nan) /\ (~ removed -> zn d g i = zn d grid i).
Proof. exact @remove_exact. Qed.
Print Assumptions C138_remove_partial.

(** A halo across the upper boundary and a subhalo below and above it. *)
Example C138_example : exists g, remove_subhalo (CB (V3 8 8 8) (V3 4 4 4))%Z (CB (V3 9 9 1) (V3 2 2 1))%Z 7%Z 10 (repeat 1 64)%Z = Ok g /\
  zn 0%Z g (3 * 16 + 1 * 4 + 2) = 7%Z /\ covered 10 8 9 11 2 /\ covered 10 8 1 2 3.
Proof.
  eexists. split; [vm_compute; reflexivity|]. split; [reflexivity|]. split; [exists 10%Z, 0%Z; lia|exists 1%Z, (-1)%Z; lia].
Qed.

(** C138: a subhalo above the upper boundary of a box that starts at the lower
    one; the bounds are those of a sphere at 9.5 with radius 1 in a box of width
    10. *)
Theorem C138_remove_refuted :
  sphere_bounds1 (f64lit 19 (-1)) (f64lit 1 0) (f64lit 1 0) (f64lit 10 0) = (8, 3)%Z /\
  covered 10 0 8 (8 + 3) 0 /\ (forall c, (0 < c < 4)%Z -> ~ covered 10 0 8 (8 + 3) c) /\
  (exists g, remove_subhalo (CB (V3 0 0 0) (V3 4 4 4))%Z (CB (V3 8 0 0) (V3 3 1 1))%Z 7%Z 10 (repeat 1 64)%Z = Ok g /\
     zn 0 g 0 = 1 /\ zn 0 g (2 + 4 * (2 + 4 * 0)) = 7)%Z /\
  remove_subhalo (CB (V3 0 0 0) (V3 4 4 4))%Z (CB (V3 0 0 8) (V3 1 1 3))%Z 7%Z 10 (repeat 1 64)%Z = Panic.
Proof. exact remove_wraps. Qed.
Print Assumptions C138_remove_refuted.

(** C139 *)
Theorem C139_binned_mean_partial : forall (isnan : R -> bool) (flog fexp : R -> R) (maxF smallF : R) (xs ys : list R) (B : Z) (opt : bm_options R) (lo0 hi0 : R),
  let valid i := match bm_valid opt with None => true | Some v => nth (Z.to_nat i) v false end in
  let good i := valid i && negb (isnan (nth (Z.to_nat i) ys 0)) in
  let x i := nth (Z.to_nat i) xs 0 in
  let y i := nth (Z.to_nat i) ys 0 in
  let scale v := if bm_log opt then flog v else v in
  let unscale v := if bm_log opt then fexp v else v in
  let n := zlen xs in
  let pos i := scale (x i) in
  let lo := scale lo0 in let hi := scale hi0 in
  (0 < B)%Z -> zlen ys = n -> (forall v, bm_valid opt = Some v -> zlen v = n) ->
  (isnan (bm_low opt) = false /\ lo0 = bm_low opt /\ hi0 = bm_high opt) \/
  (isnan (bm_low opt) = true /\ best x good n Rle lo0 /\ lo0 <= maxF /\ best x good n Rge hi0 /\ smallF <= hi0) ->
  lo < hi ->
  binned_mean isnan flog fexp maxF smallF xs ys B opt =
    Ok (map (fun b => unscale (bin_middle B lo hi b)) (bins pos good n B lo hi), map (mean pos y good n B lo hi) (bins pos good n B lo hi)).
Proof. exact binned_ok. Qed.
Print Assumptions C139_binned_mean_partial.

Example C139_example : best (fun i => nth (Z.to_nat i) [3; 1; 2] 0) (fun _ => true) 3 Rle 1 /\
  best (fun i => nth (Z.to_nat i) [3; 1; 2] 0) (fun _ => true) 3 Rge 3 /\
  pair_quarters (binned_mean nan64 (fun x => x) (fun x => x) max64 smallest64 (ofZs [3; 1; 2]%Z) (ofZs [10; 20; 30]%Z) 2%Z (BMO None B754_nan B754_nan false))
    = Some ([6; 10], [80; 80])%Z.
Proof.
  split; [|split; [|vm_compute; reflexivity]].
  - split; [exists 1%Z; repeat split; lia|]. intros i Hi _. assert (J : (i = 0 \/ i = 1 \/ i = 2)%Z) by lia. destruct J as [-> | [-> | -> ]]; cbn [Z.to_nat]; try change (Pos.to_nat 1) with 1%nat; try change (Pos.to_nat 2) with 2%nat; cbn [nth]; lra.
  - split; [exists 0%Z; repeat split; lia|]. intros i Hi _. assert (J : (i = 0 \/ i = 1 \/ i = 2)%Z) by lia. destruct J as [-> | [-> | -> ]]; cbn [Z.to_nat]; try change (Pos.to_nat 1) with 1%nat; try change (Pos.to_nat 2) with 2%nat; cbn [nth]; lra.
Qed.

(** C139: for negative data the bins reach up to 0; an upper limit without a
    lower one is ignored; a lower one without an upper one, and data that are all
    equal, end in a panic. *)
Theorem C139_binned_mean_refuted :
  let bmean := binned_mean nan64 (fun x => x) (fun x => x) max64 smallest64 in
  pair_quarters (bmean (ofZs [-2; -1]) (ofZs [1; 3]) 2 (BMO None B754_nan B754_nan false))%Z = Some ([-6; -2], [4; 12])%Z /\
  pair_quarters (bmean (ofZs [0; 1; 5]) (ofZs [1; 3; 8]) 1 (BMO None B754_nan (nofZ 1) false))%Z = Some ([10], [16])%Z /\
  bmean (ofZs [0; 1; 5])%Z (ofZs [1; 3; 8])%Z 1%Z (BMO None (nofZ 0) B754_nan false) = Panic /\
  bmean (ofZs [1; 1])%Z (ofZs [1; 3])%Z 2%Z (BMO None B754_nan B754_nan false) = Panic.
Proof. exact binned_wrong. Qed.
Print Assumptions C139_binned_mean_refuted.

(** C140 *)
Theorem C140_round : forall x : R, IZR (round x) - 1 / 2 <= x < IZR (round x) + 1 / 2.
Proof. exact round_ok. Qed.
Print Assumptions C140_round.

Example C140_example : map (fun m => round (f64lit m (-1))) [5; 6; 7; -5; -7]%Z = [3; 3; 4; -2; -3]%Z.
Proof. vm_compute. reflexivity. Qed.

(** C141 *)
Theorem C141_print : forall {D} (d : D) (rs rhos : list (list D)), (0 < zlen rs)%Z -> zlen rhos = zlen rs ->
  (forall p, (0 <= p < zlen rs)%Z -> zlen (zn [] rhos p) = zlen (zn [] rs p)) ->
  exists rows, print_profiles rs rhos = Ok rows /\
    (forall p, (0 <= p < zlen rs)%Z -> (zlen rows <= zlen (zn [] rs p))%Z) /\
    (exists p, (0 <= p < zlen rs)%Z /\ zlen rows = zlen (zn [] rs p)) /\
    forall col, (0 <= col < zlen rows)%Z -> zlen (zn [] rows col) = zlen rs /\
      forall p, (0 <= p < zlen rs)%Z -> zn (d, d) (zn [] rows col) p = (zn d (zn [] rs p) col, zn d (zn [] rhos p) col).
Proof. exact @print_ok. Qed.
Print Assumptions C141_print.

Example C141_example : print_profiles [[1; 2; 3]; [4; 5]]%Z [[10; 20; 30]; [40; 50]]%Z = Ok [[(1, 10); (4, 40)]; [(2, 20); (5, 50)]]%Z.
Proof. reflexivity. Qed.

(** C142 *)
Theorem C142_swaps : forall {D} (d : D) n l (hs : halos D),
  let cols (h : halos D) := [hs_xs h; hs_ys h; hs_zs h; hs_m200ms h; hs_r200ms h; hs_rPrints h] in
  let equal_lengths (h : halos D) := zlen (hs_ids h) = n /\ Forall (fun c : list D => zlen c = n) (cols h) in
  let lines (h : halos D) := table_rows 0%Z d n (hs_ids h) (cols h) in
  equal_lengths hs -> Forall (fun '(i, j) => (0 <= i < n)%Z /\ (0 <= j < n)%Z) l ->
  exists hs', halos_swaps hs l = Ok hs' /\ equal_lengths hs' /\ Permutation (lines hs') (lines hs).
Proof. exact @swaps_rows. Qed.
Print Assumptions C142_swaps.

Example C142_example : halos_swaps (HS [1; 2; 3] [10; 20; 30] [11; 21; 31] [12; 22; 32] [13; 23; 33] [14; 24; 34] [15; 25; 35])%Z [(0, 2); (1, 2)]%Z =
  Ok (HS [3; 1; 2] [30; 10; 20] [31; 11; 21] [32; 12; 22] [33; 13; 23] [34; 14; 24] [35; 15; 25])%Z.
Proof. reflexivity. Qed.

(** C143: right for 200m. *)
Theorem C143_print_radii_partial : forall t (c : cosmo_header R) col, (1 <= t <= 4)%Z -> 0 < ch_omegaM c -> 0 <= ch_omegaL c -> -1 < ch_z c -> ch_h100 c <> 0 ->
  Forall (fun m => 0 < m) col ->
  exists rs, print_radii sqrt Rpower realK t c col = Ok rs /\ Forall (fun r => 0 < r) rs /\
    Forall2 (fun m r => m = sphere_mass 2 (ch_omegaM c) (ch_omegaL c) (ch_z c) r) col rs.
Proof. exact print_radii_200m. Qed.
Print Assumptions C143_print_radii_partial.

(** C143: wrong for the other masses unless the densities are equal. *)
Theorem C143_print_radii_refuted : forall t (c : cosmo_header R) col, t = 1%Z \/ t = 3%Z \/ t = 4%Z ->
  0 < ch_omegaM c -> 0 <= ch_omegaL c -> -1 < ch_z c -> ch_h100 c <> 0 ->
  contrast t * reference t (ch_omegaM c) (ch_omegaL c) (ch_z c) <> contrast 2 * reference 2 (ch_omegaM c) (ch_omegaL c) (ch_z c) ->
  Forall (fun m => 0 < m) col ->
  exists rs, print_radii sqrt Rpower realK t c col = Ok rs /\
    Forall2 (fun m r => m <> sphere_mass t (ch_omegaM c) (ch_omegaL c) (ch_z c) r) col rs.
Proof. exact print_radii_wrong. Qed.
Print Assumptions C143_print_radii_refuted.

Example C143_example : let c := CH 0 (27 / 100) (73 / 100) (7 / 10) in
  contrast 3 * reference 3 (ch_omegaM c) (ch_omegaL c) (ch_z c) <> contrast 2 * reference 2 (ch_omegaM c) (ch_omegaL c) (ch_z c).
Proof.
  cbn [ch_omegaM ch_omegaL ch_z]. unfold contrast, reference, expansion2. pose proof critical_pos as H.
  intros E. set (k := critical_today) in *. lra.
Qed.

(** C144: targets in the list are found. *)
Theorem C144_targets_partial : forall ids ts, Forall (fun t => In t ids) ts ->
  Forall2 (fun t i => (0 <= i < zlen ids)%Z /\ zn 0%Z ids i = t /\ forall m, (0 <= m < i)%Z -> zn 0%Z ids m <> t) ts (target_indexes ids ts).
Proof. exact targets_found. Qed.
Print Assumptions C144_targets_partial.

Example C144_example : target_indexes [7; 5; 9; 5]%Z [5; 9]%Z = [1; 2]%Z /\ Forall (fun t => In t [7; 5; 9; 5]%Z) [5; 9]%Z.
Proof. split; [reflexivity|]. apply Forall_forall. intros t [<- | [<- | []]]; cbn; tauto. Qed.

(** C144: one that is not in the list is taken to be the first halo. *)
Theorem C144_targets_refuted : forall ids t, ~ In t ids -> target_indexes ids [t] = [0%Z].
Proof. exact targets_missing. Qed.
Print Assumptions C144_targets_refuted.

(** C145 *)
Theorem C145_new_halos : forall {D} (d : D) ihs xs ys zs rs,
  Forall (fun ih => (0 <= ih < zlen xs)%Z) ihs -> zlen ys = zlen xs -> zlen zs = zlen xs -> zlen rs = zlen xs ->
  new_halos ihs xs ys zs rs = Ok (map (fun ih => H1 ih (zn d xs ih) (zn d ys ih) (zn d zs ih) (zn d rs ih)) ihs).
Proof. exact @new_halos_ok. Qed.
Print Assumptions C145_new_halos.

Example C145_example : new_halos [2; 0]%Z [1; 2; 3]%Z [4; 5; 6]%Z [7; 8; 9]%Z [10; 11; 12]%Z = Ok [H1 2 3 6 9 12; H1 0 1 4 7 10]%Z.
Proof. reflexivity. Qed.

(** C146 *)
Theorem C146_particles : forall (fpow : R -> R -> R) (L l : R) (pixels : Z),
  let v := 1000 * fpow (L / (3 * l)) 3 * fpow (IZR pixels / 500) 3 in
  (20 <= particles fpow L l pixels)%Z /\
  (v < 20 -> particles fpow L l pixels = 20%Z) /\
  (20 <= v -> IZR (particles fpow L l pixels) <= v < IZR (particles fpow L l pixels) + 1).
Proof. exact particles_ok. Qed.
Print Assumptions C146_particles.

Example C146_example : let cube (x _ : f64) := nmul x (nmul x x) in
  particles cube (f64lit 300 0) (f64lit 100 0) 500 = 1000%Z /\ particles cube (f64lit 300 0) (f64lit 1000 0) 500 = 20%Z.
Proof. split; vm_compute; reflexivity. Qed.

(** C147 *)
Theorem C147_find_idx : forall (xs : list R) x, let k := find_idx xs x in (0 <= k <= zlen xs)%Z /\
  (forall m, (0 <= m < k)%Z -> x <= zn 0 xs m) /\ ((k < zlen xs)%Z -> zn 0 xs k < x).
Proof. exact find_idx_ok. Qed.
Print Assumptions C147_find_idx.

Example C147_example : find_idx (ofZs [9; 7; 7; 3])%Z (nofZ 7) = 3%Z /\ find_idx (ofZs [9; 7; 7; 3])%Z (nofZ 8) = 1%Z.
Proof. split; vm_compute; reflexivity. Qed.

(** C148: [rad] are the 200m radii of the rows and [prad] those that are written;
    the latter are radii of 200m spheres even if the masses are of another kind
    (C143).  Spheres that cross the boundary are left out (C96). *)
Theorem C148_read_halo_partial : forall (swaps : list (Z * Z)) (t : Z) (c : cosmo_header R) (table : Z -> list R) (L : R) (targets : list Z) (n : Z) (rad prad : Z -> R),
  (0 <= t <= 4)%Z -> 0 < ch_omegaM c -> 0 <= ch_omegaL c -> -1 < ch_z c -> ch_h100 c <> 0 -> 0 < L -> (1 <= n)%Z ->
  let mass2 x := sphere_mass 2 (ch_omegaM c) (ch_omegaL c) (ch_z c) x in
  let pos i : point := (zn 0 (table 17%Z) i, zn 0 (table 18%Z) i, zn 0 (table 19%Z) i) in
  let ident i := Ztrunc (zn 0 (table 1%Z) i) in
  (forall k, In k [1; 17; 18; 19; 36; table_column t]%Z -> zlen (table k) = n) ->
  (forall i, (0 <= i < n)%Z -> 0 < rad i /\ zn 0 (table 36%Z) i = mass2 (rad i)) ->
  (forall i, (0 <= i < n)%Z -> 0 < prad i /\ zn 0 (table (table_column t)) i = if (t =? 0)%Z then 1000 * prad i else mass2 (prad i)) ->
  (forall i, (0 <= i < n)%Z -> in_cube L (pos i)) ->
  (forall i j, (0 <= i < n)%Z -> (0 <= j < n)%Z -> stays_inside3 L (3 * (rad i + rad j)) (pos i)) ->
  Forall (fun '(i, j) => (0 <= i < n)%Z /\ (0 <= j < n)%Z) swaps ->
  (forall hs hs', hs_r200ms hs = map rad (zseq n) -> halos_swaps hs swaps = Ok hs' ->
     forall i j, (0 <= i < j)%Z -> (j < n)%Z -> halos_less hs' i j = Ok false) ->
  Forall (fun id => exists i, (0 <= i < n)%Z /\ ident i = id) targets ->
  exists order out, read_halo_main sqrt Rpower realK swaps t c table L targets = Ok out /\ Permutation order (zseq n) /\
  let o k := zn 0%Z order k in
  let meet a b := spheres_meet_periodic L (pos a) (pos b) (3 * rad a) (3 * rad b) in
  let entry k := H1 k (zn 0 (table 17%Z) (o k)) (zn 0 (table 18%Z) (o k)) (zn 0 (table 19%Z) (o k)) (prad (o k)) in
  (forall i j, (0 <= i < j)%Z -> (j < n)%Z -> rad (o j) <= rad (o i)) /\
  Forall2 (fun id w => exists k hh ss, (0 <= k < n)%Z /\ ident (o k) = id /\ (forall m, (0 <= m < k)%Z -> ident (o m) <> id) /\
    ascending hh /\ (forall j, In j hh <-> (0 <= j < k)%Z /\ meet (o k) (o j)) /\
    ascending ss /\ (forall j, In j ss <-> (k < j < n)%Z /\ meet (o k) (o j)) /\
    o_hosts w = zlen hh /\ o_subhalos w = zlen ss /\ o_halo w = entry k /\ o_intrs w = map entry ss /\
    snd (o_settings w) = 3 * prad (o k) /\
    fst (o_settings w) = Z.max 20 (Zfloor (1000 * (L / (18 * prad (o k))) ^ 3 * (4 / 5) ^ 3))) targets out.
Proof. exact main_ok. Qed.
Print Assumptions C148_read_halo_partial.

(** Two rows that are sorted by one swap, in a box of width 100. *)
Example C148_example : let rad i := 1 + IZR i in
  (forall hs hs', hs_r200ms hs = map rad (zseq 2) -> halos_swaps hs [(0, 1)]%Z = Ok hs' ->
     forall i j, (0 <= i < j)%Z -> (j < 2)%Z -> halos_less hs' i j = Ok false) /\
  (forall i j, (0 <= i < 2)%Z -> (0 <= j < 2)%Z -> stays_inside3 100 (3 * (rad i + rad j)) (50, 50, 50)).
Proof.
  split; [apply sorting_swap; lra|]. intros i j Hi Hj. assert (IZR i <= 1) by (apply IZR_le; lia). assert (IZR j <= 1) by (apply IZR_le; lia).
  cbn. unfold stays_inside. repeat split; lra.
Qed.

(** C185: cubes of pixels, subhalos that do not reach the image of the first
    pixel, and no direction drawn at the origin. *)
Theorem C185_profile_run_partial : forall (isnan : R -> bool) (nan : R) (of64 of32 : Z -> R) (rnd : Z -> R) q words c r l s n host subs fuel,
  let L := of64 (ci_boxWidth c) in let cw := of64 (li_pixelWidth l) in let o := li_pixelOrigin l in
  typed_out q c r l -> Forall (bits 32) words -> li_pixelSpan l = V3 s s s -> zlen words = (s * s * s)%Z -> (zlen words < 2 ^ 63)%Z ->
  0 < cw -> L = IZR n * cw -> (0 < s <= n)%Z -> (v0 o <= n)%Z -> (v1 o <= n)%Z -> (v2 o <= n)%Z ->
  Forall (apart3 L cw n o) (map snd subs) ->
  (forall k p, (0 <= k < 4)%Z -> (0 <= p < 1000)%Z -> 0 < length2 (cube_point (fun i => rnd (3000 * k + (3 * p + i))%Z) (k - 1))) ->
  (Z.to_nat 1000 <= fuel)%nat ->
  exists file g out, write_buffer q (FScalar words) c r l = Ok file /\
    profile_main sqrt isnan nan of64 of32 fuel 4 (Good (columns (host :: subs))) file rnd = Ok out /\
    cut_out L cw s o (map snd subs) nan (map of32 words) g /\ zlen out = 4%Z /\
    forall k, (0 <= k < 4)%Z -> profile_lines s g cw nan (fun i => rnd (3000 * k + i)%Z) (k - 1) (zn [] out k).
Proof. exact profile_run. Qed.
Print Assumptions C185_profile_run_partial.

(** An image of 2 x 2 x 2 pixels of width 1 at pixel 4 of 8, and a subhalo in it. *)
Example C185_example : let of64 z := IZR z in let rnd (i : Z) := 3 / 4 in
  let c := CI 0 0 0 0 0 0 0 8 in let r := RI 0 0 0 0 0 in
  let l := (LI (V3 0 0 0) (V3 0 0 0) (V3 4 4 4) (V3 2 2 2) 1)%Z in
  typed_out 0 c r l /\ apart3 (of64 (ci_boxWidth c)) (of64 (li_pixelWidth l)) 8 (li_pixelOrigin l) (V3 5 5 5, 1 / 2) /\
  meets_cube 8 1 (V3 4 4 4)%Z (V3 5 5 5, 1 / 2) (V3 0 0 1)%Z /\ 0 < length2 (cube_point rnd 2).
Proof.
  cbv zeta. split; [|split; [|split]].
  - unfold typed_out, cosmo_typed, render_typed, loc_typed, all3, int64, bits. cbn [v0 v1 v2 li_origin li_span li_pixelOrigin li_pixelSpan li_pixelWidth
      ci_redshift ci_scale ci_omegaM ci_omegaL ci_hubble ci_rhoMean ci_rhoCritical ci_boxWidth ri_particles ri_totalPixels ri_subsample ri_depth ri_axis].
    repeat match goal with |- _ /\ _ => split | |- Forall _ _ => constructor end; lia.
  - assert (A : apart 8 1 8 4 5 (1 / 2)).
    { unfold apart, inside_period. repeat split; try lra. intros e [[k E] [E0 E1]]. cbn.
      assert (K : (k < 1)%Z) by (apply lt_IZR; lra).  assert (IZR k <= 0) by (apply IZR_le; lia). lra. }
    unfold apart3. cbn. auto.
  - assert (N : forall i, i = 4%Z \/ i = 5%Z -> pixel_near 8 1 5 (1 / 2) i).
    { intros i Hi. destruct Hi as [-> | ->].
      - exists (99 / 20), 0%Z. split; [cbn; lra|]. unfold Rabs. destruct Rcase_abs; lra.
      - exists 5, 0%Z. split; [cbn; lra|]. unfold Rabs. destruct Rcase_abs; lra. }
    unfold meets_cube. cbn. auto.
  - unfold length2, cube_point. cbn. lra.
Qed.

(** C185: a subhalo at the end of the box, next to an image at its beginning,
    stops the program. *)
Theorem C185_profile_run_refuted : forall (isnan : R -> bool) (nan : R) (of64 of32 : Z -> R) (rnd : Z -> R) q words c r l host fuel,
  typed_out q c r l -> Forall (bits 32) words -> zlen words = 64%Z ->
  li_pixelSpan l = (V3 4 4 4)%Z -> li_pixelOrigin l = (V3 0 0 0)%Z -> of64 (ci_boxWidth c) = 10 -> of64 (li_pixelWidth l) = 1 ->
  exists file, write_buffer q (FScalar words) c r l = Ok file /\
    profile_main sqrt isnan nan of64 of32 fuel 4 (Good (columns [host; (1, (V3 (1 / 2) (1 / 2) (99 / 10), 1 / 4))])) file rnd = Panic.
Proof. exact profile_crosses. Qed.
Print Assumptions C185_profile_run_refuted.

(** C185: wrong arguments, no halos, files that are too short, projected images. *)
Theorem C185_profile_stops : forall (isnan : R -> bool) (nan : R) (of64 of32 : Z -> R) fuel file (rnd : Z -> R),
  let run nargs table := profile_main sqrt isnan nan of64 of32 fuel nargs table file rnd in
  (forall nargs table, nargs <> 4%Z -> run nargs table = Fatal) /\ run 4%Z Err = Fatal /\ run 4%Z (Good (columns [])) = Panic /\
  (forall rows, rows <> [] -> (length file < 344)%nat -> run 4%Z (Good (columns rows)) = Fatal) /\
  (forall rows q words c r l, rows <> [] -> typed_out q c r l -> (zlen words < pixels l)%Z -> (pixels l < 2 ^ 63)%Z ->
     write_buffer q (FScalar words) c r l = Ok file -> run 4%Z (Good (columns rows)) = Fatal).
Proof. exact profile_stops. Qed.
Print Assumptions C185_profile_stops.
