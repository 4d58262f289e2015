(** Properties of halo grids, the subhalo finder, catalogues and densities
    (C93-C101, C128-C133, C184). *)
From Coq Require Import String.
From Coq Require Import ZArith Reals List Lia Lra Bool Permutation.
From Flocq Require Import Core.Raux.
From Verif Require Import Base.Res Base.ResFacts Base.Num Base.IEEE Base.Bytes Model.SheetIO Model.Halo Model.Cosmo Model.Catalog
  Spec.Geometry Spec.Work Spec.Halos Spec.HaloDefs Spec.Catalogs Proof.HaloT Proof.HaloW Proof.HaloE Proof.CatalogP Proof.CatalogT Proof.CatalogR Spec.Files Proof.CatalogS.
Import ListNotations.
Open Scope R_scope.
Local Notation realK := (CC PI gravity megaparsec solar_mass (177653 / 1000)).

(** C93 *)
Theorem C93_grid_lists : forall W c n xs ys zs, 0 < W -> (1 <= c)%Z -> zlen xs = n -> zlen ys = n -> zlen zs = n ->
  (forall i, (0 <= i < n)%Z -> Forall (fun x => - W <= x < 2 * W /\ x <> W) [zn 0 xs i; zn 0 ys i; zn 0 zs i]) ->
  exists g0 g, new_grid c W n = Ok g0 /\ insert g0 xs ys zs = Ok g /\ total_cells g = (c * c * c)%Z /\
  (forall kx ky kz, in_box (kx, ky, kz) (0, 0, 0)%Z (c, c, c) -> exists l, descending l /\
     (forall i, In i l <-> (0 <= i < n)%Z /\ in_cell3 W c (kx, ky, kz) (zn 0 xs i, zn 0 ys i, zn 0 zs i)) /\
     grid_length g (kx + ky * c + kz * c * c) = Ok (zlen l) /\
     (forall buf, (zlen l <= zlen buf)%Z -> exists buf', read_indexes g (kx + ky * c + kz * c * c) buf = Ok (buf', zlen l) /\
        zlen buf' = zlen buf /\ firstn (length l) buf' = l)) /\
  (exists m, max_length g = Ok m /\ (forall k, (0 <= k < c * c * c)%Z -> exists l, grid_length g k = Ok l /\ (l <= m)%Z) /\
     exists k, (0 <= k < c * c * c)%Z /\ grid_length g k = Ok m) /\
  average_length g = Ok (n / (c * c * c))%Z /\
  (forall i, (0 <= i < n)%Z -> exists! k : cell, in_box k (0, 0, 0)%Z (c, c, c) /\ in_cell3 W c k (zn 0 xs i, zn 0 ys i, zn 0 zs i)).
Proof. exact grid_thm. Qed.
Print Assumptions C93_grid_lists.

Example C93_example : Forall (fun x => - 100 <= x < 2 * 100 /\ x <> 100) [99; 150; -3] /\
  in_cell3 100 10 (9, 5, 9)%Z (99, 150, -3).
Proof. split; [repeat constructor; lra|]. cbn. unfold in_cell1. split; [exists 0%Z; cbn; lra|split; [exists (-1)%Z; cbn; lra|exists 1%Z; cbn; lra]]. Qed.

(** C94: refuted on every grid. *)
Theorem C94_upper_edge_refuted : forall W c, 0 < W -> (1 <= c)%Z -> exists g0, new_grid c W 1 = Ok g0 /\
  (forall x y, 0 <= x < W -> 0 <= y < W -> insert g0 [x] [y] [W] = Panic) /\
  (c = 1%Z -> insert g0 [W] [0] [0] = Panic) /\
  ((2 <= c)%Z -> in_cell3 W c (0, 0, 0)%Z (W, 0, 0) /\
     exists g, insert g0 [W] [0] [0] = Ok g /\ grid_length g 0 = Ok 0%Z /\ grid_length g c = Ok 1%Z).
Proof. exact edge_thm. Qed.
Print Assumptions C94_upper_edge_refuted.

(** C95 *)
Theorem C95_finder : forall W mult c n xs ys zs rs, 0 < W -> 0 < mult -> (1 <= c)%Z -> (1 <= n)%Z ->
  zlen xs = n -> zlen ys = n -> zlen zs = n -> zlen rs = n ->
  let pos i := (zn 0 xs i, zn 0 ys i, zn 0 zs i) in let rad i := zn 0 rs i in
  (forall i, (0 <= i < n)%Z -> in_cube W (pos i) /\ 0 <= rad i) ->
  (forall i j, (0 <= i <= j)%Z -> (j < n)%Z -> stays_inside3 W (mult * (rad i + rad j)) (pos i)) ->
  exists g0 g sf, new_grid c W n = Ok g0 /\ insert g0 xs ys zs = Ok g /\ find_subhalos g (new_finder n) xs ys zs rs mult = Ok (sf, rs) /\
  forall i, (0 <= i < n)%Z -> exists hs ss,
    intersects sf i = Ok (hs ++ ss) /\ hosts sf i = Ok hs /\ subhalos sf i = Ok ss /\
    intersect_count sf i = Ok (zlen hs + zlen ss)%Z /\ host_count sf i = Ok (zlen hs) /\ subhalo_count sf i = Ok (zlen ss) /\
    ascending (hs ++ ss) /\
    (forall j, In j hs <-> (0 <= j < i)%Z /\ spheres_meet_periodic W (pos i) (pos j) (mult * rad i) (mult * rad j)) /\
    (forall j, In j ss <-> (i < j < n)%Z /\ spheres_meet_periodic W (pos i) (pos j) (mult * rad i) (mult * rad j)).
Proof. exact finder_inside. Qed.
Print Assumptions C95_finder.

(** C95 for spheres that may leave the box: what is found is the overlap without images. *)
Theorem C95_finder_direct : forall W mult c n xs ys zs rs, 0 < W -> 0 < mult -> (1 <= c)%Z -> (1 <= n)%Z ->
  zlen xs = n -> zlen ys = n -> zlen zs = n -> zlen rs = n ->
  let pos i := (zn 0 xs i, zn 0 ys i, zn 0 zs i) in let rad i := zn 0 rs i in
  (forall i, (0 <= i < n)%Z -> in_cube W (pos i) /\ 0 <= rad i) ->
  (forall i j, (0 <= i <= j)%Z -> (j < n)%Z -> reach_ok3 W c (mult * (rad i + rad j)) (pos i)) ->
  exists g0 g sf, new_grid c W n = Ok g0 /\ insert g0 xs ys zs = Ok g /\ find_subhalos g (new_finder n) xs ys zs rs mult = Ok (sf, rs) /\
  forall i, (0 <= i < n)%Z -> exists hs ss,
    intersects sf i = Ok (hs ++ ss) /\ hosts sf i = Ok hs /\ subhalos sf i = Ok ss /\
    intersect_count sf i = Ok (zlen hs + zlen ss)%Z /\ host_count sf i = Ok (zlen hs) /\ subhalo_count sf i = Ok (zlen ss) /\
    ascending (hs ++ ss) /\
    (forall j, In j hs <-> (0 <= j < i)%Z /\ spheres_meet (pos i) (pos j) (mult * rad i) (mult * rad j)) /\
    (forall j, In j ss <-> (i < j < n)%Z /\ spheres_meet (pos i) (pos j) (mult * rad i) (mult * rad j)).
Proof. exact finder_lists. Qed.
Print Assumptions C95_finder_direct.

Example C95_example : in_cube 100 (20, 30, 40) /\ stays_inside3 100 (1 * (5 + 2)) (20, 30, 40) /\
  spheres_meet (20, 30, 40) (26, 30, 40) (1 * 5) (1 * 2) /\ reach_ok3 100 10 (1 * (5 + 2)) (99, 1, 40).
Proof.
  split; [cbn; lra|]. split; [cbn; unfold stays_inside; lra|]. split; [apply meet_iff; cbn; lra|]. cbn. unfold reach_ok. repeat split; right; lra.
Qed.

(** C96: refuted. *)
Theorem C96_finder_periodic_refuted : exists g0 g sf, new_grid 10 100 2 = Ok g0 /\ insert g0 [1 / 2; 199 / 2] [50; 50] [50; 50] = Ok g /\
  find_subhalos g (new_finder 2) [1 / 2; 199 / 2] [50; 50] [50; 50] [1; 1] 1 = Ok (sf, [1; 1]) /\
  intersects sf 0 = Ok [] /\ intersects sf 1 = Ok [] /\ spheres_meet_periodic 100 (1 / 2, 50, 50) (199 / 2, 50, 50) 1 1.
Proof. exact finder_not_periodic. Qed.
Print Assumptions C96_finder_periodic_refuted.

(** C96: what holds.  Missing: pairs that meet across the boundary only. *)
Theorem C96_finder_periodic_partial : forall W mult c n xs ys zs rs, 0 < W -> 0 < mult -> (1 <= c)%Z -> (1 <= n)%Z ->
  zlen xs = n -> zlen ys = n -> zlen zs = n -> zlen rs = n ->
  let pos i := (zn 0 xs i, zn 0 ys i, zn 0 zs i) in let rad i := zn 0 rs i in
  (forall i, (0 <= i < n)%Z -> in_cube W (pos i) /\ 0 <= rad i) ->
  (forall i j, (0 <= i <= j)%Z -> (j < n)%Z -> reach_ok3 W c (mult * (rad i + rad j)) (pos i)) ->
  exists g0 g sf, new_grid c W n = Ok g0 /\ insert g0 xs ys zs = Ok g /\ find_subhalos g (new_finder n) xs ys zs rs mult = Ok (sf, rs) /\
  (forall i, (0 <= i < n)%Z -> exists l, intersects sf i = Ok l /\
    (forall j, In j l -> (0 <= j < n)%Z /\ j <> i /\ spheres_meet_periodic W (pos i) (pos j) (mult * rad i) (mult * rad j)) /\
    (forall j, (0 <= j < n)%Z -> j <> i -> near3 W (pos i) (pos j) ->
       (In j l <-> spheres_meet_periodic W (pos i) (pos j) (mult * rad i) (mult * rad j)))).
Proof. exact finder_sound. Qed.
Print Assumptions C96_finder_periodic_partial.

Example C96_example : near3 100 (1, 50, 50) (3, 50, 50) /\ reach_ok3 100 10 (1 * (1 + 1)) (1, 50, 50).
Proof. split; [cbn; unfold near1; repeat split; apply Rabs_le; lra|]. cbn. unfold reach_ok. repeat split; right; lra. Qed.

(** C97 *)
Theorem C97_bounds : forall origin span val width, (0 <= origin < width)%Z -> (0 <= span)%Z -> (0 <= val < width)%Z ->
  (bounds_inside origin span val width = true <-> (0 <= convert_index origin val width < span)%Z) /\
  (0 <= convert_index origin val width < width)%Z /\
  (exists m, convert_index origin val width = val - origin + m * width)%Z /\
  (bounds_inside origin span val width = true <-> exists d m, (0 <= d < span)%Z /\ val = (origin + d + m * width)%Z) /\
  ((span <= width)%Z -> (bounds_inside origin span val width = true <->
     In val (map (fun d => let t := (origin + d)%Z in if (t >=? width)%Z then (t - width)%Z else t) (zseq span)))).
Proof. exact bounds_thm. Qed.
Print Assumptions C97_bounds.

Example C97_example : bounds_inside 8 4 1 10 = true /\ convert_index 8 1 10 = 3%Z /\ bounds_inside 8 4 2 10 = false.
Proof. repeat split. Qed.

(** C98 *)
Theorem C98_radius_names :
  (forall r, (0 <= r <= 4)%Z -> exists s, radius_string r = Ok s /\ forall s', same_name s' s -> radius_from_string s' = (r, true)) /\
  (forall r, ~ (0 <= r <= 4)%Z -> radius_string r = Panic) /\
  (forall s r, radius_from_string s = (r, true) <-> (0 <= r <= 4)%Z /\ exists t, In t (names_of r) /\ same_name s t) /\
  (forall s, snd (radius_from_string s) = false -> fst (radius_from_string s) = RVirial).
Proof. exact names_thm. Qed.
Print Assumptions C98_radius_names.

Example C98_example : radius_from_string "r200C" = (R200c, true) /\ radius_from_string "r200" = (RVirial, false).
Proof. repeat split. Qed.

(** C99 *)
Theorem C99_mass_radius : forall r (c : cosmo_header R), (0 <= r <= 4)%Z -> 0 < ch_omegaM c -> 0 <= ch_omegaL c -> -1 < ch_z c -> ch_h100 c <> 0 ->
  forall l out out', zlen out = zlen l -> zlen out' = zlen l -> Forall (fun x => 0 < x) l ->
  (exists rs, radius_of sqrt Rpower realK r c l out = Ok rs /\ Forall (fun x => 0 < x) rs /\
     mass_of sqrt Rpower realK r c rs out' = Ok l /\
     Forall2 (fun m x => m = sphere_mass r (ch_omegaM c) (ch_omegaL c) (ch_z c) x) l rs /\
     forall i j, (0 <= i < zlen l)%Z -> (0 <= j < zlen l)%Z -> zn 0 l i < zn 0 l j -> zn 0 rs i < zn 0 rs j) /\
  (exists ms, mass_of sqrt Rpower realK r c l out = Ok ms /\ Forall (fun x => 0 < x) ms /\
     radius_of sqrt Rpower realK r c ms out' = Ok l /\
     Forall2 (fun x m => m = sphere_mass r (ch_omegaM c) (ch_omegaL c) (ch_z c) x) l ms /\
     forall i j, (0 <= i < zlen l)%Z -> (0 <= j < zlen l)%Z -> zn 0 l i < zn 0 l j -> zn 0 ms i < zn 0 ms j).
Proof. exact mass_radius_thm. Qed.
Print Assumptions C99_mass_radius.

Example C99_example : let c := CH 0 (27 / 100) (73 / 100) (7 / 10) in
  0 < ch_omegaM c /\ 0 <= ch_omegaL c /\ -1 < ch_z c /\ ch_h100 c <> 0 /\ Forall (fun x => 0 < x) [10 ^ 14; 10 ^ 12].
Proof. cbn. repeat split; try lra. repeat constructor; lra. Qed.

(** C100: the whole catalogue. *)
Theorem C100_convert : forall (cols : list (list Z)) N, zlen cols = valNum -> Forall (fun c : list Z => zlen c = N) cols ->
  Forall (Forall (fun v => 0 <= v < 2 ^ 64)%Z) cols -> (N < 2 ^ 63)%Z ->
  exists file, rockstar_convert cols = Ok file /\
    forall cs, Forall (fun c => 0 <= c < valNum)%Z cs -> binary_col_getter file cs = Ok (Good (map (fun c => zn [] cols c) cs)).
Proof. exact convert_thm. Qed.
Print Assumptions C100_convert.

(** C100: the n most massive halos. *)
Theorem C100_top_n : forall (srt : sorter) (less : Z -> Z -> bool) cols N n, sorts srt -> strict_weak less ->
  zlen cols = valNum -> Forall (fun c : list Z => zlen c = N) cols -> Forall (Forall (fun v => 0 <= v < 2 ^ 64)%Z) cols -> (N < 2 ^ 63)%Z -> (0 <= n)%Z ->
  exists file idxs, rockstar_convert_top_n srt less cols n = Ok file /\ largest less 0%Z (zn [] cols vM200b) n idxs /\
    (forall cs, Forall (fun c => 0 <= c < valNum)%Z cs ->
      binary_col_getter file cs = Ok (Good (map (fun c => map (fun i => zn 0%Z (zn [] cols c) i) idxs) cs))) /\
    (forall cs rest, Forall (fun c => 0 <= c < valNum)%Z cs ->
      ((1 <= Z.min n N)%Z -> binary_col_getter file (cs ++ valNum :: rest) = Ok Err) /\
      (forall c, (valNum < c)%Z -> binary_col_getter file (cs ++ c :: rest) = Panic)).
Proof. exact top_n_thm. Qed.
Print Assumptions C100_top_n.

(** C100: a negative number. *)
Theorem C100_negative : forall (srt : sorter) (less : Z -> Z -> bool) cols N n, sorts srt -> strict_weak less ->
  zlen cols = valNum -> Forall (fun c : list Z => zlen c = N) cols -> (n < 0)%Z -> rockstar_convert_top_n srt less cols n = Panic.
Proof. exact top_n_neg. Qed.
Print Assumptions C100_negative.

Example C100_example : sorts isort /\ strict_weak Z.ltb /\
  (let cols := map (fun k => [k; k + 7; k + 3]%Z) (zseq 62) in
   zlen cols = valNum /\ Forall (fun c : list Z => zlen c = 3%Z) cols /\ Forall (Forall (fun v => 0 <= v < 2 ^ 64)%Z) cols /\
   largest Z.ltb 0%Z (zn [] cols vM200b) 2 [2; 1]%Z).
Proof. exact top_n_example. Qed.

(** C101 *)
Theorem C101_densities : forall H0 H0' om ol z, H0 <> 0 -> H0' <> 0 -> 0 <= om -> 0 <= ol -> -1 < z ->
  rho_critical sqrt Rpower realK H0 om ol z = critical_today * expansion2 om ol z /\
  rho_critical sqrt Rpower realK H0 om ol z = rho_critical sqrt Rpower realK H0' om ol z /\
  rho_average sqrt Rpower realK H0 om ol 0 = om * rho_critical sqrt Rpower realK H0 om ol 0 /\
  (om + ol = 1 -> rho_average sqrt Rpower realK H0 om ol z = om * (1 + z) ^ 3 * critical_today) /\
  (forall z', z < z' -> rho_critical sqrt Rpower realK H0 om ol z <= rho_critical sqrt Rpower realK H0 om ol z' /\
     rho_average sqrt Rpower realK H0 om ol z <= rho_average sqrt Rpower realK H0 om ol z') /\
  (0 < om -> forall z', z < z' -> rho_critical sqrt Rpower realK H0 om ol z < rho_critical sqrt Rpower realK H0 om ol z' /\
     rho_average sqrt Rpower realK H0 om ol z < rho_average sqrt Rpower realK H0 om ol z').
Proof. exact density_thm. Qed.
Print Assumptions C101_densities.

Example C101_example : 70 <> 0 /\ 0 <= 27 / 100 /\ 0 <= 73 / 100 /\ -1 < 1 / 2 /\ 27 / 100 + 73 / 100 = 1 /\ 0 < critical_today.
Proof. repeat split; try lra. exact critical_pos. Qed.

(** C128: refuted in float64. *)
Theorem C128_large_spheres_refuted : found_lists 4 8 [4; 5]%Z [4; 4]%Z [4; 4]%Z [3; 1]%Z = Ok [[]; []] /\
  spheres_meet (4, 4, 4) (5, 4, 4) 3 1 /\
  found_lists 4 8 [4; 5]%Z [4; 4]%Z [4; 4]%Z [12; 1]%Z = Panic /\
  found_lists 4 8 [4; 5]%Z [4; 4]%Z [4; 4]%Z [1; 1]%Z = Ok [[1%Z]; [0%Z]].
Proof. exact (conj large_missed (conj large_meet (conj large_panics small_found))). Qed.
Print Assumptions C128_large_spheres_refuted.

(** C129: refuted in float64. *)
Theorem C129_reuse_refuted :
  found_lists 4 100 [5; 6; 40; 41]%Z [5; 5; 5; 5]%Z [5; 5; 5; 5]%Z [2; 2; 1; 1]%Z = Ok [[1]; [0]; [3]; [2]]%Z /\
  found_again 4 100 [5; 6; 40; 41]%Z [5; 5; 5; 5]%Z [5; 5; 5; 5]%Z [2; 2; 1; 1]%Z = Ok [[1]; [0]; [3]; [0; 0; 0; 0; 0; 0; 0; 0; 2]]%Z.
Proof. exact (conj reuse_first reuse_second). Qed.
Print Assumptions C129_reuse_refuted.

(** C130: refuted in every arithmetic. *)
Theorem C130_no_halos_refuted : forall (D : Type) (ND : Num D) (c : Z) (W mult : D) (sf : finder), (1 <= c)%Z -> exists g,
  new_grid c W 0 = Ok g /\ insert g [] [] [] = Ok g /\ find_subhalos g sf [] [] [] [] mult = Panic.
Proof. exact @no_halos. Qed.
Print Assumptions C130_no_halos_refuted.

(** C131 *)
Theorem C131_values : forall c : cosmo_header R, 0 < ch_omegaM c -> 0 <= ch_omegaL c -> -1 < ch_z c -> ch_h100 c <> 0 ->
  forall col : Z -> list R, (forall v r k, radius_column v = Some (r, k) -> Forall (fun m => 0 < m) (col k)) ->
  forall getter flags, (forall cs, getter cs = Ok (Good (map col cs))) ->
  exists outs, read_rockstar_vals sqrt Rpower realK getter c flags = Ok (Good (map Ztrunc (col 1%Z), outs)) /\
    Forall2 (fun v out => wanted (ch_omegaM c) (ch_omegaL c) (ch_z c) col v out) flags outs.
Proof. exact vals_thm. Qed.
Print Assumptions C131_values.

Example C131_example : let col k := [IZR k + 1; 3] in
  (forall v r k, radius_column v = Some (r, k) -> Forall (fun m => 0 < m) (col k)) /\
  wanted (27 / 100) (73 / 100) 0 col 11 [12 / 1000; 3 / 1000] /\ wanted (27 / 100) (73 / 100) 0 col 20 [21; 3].
Proof. exact values_example. Qed.

(** C132: refuted in float64; 150 cells is the size scripts/read_halo.go uses. *)
Theorem C132_below_width_refuted :
  nltb (f64lit (125 * 2 ^ 46 - 1) (-46)) (nofZ 125 : f64) = true /\
  match new_grid 3 (nofZ 125 : f64) 1 with Ok g => insert g [nofZ 1] [nofZ 1] [f64lit (125 * 2 ^ 46 - 1) (-46)] | _ => NoFuel end = Panic /\
  nltb (f64lit (100 * 2 ^ 46 - 1) (-46)) (nofZ 100 : f64) = true /\
  match new_grid 150 (nofZ 100 : f64) 1 with Ok g => insert g [nofZ 1] [nofZ 1] [f64lit (100 * 2 ^ 46 - 1) (-46)] | _ => NoFuel end = Panic.
Proof. exact (conj (proj1 below_less) (conj below_width_125 (conj (proj2 below_less) below_width_100))). Qed.
Print Assumptions C132_below_width_refuted.

(** C133 *)
Theorem C133_read_halos : forall (srt : sorter) r (c : cosmo_header R), sorts srt -> (0 <= r <= 4)%Z ->
  0 < ch_omegaM c -> 0 <= ch_omegaL c -> -1 < ch_z c -> ch_h100 c <> 0 ->
  forall table n, (forall k, In k [1; 17; 18; 19; table_column r]%Z -> zlen (table k) = n) -> Forall (fun v => 0 < v) (table (table_column r)) ->
  exists ms rs order, read_rockstar sqrt Rpower realK srt r c table =
    Ok (map (fun i => Ztrunc (zn 0 (table 1%Z) i)) order, map (zn 0 (table 17%Z)) order, map (zn 0 (table 18%Z)) order, map (zn 0 (table 19%Z)) order,
        map (zn 0 ms) order, map (zn 0 rs) order) /\
    Permutation order (zseq n) /\ largest_first (map (zn 0 rs) order) /\ zlen ms = n /\ zlen rs = n /\
    (if (r =? 0)%Z then Forall2 (fun v x => v = 1000 * x) (table (table_column r)) rs else ms = table (table_column r)) /\
    Forall2 (fun m x => 0 < x /\ m = sphere_mass r (ch_omegaM c) (ch_omegaL c) (ch_z c) x) ms rs.
Proof. exact col_mass. Qed.
Print Assumptions C133_read_halos.

Example C133_example : sorts isort /\ Forall (fun v => 0 < v) [10 ^ 13; 10 ^ 12] /\ largest_first [3; 2; 2].
Proof. split; [exact isort_sorts|]. split; [repeat constructor; lra|]. repeat constructor; lra. Qed.

(** C184: which column belongs to a definition of the radius; other numbers stop
    the program. *)
Theorem C184_radius_types : forall t,
  ((0 <= t <= 4)%Z -> rockstar_column t = Ok (table_column t) /\ rockstar_mass t = Ok (negb (t =? 0)%Z)) /\
  (~ (0 <= t <= 4)%Z -> rockstar_column t = Panic /\ rockstar_mass t = Panic /\
     forall {F} {NF : Num F} fsqrt fpow k srt (c : cosmo_header F) table, read_rockstar fsqrt fpow k srt t c table = Panic).
Proof. exact radius_types. Qed.
Print Assumptions C184_radius_types.

(** C184: files that are too short or have a negative count. *)
Theorem C184_damaged_catalogues : forall file n rest cs,
  ((List.length file < 8)%nat -> binary_col_getter file cs = Ok Err) /\
  (int64 n -> let file := put Little 8 n ++ rest in
    ((n < 0)%Z -> cs <> [] -> binary_col_getter file cs = Panic) /\
    binary_col_getter file [] = Ok (Good []) /\
    ((1 <= n)%Z -> (8 * n * (valNum + 1) < 2 ^ 63)%Z -> Forall (fun c => 0 <= c <= valNum)%Z cs ->
       Exists (fun c => (Z.of_nat (List.length rest) < 8 * n * (c + 1))%Z) cs -> binary_col_getter file cs = Ok Err)).
Proof. exact damaged. Qed.
Print Assumptions C184_damaged_catalogues.

(** One row with two columns; columns 0 and 1 can be read, column 2 is missing. *)
Example C184_example : let file := put Little 8 1 ++ put Little 8 5 ++ put Little 8 6 in
  binary_col_getter file [1; 0]%Z = Ok (Good [[6]; [5]]%Z) /\ binary_col_getter file [1; 2]%Z = Ok Err /\
  binary_col_getter (put Little 8 (-1)) [0]%Z = Panic /\ rockstar_column 5 = Panic.
Proof. vm_compute. repeat split; reflexivity. Qed.
