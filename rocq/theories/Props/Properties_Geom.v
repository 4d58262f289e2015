(** C45-C60: render/geom (grids, boxes, vectors, tetrahedra). *)
From Coq Require Import ZArith List Lia Lra Bool Reals Permutation.
From Flocq Require Import Core BinarySingleNaN.
From Verif Require Import Base.Res Base.Num Base.IEEE Model.Geom Spec.Geometry Spec.GeomDefs
  Proof.GridP Proof.GeomR Proof.TileP Proof.ModP.
Import ListNotations.
Open Scope Z_scope.

(** C45 *)
Theorem C45_idx_check : forall o w x y z,
  (inside o w (x, y, z) -> idx_check (new_grid o w) x y z = (grid_idx (new_grid o w) x y z, true)) /\
  (~ inside o w (x, y, z) -> idx_check (new_grid o w) x y z = (-1, false)).
Proof. exact idx_check_ok. Qed.
Print Assumptions C45_idx_check.

Theorem C45_idx_range : forall o w x y z, inside o w (x, y, z) ->
  0 <= grid_idx (new_grid o w) x y z < v0 w * v1 w * v2 w.
Proof. exact grid_idx_range. Qed.
Print Assumptions C45_idx_range.

Theorem C45_idx_injective : forall o w c c', inside o w c -> inside o w c' ->
  (let '(x, y, z) := c in grid_idx (new_grid o w) x y z) =
  (let '(x, y, z) := c' in grid_idx (new_grid o w) x y z) -> c = c'.
Proof. exact grid_idx_inj. Qed.
Print Assumptions C45_idx_injective.

Theorem C45_idx_onto : forall o w i, 0 < v0 w -> 0 < v1 w -> 0 < v2 w ->
  0 <= i < v0 w * v1 w * v2 w ->
  exists a b c, grid_coords (new_grid o w) i = Ok (V3 a b c) /\
    inside o w (a + v0 o, b + v1 o, c + v2 o) /\
    grid_idx (new_grid o w) (a + v0 o) (b + v1 o) (c + v2 o) = i.
Proof. exact grid_idx_coords. Qed.
Print Assumptions C45_idx_onto.

Example C45_example : inside (V3 5 (-3) 2) (V3 3 4 2) (6, 0, 3) /\
  grid_idx (new_grid (V3 5 (-3) 2) (V3 3 4 2)) 6 0 3 = 22 /\ 3 * 4 * 2 = 24.
Proof. unfold inside, in_box, in_range, tup; cbn. lia. Qed.

(** C46: false of the code for grids with a non-zero origin. *)
Theorem C46_coords_refuted : exists o w x y z, inside o w (x, y, z) /\
  grid_coords (new_grid o w) (grid_idx (new_grid o w) x y z) <> Ok (V3 x y z).
Proof. exact coords_bad. Qed.
Print Assumptions C46_coords_refuted.

(** Missing: the origin is not added back; with origin zero this is the full claim. *)
Theorem C46_coords_partial : forall o w x y z, inside o w (x, y, z) ->
  grid_coords (new_grid o w) (grid_idx (new_grid o w) x y z) =
  Ok (V3 (x - v0 o) (y - v1 o) (z - v2 o)).
Proof. exact grid_coords_idx. Qed.
Print Assumptions C46_coords_partial.

Example C46_example : inside (V3 0 0 0) (V3 3 4 2) (2, 3, 1).
Proof. unfold inside, in_box, in_range, tup; cbn. lia. Qed.

(** C47 *)
Theorem C47_intersect_complete : forall L a b, 0 < L -> valid_box L a -> valid_box L b ->
  share_cell L a b -> cb_intersect a b L = true.
Proof. exact intersect_no_false_negative. Qed.
Print Assumptions C47_intersect_complete.

Theorem C47_intersect_sound : forall L a b, 0 < L -> valid_box L a -> valid_box L b ->
  cb_intersect a b L = true ->
  (share L (v0 (origin a)) (v0 (width a)) (v0 (origin b)) (v0 (width b)) \/
   touch L (v0 (origin a)) (v0 (width a)) (v0 (origin b)) (v0 (width b))) /\
  (share L (v1 (origin a)) (v1 (width a)) (v1 (origin b)) (v1 (width b)) \/
   touch L (v1 (origin a)) (v1 (width a)) (v1 (origin b)) (v1 (width b))) /\
  (share L (v2 (origin a)) (v2 (width a)) (v2 (origin b)) (v2 (width b)) \/
   touch L (v2 (origin a)) (v2 (width a)) (v2 (origin b)) (v2 (width b))).
Proof. exact intersect_sound. Qed.
Print Assumptions C47_intersect_sound.

(** Boxes that overlap only around the periodic edge. *)
Example C47_example :
  let a := CB (V3 8 0 0) (V3 3 2 2) in let b := CB (V3 0 1 1) (V3 2 2 2) in
  valid_box 10 a /\ valid_box 10 b /\ share_cell 10 a b /\ cb_intersect a b 10 = true.
Proof.
  cbn zeta. unfold valid_box; cbn. split; [lia|]. split; [lia|]. split; [|reflexivity].
  exists (10, 1, 1), (0, 1, 1). unfold in_box, in_range, tup; cbn. split; [lia|]. split; [lia|].
  unfold cong. split; [exists 1; lia|split; exists 0; lia].
Qed.

(** C48 *)
Theorem C48_intersect_unbounded : forall a b,
  0 < v0 (width a) -> 0 < v1 (width a) -> 0 < v2 (width a) ->
  0 < v0 (width b) -> 0 < v1 (width b) -> 0 < v2 (width b) ->
  cb_intersect_unbounded a b = true <->
  exists c : cell, in_box c (tup (origin a)) (tup (width a)) /\
                   in_box c (tup (origin b)) (tup (width b)).
Proof. exact unbounded_iff. Qed.
Print Assumptions C48_intersect_unbounded.

Example C48_example :
  cb_intersect_unbounded (CB (V3 0 0 0) (V3 2 2 2)) (CB (V3 1 (-1) 1) (V3 5 2 1)) = true /\
  cb_intersect_unbounded (CB (V3 0 0 0) (V3 2 2 2)) (CB (V3 2 0 0) (V3 5 2 1)) = false.
Proof. split; reflexivity. Qed.

Open Scope R_scope.

(** C49 *)
Theorem C49_sub_minimum_image : forall L a b, 0 <= a < L -> 0 <= b < L ->
  rcong L (sub1 L a b) (a - b) /\ - (L / 2) <= sub1 L a b <= L / 2.
Proof. exact sub1_min_image. Qed.
Print Assumptions C49_sub_minimum_image.

Theorem C49_mod_range : forall L x, 0 < L -> - L <= x < 2 * L ->
  rcong L (mod1 L x) x /\ 0 <= mod1 L x < L.
Proof. exact mod1_range. Qed.
Print Assumptions C49_mod_range.

Example C49_example : 0 <= 9 < 10 /\ 0 <= 1 < 10 /\ sub1 10 9 1 = -2.
Proof. unfold sub1; rn. repeat split; try lra. rb; lra. Qed.

(** C50: false of the code, a small negative coordinate rounds up to the width. *)
Theorem C50_mod_single_refuted : exists w x : f32, is_finite w = true /\ is_finite x = true /\
  0 < B2R w /\ - B2R w <= B2R x < 2 * B2R w /\ ~ B2R (mod1 w x) < B2R w.
Proof. exact mod1_f32_bad. Qed.
Print Assumptions C50_mod_single_refuted.

(** Missing: strictly below the width for negative coordinates. *)
Theorem C50_mod_single_partial : forall w x : f32, is_finite w = true -> is_finite x = true ->
  0 < B2R w -> - B2R w <= B2R x < 2 * B2R w ->
  is_finite (mod1 w x) = true /\ 0 <= B2R (mod1 w x) <= B2R w /\
  (0 <= B2R x -> B2R (mod1 w x) < B2R w).
Proof. exact mod1_f32. Qed.
Print Assumptions C50_mod_single_partial.

Example C50_example : B2SF (mod1 (f32lit 1 0) (f32lit 3 (-1))) = B2SF (f32lit 1 (-1)) /\
  B2SF (mod1 (f32lit 1 0) (f32lit (-1) (-2))) = B2SF (f32lit 3 (-2)).
Proof. split; vm_compute; reflexivity. Qed.

(** C51: false of the code, the result is b x a. *)
Theorem C51_cross_refuted : exists a b, tup (cross a b) <> pcross (tup a) (tup b).
Proof. exact cross_bad. Qed.
Print Assumptions C51_cross_refuted.

(** Missing: the sign. *)
Theorem C51_cross_partial : forall a b,
  tup (cross a b) = pcross (tup b) (tup a) /\ tup (cross_self a b) = pcross (tup b) (tup a) /\
  pdot (tup (cross a b)) (tup a) = 0 /\ pdot (tup (cross a b)) (tup b) = 0.
Proof. exact cross_all. Qed.
Print Assumptions C51_cross_partial.

Example C51_example : tup (cross (V3 1 2 3) (V3 4 5 7)) = (1, -5, 3).
Proof. unfold cross, cross_at, tup; rn; cbn. f_equal; [f_equal|]; lra. Qed.

(** C52 *)
Theorem C52_tiles_cover : forall n skip c, cube_room n skip c -> forall p,
  in_cube skip c p <-> exists dir, (0 <= dir < 6)%Z /\ in_code_tetra n skip c dir p.
Proof. exact tile_cover. Qed.
Print Assumptions C52_tiles_cover.

Theorem C52_tiles_disjoint : forall n skip c, cube_room n skip c -> forall p d1 d2,
  (0 <= d1 < 6)%Z -> (0 <= d2 < 6)%Z ->
  in_code_tetra_open n skip c d1 p -> in_code_tetra_open n skip c d2 p -> d1 = d2.
Proof. exact tile_disjoint. Qed.
Print Assumptions C52_tiles_disjoint.

Theorem C52_tiles_unique : forall n skip c, cube_room n skip c -> forall p,
  in_cube skip c p -> generic c p ->
  exists! dir, (0 <= dir < 6)%Z /\ in_code_tetra n skip c dir p.
Proof. exact tile_unique. Qed.
Print Assumptions C52_tiles_unique.

Theorem C52_tiles_volume : forall n skip c dir A B C D, cube_room n skip c -> (0 <= dir < 6)%Z ->
  code_tetra n skip c dir A B C D ->
  Rabs (odet (cell_point A) (cell_point B) (cell_point C) (cell_point D)) / 6 = IZR skip ^ 3 / 6.
Proof. exact tile_volume. Qed.
Print Assumptions C52_tiles_volume.

Example C52_example : cube_room 8 2 (1, 3, 5)%Z /\ in_cube 2 (1, 3, 5)%Z (3/2, 4, 27/5) /\
  generic (1, 3, 5)%Z (3/2, 4, 27/5).
Proof. unfold cube_room, in_cube, generic, cell_point. split; [lia|]. split; lra. Qed.

Open Scope Z_scope.

(** C53 *)
Theorem C53_vertices_valid : forall n skip c dir, cube_room n skip c -> 0 <= dir < 6 ->
  exists A B C D : cell,
    tetra_idxs (lattice_index n c) n skip dir =
      Ok (I4 (lattice_index n A) (lattice_index n B) (lattice_index n C) (lattice_index n D)) /\
    Forall (cube_corner skip c) [A; B; C; D] /\ Forall (in_lattice n) [A; B; C; D] /\
    Forall (fun i => 0 <= i < n * n * n) (map (lattice_index n) [A; B; C; D]) /\
    NoDup (map (lattice_index n) [A; B; C; D]).
Proof. exact tetra_idxs_valid. Qed.
Print Assumptions C53_vertices_valid.

(** InitCartesian with the coordinates selects the same vertices. *)
Theorem C53_cartesian : forall n c dir, cube_room n 1 c -> 0 <= dir < 6 ->
  (let '(x, y, z) := c in tetra_idxs_cartesian x y z n dir) = tetra_idxs (lattice_index n c) n 1 dir.
Proof. exact cartesian_same. Qed.
Print Assumptions C53_cartesian.

Example C53_example : cube_room 4 2 (1, 0, 1) /\
  tetra_idxs (lattice_index 4 (1, 0, 1)) 4 2 4 = Ok (I4 25 57 59 17).
Proof. split; [cbn; lia|reflexivity]. Qed.

(** C54: false of the code, only x is checked. *)
Theorem C54_centered_refuted : exists n skip c dir A B C D, in_lattice n c /\ 0 < skip /\
    tetra_idxs_centered (lattice_index n c) n skip dir = Ok (Some (I4 A B C D)) /\
    ~ (0 <= A < n * n * n).
Proof. exact centered_bad. Qed.
Print Assumptions C54_centered_refuted.

(** Missing: cells within [skip] of a y or z face. *)
Theorem C54_centered_partial : forall n skip c dir, in_lattice n c -> 0 < skip -> 0 <= dir < 8 ->
  (let '(x, y, z) := c in skip <= y /\ y + skip < n /\ skip <= z /\ z + skip < n) ->
  (forall i, tetra_idxs_centered (lattice_index n c) n skip dir = Ok (Some i) ->
     exists A B C, i = I4 (lattice_index n A) (lattice_index n B) (lattice_index n C) (lattice_index n c) /\
       Forall (in_lattice n) [A; B; C] /\ Forall (step_of skip c) [A; B; C] /\ NoDup [A; B; C; c]) /\
  ((let '(x, _, _) := c in skip <= x /\ x + skip < n) ->
     exists i, tetra_idxs_centered (lattice_index n c) n skip dir = Ok (Some i)).
Proof. exact centered_inside. Qed.
Print Assumptions C54_centered_partial.

Example C54_example :
  tetra_idxs_centered (lattice_index 4 (0, 1, 2)) 4 1 2 = Ok (Some (I4 52 32 37 36)) /\
  tetra_idxs_centered (lattice_index 4 (0, 1, 2)) 4 1 3 = Ok None.
Proof. split; reflexivity. Qed.

Open Scope R_scope.

(** C55: after any history of calls the volume is that of the current corners. *)
Theorem C55_volume : forall cs a b c d,
  last_corners (corners tetra_zero) cs = (a, b, c, d) ->
  fst (tetra_volume (trun tetra_zero cs)) =
  Rabs (odet (tup a) (tup b) (tup c) (tup d)) / 6.
Proof. exact volume_history. Qed.
Print Assumptions C55_volume.

Theorem C55_translation : forall k p q r s,
  vol6 (padd p k) (padd q k) (padd r k) (padd s k) = vol6 p q r s.
Proof. exact vol6_translate. Qed.
Print Assumptions C55_translation.

Theorem C55_permutation : forall l l', Permutation l l' -> vol6l l = vol6l l'.
Proof. exact perm_vol. Qed.
Print Assumptions C55_permutation.

Theorem C55_degenerate : forall p q r s, vol6 p q r s = 0 <-> coplanar p q r s.
Proof. exact vol6_zero_iff. Qed.
Print Assumptions C55_degenerate.

Example C55_example :
  let t := trun tetra_zero [TInit (V3 0 0 0) (V3 1 0 0) (V3 0 1 0) (V3 0 0 1); TVolume;
                            TInit (V3 0 0 0) (V3 2 0 0) (V3 0 2 0) (V3 0 0 2)] in
  fst (tetra_volume t) = 8 / 6.
Proof.
  cbv zeta. erewrite volume_history by reflexivity. unfold vol6, odet, det3, psub, tup; cbn [v0 v1 v2].
  rewrite Rabs_pos_eq; lra.
Qed.

(** C56 *)
Theorem C56_contains_inside : forall cs a b c d v,
  last_corners (corners tetra_zero) cs = (a, b, c, d) ->
  odet (tup a) (tup b) (tup c) (tup d) <> 0 ->
  in_tetra_open (tup v) (tup a) (tup b) (tup c) (tup d) ->
  fst (tetra_contains (trun tetra_zero cs) v) = true.
Proof. exact contains_inside_history. Qed.
Print Assumptions C56_contains_inside.

Theorem C56_contains_outside : forall cs a b c d v,
  last_corners (corners tetra_zero) cs = (a, b, c, d) ->
  odet (tup a) (tup b) (tup c) (tup d) <> 0 ->
  ~ in_tetra (tup v) (tup a) (tup b) (tup c) (tup d) ->
  fst (tetra_contains (trun tetra_zero cs) v) = false.
Proof. exact contains_outside_history. Qed.
Print Assumptions C56_contains_outside.

Example C56_example : odet (0, 0, 0) (1, 0, 0) (0, 1, 0) (0, 0, 1) <> 0 /\
  in_tetra_open (1/4, 1/4, 1/4) (0, 0, 0) (1, 0, 0) (0, 1, 0) (0, 0, 1) /\
  ~ in_tetra (1, 1, 1) (0, 0, 0) (1, 0, 0) (0, 1, 0) (0, 0, 1).
Proof.
  split; [unfold odet, det3, psub; lra|]. split.
  - exists (1/4), (1/4), (1/4), (1/4). unfold combine, padd, pscale. repeat split; try lra. f_equal; [f_equal|]; lra.
  - intros (w1 & w2 & w3 & w4 & H1 & H2 & H3 & H4 & W & E). unfold combine, padd, pscale in E. injection E. lra.
Qed.

(** C57: false of the code, the fourth corner is left out. *)
Theorem C57_barycenter_refuted : exists a b c d,
  tup (fst (tetra_barycenter (tetra_init tetra_zero a b c d))) <>
  pscale (/ 4) (padd (padd (tup a) (tup b)) (padd (tup c) (tup d))).
Proof. exact bary_bad. Qed.
Print Assumptions C57_barycenter_refuted.

(** Missing: the contribution of the fourth corner (right only if it is the origin). *)
Theorem C57_barycenter_partial : forall cs a b c d,
  last_corners (corners tetra_zero) cs = (a, b, c, d) ->
  tup (fst (tetra_barycenter (trun tetra_zero cs))) = pscale (/ 4) (padd (padd (tup a) (tup b)) (tup c)).
Proof. exact bary_history. Qed.
Print Assumptions C57_barycenter_partial.

Example C57_example :
  tup (fst (tetra_barycenter (trun tetra_zero [TInit (V3 4 0 0) (V3 0 4 0) (V3 0 0 4) (V3 0 0 0)]))) = (1, 1, 1).
Proof. erewrite bary_history by reflexivity. unfold tup, pscale, padd; cbn [v0 v1 v2]. f_equal; [f_equal|]; lra. Qed.

(** C58 *)
Theorem C58_distribute_inside : forall (t : tetra R) ps, Forall unit_cube ps ->
  length (fst (distribute t ps)) = length ps /\
  Forall (fun x => in_tetra (tup x) (tup (c0 t)) (tup (c1 t)) (tup (c2 t)) (tup (c3 t))) (fst (distribute t ps)).
Proof. exact distribute_inside. Qed.
Print Assumptions C58_distribute_inside.

Theorem C58_distribute_tetra_inside : forall (t : tetra R) ps, Forall unit_cube ps ->
  let us := distribute_unit ps in
  length (fst (distribute_tetra t us)) = length ps /\
  Forall (fun x => in_tetra (tup x) (tup (c0 t)) (tup (c1 t)) (tup (c2 t)) (tup (c3 t))) (fst (distribute_tetra t us)).
Proof. exact distribute_unit_tetra_inside. Qed.
Print Assumptions C58_distribute_tetra_inside.

Example C58_example : Forall unit_cube [V3 (9/10) (8/10) (7/10); V3 0 0 0].
Proof. repeat constructor; cbn; lra. Qed.

(** C59 *)
Theorem C59_six_preimages : forall q, open_simplex q ->
  NoDup (map (fun f => f q) branches) /\ length branches = 6%nat /\
  Forall (fun f => open_cube (f q)) branches /\
  forall p, open_cube p ->
    (tup (fold_unit (unfold_v p)) = q <-> In p (map (fun f => f q) branches)).
Proof. exact fold_six_all. Qed.
Print Assumptions C59_six_preimages.

Theorem C59_volume_preserving : Forall unit_affine branches.
Proof. exact branches_affine. Qed.
Print Assumptions C59_volume_preserving.

Example C59_example : open_simplex (1/5, 1/4, 1/3).
Proof. unfold open_simplex. lra. Qed.

(** C60 *)
Theorem C60_cell_bounds_contain : forall (t : tetra R) h, 0 < h ->
  forall p c, in_tetra p (tup (c0 t)) (tup (c1 t)) (tup (c2 t)) (tup (c3 t)) -> in_cell3 h p c ->
    in_box c (tup (origin (tetra_cell_bounds t h))) (tup (width (tetra_cell_bounds t h))).
Proof. exact cell_bounds_contain. Qed.
Print Assumptions C60_cell_bounds_contain.

Theorem C60_cell_bounds_least : forall (t : tetra R) h (o w : cell), 0 < h ->
  (forall p c, In p [tup (c0 t); tup (c1 t); tup (c2 t); tup (c3 t)] -> in_cell3 h p c -> in_box c o w) ->
  forall c, in_box c (tup (origin (tetra_cell_bounds t h))) (tup (width (tetra_cell_bounds t h))) -> in_box c o w.
Proof. exact cell_bounds_least. Qed.
Print Assumptions C60_cell_bounds_least.

Example C60_example :
  let t := tetra_init tetra_zero (V3 0 0 0) (V3 3 0 0) (V3 0 1 0) (V3 0 0 (-1)) in
  tup (origin (tetra_cell_bounds t 2)) = (0, 0, -1)%Z /\ tup (width (tetra_cell_bounds t 2)) = (2, 1, 2)%Z.
Proof. exact cell_bounds_example. Qed.
