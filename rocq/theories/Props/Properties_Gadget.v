(** Properties C174-C180: from Gadget-2 snapshots to sheets and images. *)
From Coq Require Import ZArith Reals String List Bool.
From Verif Require Import Base.Res Base.ResFacts Base.Num Base.Bytes Model.Geom Model.GridDeriv Model.Density Model.Main Model.Manager Model.Pipeline Model.Gadget.
From Verif Require Import Spec.Files Spec.GeomDefs Spec.Work Spec.Renders Spec.Segments Spec.ManagerEx Spec.Pipelines Spec.Gadgets Spec.GadgetImages Spec.GadgetRuns Spec.GadgetEx.
From Verif Require Import Proof.GadgetP Proof.GadgetQ Proof.GadgetR Proof.GadgetM Proof.GadgetX.
Import ListNotations.
Open Scope Z_scope.

(** C174: what holds: a little endian file of dark matter particles only is read
    completely. *)
Theorem C174_read_partial : forall {D F} {ND : Num D} {NF : Num F} up down sys f32_of f64_of narrow fsqrt s,
  snapshot_ok s -> readable sys s ->
  read_gadget (D := D) (F := F) up down sys f32_of f64_of narrow fsqrt Little (snapshot_bytes Little s) (id_bits s) =
  Ok (header_of_snapshot s, map (true_position up down f32_of f64_of narrow s) (sn_x s),
      map (true_velocity down f32_of f64_of narrow fsqrt s) (sn_v s), sn_id s).
Proof. exact @gadget_read. Qed.
Print Assumptions C174_read_partial.
Example C174_example : snapshot_ok single /\ readable Big single /\ id_bits single = 32 /\ sn_x single = [V3 9 2 3].
Proof. exact (conj (proj1 single_ok) (conj (demo_readable Big 1 [V3 9 2 3] [1]) (conj eq_refl eq_refl))). Qed.

(** False of the code: with as many gas particles as dark matter particles pairs of
    floats are taken for doubles. *)
Theorem C174_gas_refuted : forall {D F} {ND : Num D} {NF : Num F} up down f32_of f64_of narrow fsqrt s, half_gas s ->
  read_gadget (D := D) (F := F) up down Little f32_of f64_of narrow fsqrt Little (snapshot_bytes Little s) (id_bits s) =
  Ok (header_of_snapshot s, map (true_position up down f32_of f64_of narrow (misread s)) (sn_x (misread s)),
      map (true_velocity down f32_of f64_of narrow fsqrt (misread s)) (sn_v (misread s)), firstn (Z.to_nat (dark s)) (sn_id s)).
Proof. exact @gas_read. Qed.
Print Assumptions C174_gas_refuted.
Example C174_gas_example : half_gas mixed /\ sn_x mixed = [V3 1 2 3; V3 4 5 6] /\
  sn_x (misread mixed) = [V3 (1 + 2 ^ 32 * 2) (3 + 2 ^ 32 * 4) (5 + 2 ^ 32 * 6)].
Proof. exact (conj mixed_gas (conj eq_refl mixed_words)). Qed.

(** Any other number of further particles is noticed. *)
Theorem C174_mixed : forall {D F} {ND : Num D} {NF : Num F} up down f32_of f64_of narrow fsqrt sys s idSize,
  header_typed s -> sn_xwide s = false -> 24 * dark s < 2 ^ 31 -> 12 * zlen (sn_x s) < 2 ^ 31 ->
  zlen (sn_x s) <> dark s -> zlen (sn_x s) <> 2 * dark s ->
  read_gadget (D := D) (F := F) up down sys f32_of f64_of narrow fsqrt Little (snapshot_bytes Little s) idSize = Panic.
Proof. exact @mixed_refused. Qed.
Print Assumptions C174_mixed.
Example C174_mixed_example : header_typed gaseous /\ sn_xwide gaseous = false /\ 24 * dark gaseous < 2 ^ 31 /\ 12 * zlen (sn_x gaseous) < 2 ^ 31 /\
  zlen (sn_x gaseous) <> dark gaseous /\ zlen (sn_x gaseous) <> 2 * dark gaseous.
Proof. exact gaseous_header. Qed.

(** False of the code: the header is taken for little endian whatever order is
    asked for. *)
Theorem C174_big_refuted : exists s h, snapshot_ok s /\ readable Little s /\ dark s = 1 /\
  read_gadget_header Big (snapshot_bytes Big s) = Ok h /\ ct_count h = 2 ^ 24.
Proof. exact big_endian. Qed.
Print Assumptions C174_big_refuted.

(** C175: what holds: a file that ends before its ids is refused when it is read
    alone. *)
Theorem C175_cut_partial : forall {D F} {ND : Num D} {NF : Num F} up down sys f32_of f64_of narrow fsqrt s k idSize,
  snapshot_ok s -> (k < List.length (before_ids Little s))%nat ->
  read_gadget (D := D) (F := F) up down sys f32_of f64_of narrow fsqrt Little (firstn k (snapshot_bytes Little s)) idSize = Panic.
Proof. exact @gadget_cut. Qed.
Print Assumptions C175_cut_partial.
Example C175_example : snapshot_ok single /\ List.length (before_ids Little single) = 308%nat.
Proof. exact (conj (proj1 single_ok) eq_refl). Qed.

(** False of the code: among the ids a file may end anywhere, and the ids that are
    not there are zero. *)
Theorem C175_ids_refuted : forall {D F} {ND : Num D} {NF : Num F} up down sys f32_of f64_of narrow fsqrt s j,
  snapshot_ok s -> readable sys s -> (j < List.length (sn_id s))%nat ->
  read_gadget (D := D) (F := F) up down sys f32_of f64_of narrow fsqrt Little
    (before_ids Little s ++ numbers Little (sn_idwide s) (firstn j (sn_id s))) (id_bits s) =
  Ok (header_of_snapshot s, map (true_position up down f32_of f64_of narrow s) (sn_x s),
      map (true_velocity down f32_of f64_of narrow fsqrt s) (sn_v s), firstn j (sn_id s) ++ repeat 0 (List.length (sn_id s) - j)).
Proof. exact @gadget_short. Qed.
Print Assumptions C175_ids_refuted.
Example C175_ids_example : set_ok 32 halves /\ Forall (readable Big) halves /\ Forall (fun s => (3 < List.length (sn_id s))%nat) halves.
Proof. exact (conj halves_ok (conj (halves_readable Big) (Forall_cons first_half (le_n 4) (Forall_cons second_half (le_n 4) (Forall_nil _))))). Qed.

(** False of the code: a header that is cut is a header of zeros. *)
Theorem C175_header_refuted : forall o file, (4 <= List.length file < 260)%nat -> read_gadget_header o file = Ok (CHd 0 0 0 0 0 0 0 0).
Proof. exact header_cut. Qed.
Print Assumptions C175_header_refuted.
Example C175_header_example : (4 <= List.length (firstn 100 (snapshot_bytes Little single)) < 260)%nat.
Proof. exact single_cut. Qed.

(** C176 *)
Theorem C176_grids : forall {D F} {ND : Num D} {NF : Num F} up down sys f32_of f64_of narrow fsqrt pow con s ss m,
  set_ok (cv_idSize con) (s :: ss) -> Forall (readable sys) (s :: ss) -> int_cube_root pow (all_dark s) = Ok m ->
  complete (all_dark s) (ids_of (s :: ss)) ->
  exists xs vs, create_grids (D := D) (F := F) up down sys f32_of f64_of narrow fsqrt pow con (map (snapshot_bytes Little) (s :: ss)) =
      Ok (header_of_snapshot s, m, xs, vs) /\ zlen xs = all_dark s /\ zlen vs = all_dark s /\
    forall t p d, In t (s :: ss) -> In p (particles_of up down f32_of f64_of narrow fsqrt con t) ->
      zn d xs (p_id p - 1) = p_x p /\ zn d vs (p_id p - 1) = p_v p.
Proof. exact @grids_complete. Qed.
Print Assumptions C176_grids.
Example C176_example : set_ok (cv_idSize (plain 2)) halves /\ Forall (readable Little) halves /\ int_cube_root (ND := RNum) (root 2) (total_of halves) = Ok 2 /\
  complete (total_of halves) (ids_of halves).
Proof. exact (conj halves_ok (conj (halves_readable Little) (conj (root_ok 2 (Pos2Z.is_nonneg 2)) halves_complete))). Qed.

(** C177: what holds: ids outside the grid stop the program. *)
Theorem C177_range_partial : forall {D F} {ND : Num D} {NF : Num F} up down sys f32_of f64_of narrow fsqrt pow con s ss r,
  set_ok (cv_idSize con) (s :: ss) -> Forall (readable sys) (s :: ss) ->
  create_grids (D := D) (F := F) up down sys f32_of f64_of narrow fsqrt pow con (map (snapshot_bytes Little) (s :: ss)) = Ok r ->
  Forall (fun i => 1 <= i <= all_dark s) (ids_of (s :: ss)).
Proof. exact @grids_range. Qed.
Print Assumptions C177_range_partial.

(** False of the code: a particle that is in none of the files is put at the
    corner of the box, at rest. *)
Theorem C177_missing_refuted : forall {D F} {ND : Num D} {NF : Num F} up down sys f32_of f64_of narrow fsqrt pow con s ss m i,
  set_ok (cv_idSize con) (s :: ss) -> Forall (readable sys) (s :: ss) -> int_cube_root pow (all_dark s) = Ok m ->
  Forall (fun i => 1 <= i <= all_dark s) (ids_of (s :: ss)) -> 1 <= i <= all_dark s -> ~ In i (ids_of (s :: ss)) ->
  exists xs vs, create_grids (D := D) (F := F) up down sys f32_of f64_of narrow fsqrt pow con (map (snapshot_bytes Little) (s :: ss)) =
      Ok (header_of_snapshot s, m, xs, vs) /\ forall d, zn d xs (i - 1) = zero_vec /\ zn d vs (i - 1) = zero_vec.
Proof. exact @grids_missing. Qed.
Print Assumptions C177_missing_refuted.
Example C177_example : set_ok 32 first_only /\ Forall (readable Little) first_only /\ Forall (fun i => 1 <= i <= 8) (ids_of first_only) /\ ~ In 2 (ids_of first_only).
Proof. exact first_ok. Qed.

(** False of the code: the particles of a file that ends before its ids are given
    the ids of the file before. *)
Theorem C177_stale_refuted : forall {D F} {ND : Num D} {NF : Num F} up down sys f32_of f64_of narrow fsqrt pow con ss s1 s2 rest,
  set_ok (cv_idSize con) (ss ++ [s1; s2]) -> Forall (readable sys) (ss ++ [s1; s2]) -> dark s1 = dark s2 ->
  create_grids (D := D) (F := F) up down sys f32_of f64_of narrow fsqrt pow con
    (map (snapshot_bytes Little) ss ++ snapshot_bytes Little s1 :: before_ids Little s2 :: rest) =
  create_grids up down sys f32_of f64_of narrow fsqrt pow con
    (map (snapshot_bytes Little) ss ++ snapshot_bytes Little s1 :: snapshot_bytes Little (with_ids (sn_id s1) s2) :: rest).
Proof. exact @grids_stale. Qed.
Print Assumptions C177_stale_refuted.
Example C177_stale_example : set_ok 32 ([] ++ halves) /\ dark first_half = dark second_half /\ sn_id first_half <> sn_id second_half.
Proof. exact (conj halves_ok (conj eq_refl halves_differ)). Qed.

(** C178 *)
Theorem C178_segments : forall {D F} {ND : Num D} {NF : Num F} up down sys f32_of f64_of narrow fsqrt pow con s ss n k cells,
  set_ok (cv_idSize con) (s :: ss) -> Forall (readable sys) (s :: ss) -> 0 < cells -> 0 < k -> n = cells * k -> cv_cells con = cells ->
  all_dark s = n * n * n -> int_cube_root pow (n * n * n) = Ok n -> complete (n * n * n) (ids_of (s :: ss)) ->
  exists out, convert_dir (D := D) (F := F) up down sys f32_of f64_of narrow fsqrt pow con (map (snapshot_bytes Little) (s :: ss)) = Ok out /\
    zlen out = cells * cells * cells /\
    forall x y z, 0 <= x < cells -> 0 <= y < cells -> 0 <= z < cells ->
    exists sg, get out (cube_index cells x y z) = Ok (sheet_name x y z, sg) /\
      zlen (sg_x sg) = (k + 1) * (k + 1) * (k + 1) /\ zlen (sg_v sg) = (k + 1) * (k + 1) * (k + 1) /\
      forall a b c, 0 <= a <= k -> 0 <= b <= k -> 0 <= c <= k ->
      exists t p, In t (s :: ss) /\ In p (particles_of up down f32_of f64_of narrow fsqrt con t) /\
        p_id p = 1 + periodic_index n (k * x + a) (k * y + b) (k * z + c) /\
        forall d, zn d (sg_x sg) (cube_index (k + 1) a b c) = p_x p /\ zn d (sg_v sg) (cube_index (k + 1) a b c) = p_v p.
Proof. exact @grids_segments. Qed.
Print Assumptions C178_segments.
Example C178_example : set_ok (cv_idSize (plain 2)) halves /\ Forall (readable Little) halves /\ cv_cells (plain 2) = 2 /\ all_dark first_half = 2 * 2 * 2 /\
  int_cube_root (ND := RNum) (root 2) (2 * 2 * 2) = Ok 2 /\ complete (2 * 2 * 2) (ids_of halves).
Proof. exact (conj halves_ok (conj (halves_readable Little) (conj eq_refl (conj eq_refl (conj (root_ok 2 (Pos2Z.is_nonneg 2)) halves_complete))))). Qed.

(** C179: what holds: with up to ten segments along each axis the images show all
    of the mass of the snapshot. *)
Theorem C179_images_partial : forall L sys f32_of f64_of nar pow con s ss n k cells skip q workers rnd choose order files boxes,
  gadget_input L sys f32_of f64_of nar pow con s ss n k cells -> render_input L cells skip k q workers rnd choose order files boxes -> cells <= 10 ->
  exists out img, convert_dir (ND := RNum) (NF := RNum) (fun x => x) (fun x => x) sys f32_of f64_of nar sqrt pow con (map (snapshot_bytes Little) (s :: ss)) = Ok out /\
    render_job (ND := RNum) (NF := RNum) (fun x => x) (fun x => x) (on_disk n cells L out) workers rnd choose order files boxes q skip = Ok img /\
    Forall2 (fun b b' => image_mean b' = (image_mean b + 1)%R) boxes img.
Proof. exact images_mean. Qed.
Print Assumptions C179_images_partial.

(** False of the code: with eleven or more segments mass is missing. *)
Theorem C179_lost_refuted : forall L sys f32_of f64_of nar pow con s ss n k cells skip q workers rnd choose order files boxes,
  gadget_input L sys f32_of f64_of nar pow con s ss n k cells -> render_input L cells skip k q workers rnd choose order files boxes -> 11 <= cells ->
  exists out img, convert_dir (ND := RNum) (NF := RNum) (fun x => x) (fun x => x) sys f32_of f64_of nar sqrt pow con (map (snapshot_bytes Little) (s :: ss)) = Ok out /\
    render_job (ND := RNum) (NF := RNum) (fun x => x) (fun x => x) (on_disk n cells L out) workers rnd choose order files boxes q skip = Ok img /\
    Forall2 (fun b b' => (image_mean b' < image_mean b + 1)%R) boxes img.
Proof. exact images_lost. Qed.
Print Assumptions C179_lost_refuted.
Example C179_example : gadget_input 8 Big IZR IZR same (root 2) (plain 2) first_half [second_half] 2 1 2 /\
  (forall n, 0 < n < 1000 -> gadget_input 8 Big IZR IZR same (root n) (plain n) (crowd (Z.to_nat (n * n * n))) [] n 1 n) /\
  forall cells, exists files, render_input 8 cells 1 1 Density 2 (fun _ _ => quarter) (fun _ _ _ _ => 3) (fun _ _ => [1; 0]) files [real_box].
Proof. exact (conj halves_images (conj crowd_images demo_render)). Qed.

(** C180: what holds: every directory of the iteration is converted, in order, if
    the settings are accepted. *)
Theorem C180_directories_partial : forall {D F} {ND : Num D} {NF : Num F} up down sys f32_of f64_of narrow fsqrt pow sprintf listing con out,
  convert_snapshot (D := D) (F := F) up down sys f32_of f64_of narrow fsqrt pow sprintf listing con = Ok out <->
  accepted con /\ Forall2 (converted (convert_dir up down sys f32_of f64_of narrow fsqrt pow con) listing) (directories sprintf con) out.
Proof. exact @snapshot_spec. Qed.
Print Assumptions C180_directories_partial.
Example C180_example : accepted (plain 2) /\ accepted (iterated 2 3) /\ accepted (iterated 2 (-1)) /\
  directories (fun s i => s) (plain 2) = [("in", "out")]%string /\ directories (fun s i => s) (iterated 2 1) = [("in%d", "out%d"); ("in%d", "out%d")]%string.
Proof. exact (conj (proj1 plain_accepted) (conj (proj1 (proj2 plain_accepted)) (conj (proj2 (proj2 plain_accepted)) (conj eq_refl eq_refl)))). Qed.

(** False of the code: iterated names without IterationEnd are accepted, and
    nothing is read or written. *)
Theorem C180_nothing_refuted : forall {D F} {ND : Num D} {NF : Num F} up down sys f32_of f64_of narrow fsqrt pow sprintf listing con,
  accepted con -> cv_itInput con <> ""%string -> cv_start con = cv_start default_convert -> cv_end con = cv_end default_convert ->
  convert_snapshot (D := D) (F := F) up down sys f32_of f64_of narrow fsqrt pow sprintf listing con = Ok [].
Proof. exact @snapshot_nothing. Qed.
Print Assumptions C180_nothing_refuted.
