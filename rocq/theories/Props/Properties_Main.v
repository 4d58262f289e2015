(** Properties of the main program (C85-C88, C102, C112-C119). *)
From Coq Require Import ZArith List Bool Lia Permutation Reals Lra String.
From Verif Require Import Base.Res Base.ResFacts Base.Num Base.IEEE Base.Convert Model.Geom Model.Config Model.Main Spec.Workspace Spec.Segments
  Proof.SegP Proof.BoundsP Proof.MainP Proof.MainQ.
Import ListNotations.
Open Scope Z_scope.

(** C85. *)
Theorem C85_segments : forall {F} {NF : Num F} (d : vec3 F) n s cells w xs vs,
  0 < cells -> 0 < s -> n = cells * s -> zlen xs = n * n * n -> zlen vs = n * n * n ->
  (exists out, write_grids d n cells w xs vs = Ok out /\ zlen out = cells * cells * cells /\
    forall x y z, 0 <= x < cells -> 0 <= y < cells -> 0 <= z < cells ->
      exists sg, get out (cube_index cells x y z) = Ok (sheet_name x y z, sg) /\
        holds_cube d n s x y z xs (sg_x sg) /\ holds_cube d n s x y z vs (sg_v sg)) /\
  (forall p q r, 0 <= p < n -> 0 <= q < n -> 0 <= r < n ->
    exists! t, let '(x, y, z) := t in 0 <= x < cells /\ 0 <= y < cells /\ 0 <= z < cells /\ cube_in_segment s x y z p q r).
Proof. exact @segments_thm. Qed.
Print Assumptions C85_segments.

Example C85_example : 6 = 2 * 3 /\ zlen (repeat (V3 0 0 0)%R 216) = 6 * 6 * 6.
Proof. split; reflexivity. Qed.

(** C86: refuted as soon as a coordinate has two digits. *)
Theorem C86_names_refuted : forall cells, 11 <= cells ->
  exists x y z x' y' z', (0 <= x < cells /\ 0 <= y < cells /\ 0 <= z < cells) /\ (0 <= x' < cells /\ 0 <= y' < cells /\ 0 <= z' < cells) /\
    (x, y, z) <> (x', y', z') /\ sheet_name x y z = sheet_name x' y' z'.
Proof. exact names_clash. Qed.
Print Assumptions C86_names_refuted.

(** C86, the part that holds: at most ten cells. *)
Theorem C86_names_partial : forall cells x y z x' y' z', cells <= 10 ->
  0 <= x < cells -> 0 <= y < cells -> 0 <= z < cells -> 0 <= x' < cells -> 0 <= y' < cells -> 0 <= z' < cells ->
  sheet_name x y z = sheet_name x' y' z' -> (x, y, z) = (x', y', z').
Proof. exact names_distinct. Qed.
Print Assumptions C86_names_partial.

Example C86_example : sheet_name 1 0 10 = "sheet1010.dat"%string /\ sheet_name 7 0 3 = "sheet703.dat"%string.
Proof. split; reflexivity. Qed.

(** C87. *)
Theorem C87_bounding_box : forall (d : vec3 R) n s cells L xs vs,
  0 < cells -> 0 < s -> n = cells * s -> zlen xs = n * n * n -> zlen vs = n * n * n ->
  exists out, write_grids d n cells L xs vs = Ok out /\
  forall i name sg, get out i = Ok (name, sg) ->
    forall coord, In coord [v0; v1; v2] -> Forall (fun p => 0 <= coord p < L)%R (sg_x sg) -> within_half L (map coord (sg_x sg)) ->
      bounds_axis L (coord (sg_origin sg)) (coord (sg_width sg)) (map coord (sg_x sg)).
Proof. exact positions_thm. Qed.
Print Assumptions C87_bounding_box.

Example C87_example : within_half 100 [95; 99; 3]%R.
Proof.
  exists 95%R, 8%R. split; [lra|]. intros p [<-|[<-|[<-|[]]]]; [exists 0|exists 0|exists 1]; lra.
Qed.

(** C88: refuted. *)
Theorem C88_cells_refuted : valid_cell_num 3 = Ok true /\ ~ power_of_two 3.
Proof. exact valid_cells_bad. Qed.
Print Assumptions C88_cells_refuted.

(** C88, the part that holds: powers of two are accepted, and numbers below one
    are not; every positive number is accepted. *)
Theorem C88_cells_partial : forall c, (power_of_two c -> valid_cell_num c = Ok true) /\
  (valid_cell_num c = Ok true <-> 1 <= c) /\ (c <= 0 -> valid_cell_num c = Ok false).
Proof. exact valid_cells_partial. Qed.
Print Assumptions C88_cells_partial.

Example C88_example : power_of_two 8 /\ valid_cell_num 8 = Ok true.
Proof. split; [exists 3; split; [lia|reflexivity]|reflexivity]. Qed.

(** C102. *)
Theorem C102_mode : forall vars r c e h m, Permutation vars (mode_vars r c e h) -> (get_mode_name vars = Some m <-> only_flag m r c e h).
Proof. exact mode_thm. Qed.
Print Assumptions C102_mode.

Example C102_example : only_flag "Render" "a.cfg" "" "" "" /\ get_mode_name (mode_vars "a.cfg" "" "b" "") = None.
Proof. split; [left; repeat split; discriminate|reflexivity]. Qed.

(** C112: refuted.  If the width leaves a remainder of two or more, the last
    particle of every row can be changed without changing any file. *)
Theorem C112_lost_refuted : forall {F} {NF : Num F} (d : vec3 F) n s cells r w xs vs p q,
  0 < s -> 2 <= r < cells -> n = cells * s + r -> zlen xs = n * n * n -> zlen vs = n * n * n ->
  (exists out, write_grids d n cells w xs vs = Ok out) /\
  write_grids d n cells w (upd xs (Z.to_nat (n - 1)) p) (upd vs (Z.to_nat (n - 1)) q) = write_grids d n cells w xs vs.
Proof. exact @lost_thm. Qed.
Print Assumptions C112_lost_refuted.

Example C112_example : 2 <= 2 < 3 /\ 5 = 3 * 1 + 2 /\ zlen (repeat (V3 0 0 0)%R 125) = 5 * 5 * 5.
Proof. split; [lia|]. split; reflexivity. Qed.

(** C112, the part that holds: no remainder. *)
Theorem C112_lost_partial : forall {F} {NF : Num F} (d : vec3 F) n s cells w xs vs p q r,
  0 < cells -> 0 < s -> n = cells * s -> zlen xs = n * n * n -> zlen vs = n * n * n ->
  0 <= p < n -> 0 <= q < n -> 0 <= r < n ->
  exists out i name sg j, write_grids d n cells w xs vs = Ok out /\ get out i = Ok (name, sg) /\
    get (sg_x sg) j = get xs (cube_index n p q r) /\ get (sg_v sg) j = get vs (cube_index n p q r) /\ 0 <= j < zlen (sg_x sg).
Proof. exact @all_written. Qed.
Print Assumptions C112_lost_partial.

(** C113. *)
Theorem C113_velocity_bounds : forall (d : vec3 R) n s cells L xs vs,
  0 < cells -> 0 < s -> n = cells * s -> zlen xs = n * n * n -> zlen vs = n * n * n ->
  exists out, write_grids d n cells L xs vs = Ok out /\
  forall i name sg, get out i = Ok (name, sg) ->
    forall coord, In coord [v0; v1; v2] -> Forall (fun v => in_axis (coord (sg_vorigin sg)) (coord (sg_vwidth sg)) (coord v)) (sg_v sg).
Proof. exact velocities_thm. Qed.
Print Assumptions C113_velocity_bounds.

Example C113_example : 3 = 3 * 1 /\ zlen fast_first = 3 * 3 * 3.
Proof. split; reflexivity. Qed.

(** C114: refuted.  The bounds start from the first velocity of the whole
    lattice. *)
Theorem C114_velocity_tight_refuted : exists xs vs out name sg,
  write_grids (V3 0 0 0)%R 3 3 100%R xs vs = Ok out /\ get out (cube_index 3 1 1 1) = Ok (name, sg) /\
  Forall (fun v => v = V3 0 0 0)%R (sg_v sg) /\ sg_vwidth sg = (V3 5 5 5)%R.
Proof. exact velocity_loose. Qed.
Print Assumptions C114_velocity_tight_refuted.

(** C114, the part that holds: the first segment. *)
Theorem C114_velocity_tight_partial : forall (d : vec3 R) n s cells L xs vs,
  0 < cells -> 0 < s -> n = cells * s -> zlen xs = n * n * n -> zlen vs = n * n * n ->
  exists out name sg, write_grids d n cells L xs vs = Ok out /\ get out 0 = Ok (name, sg) /\
    forall coord, In coord [v0; v1; v2] -> tight_axis (coord (sg_vorigin sg)) (coord (sg_vwidth sg)) (map coord (sg_v sg)).
Proof. exact first_tight. Qed.
Print Assumptions C114_velocity_tight_partial.

Example C114_example : 3 = 3 * 1 /\ zlen fast_first = 3 * 3 * 3.
Proof. split; reflexivity. Qed.

(** C115. *)
Theorem C115_round : forall x, (Rabs (IZR (round x) - x) <= 1 / 2)%R /\ (forall n : Z, round (IZR n) = n) /\ (forall n : Z, round (IZR n + 1 / 2)%R = n).
Proof. exact round_thm. Qed.
Print Assumptions C115_round.

Theorem C115_image_pixels : forall con b L, box_fits L b -> 0 < rc_imagePixels con ->
  exists cells, total_pixels con b L = Ok cells /\ rc_imagePixels con <= cells /\
    (Rabs (max_width b / (L / IZR cells) - IZR (rc_imagePixels con)) <= 1 / 2)%R.
Proof. exact image_pixels_thm. Qed.
Print Assumptions C115_image_pixels.

Example C115_example : box_fits 100 demo_box /\ 0 < rc_imagePixels (RC 0 0 true 33 0 1).
Proof. split; [exact demo_fits|reflexivity]. Qed.

(** C116: [pow] is math.Pow; only its accuracy at cubes matters. *)
Theorem C116_cube_root : forall pow : R -> R -> R,
  (forall k : Z, (Rabs (pow (IZR (k * k * k)) (1 / 3) - IZR k) < 1 / 2)%R -> int_cube_root pow (k * k * k) = Ok k) /\
  (forall x c, int_cube_root pow x = Ok c -> c * c * c = x) /\
  (forall x, (forall c, c * c * c <> x) -> int_cube_root pow x = Panic).
Proof. exact cube_root_thm. Qed.
Print Assumptions C116_cube_root.

Example C116_example : (Rabs ((fun _ _ => 9.99) (IZR (10 * 10 * 10)) (1 / 3) - IZR 10) < 1 / 2)%R.
Proof. apply Rabs_def1; lra. Qed.

(** C117. *)
Theorem C117_numbers : forall con b L, accepted_render con = true -> box_fits L b ->
  exists cells pts, box_numbers con b L = Ok (cells, pts) /\ 0 < cells /\ 0 < pts /\
    (rc_auto con = true -> exists depth, (match along_axis b with Some w => least_above depth (w / (L / IZR cells)) | None => depth = 1 end) /\
       least_above pts (5 * (IZR cells / 500) ^ 3 * IZR (rc_subsample con) ^ 3 / IZR depth)).
Proof. exact numbers_thm. Qed.
Print Assumptions C117_numbers.

Example C117_example : accepted_render (RC 0 0 true 33 0 1) = true /\ box_fits 100 demo_box.
Proof. split; [reflexivity|exact demo_fits]. Qed.

(** C118: refuted. *)
Theorem C118_recorded_refuted : exists con : render_config, accepted_render con = true /\ box_fits 100 demo_box /\
  exists cells pts, box_numbers con demo_box 100%R = Ok (cells, pts) /\ fst (recorded con) <> pts /\ snd (recorded con) <> cells.
Proof. exact recorded_bad. Qed.
Print Assumptions C118_recorded_refuted.

(** C118, the part that holds: both numbers are given explicitly. *)
Theorem C118_recorded_partial : forall con b L, accepted_render con = true -> box_fits L b ->
  rc_imagePixels con = 0 -> rc_depth con = 0 -> rc_auto con = false ->
  box_numbers con b L = Ok (snd (recorded con), fst (recorded con)).
Proof. exact recorded_ok. Qed.
Print Assumptions C118_recorded_partial.

Example C118_example : accepted_render (RC 500 25 false 0 0 1) = true.
Proof. reflexivity. Qed.

(** C119: refuted.  Positions are scaled, the width in the header is not; and
    rounding to single precision can reach the upper end of the box. *)
Theorem C119_units_refuted :
  (exists L u x : R, (0 < L /\ 0 < u /\ 0 <= x < L)%R /\
     ~ (0 <= stored_position (ND := RNum) (NF := RNum) (fun v => v) (fun v => v) L u x < stored_width L u)%R) /\
  (let L := f64lit 1000 0 in let x := f32lit (-1) (-40) in
   (to_f64 (stored_position to_f32 to_f64 L (f64lit 1 0) x) =? stored_width L (f64lit 1 0))%num = true).
Proof. exact (conj units_bad units_rounded). Qed.
Print Assumptions C119_units_refuted.

(** C119, the part that holds: no change of units, exact arithmetic. *)
Theorem C119_units_partial : forall L x, (0 < L -> - L <= x < 2 * L ->
  let p := stored_position (ND := RNum) (NF := RNum) (fun v => v) (fun v => v) L 1 x in
  0 <= p < stored_width L 1 /\ exists k : Z, p = x + IZR k * L)%R.
Proof. exact units_one. Qed.
Print Assumptions C119_units_partial.

Example C119_example : (0 < 100 /\ - 100 <= -3 < 2 * 100)%R.
Proof. lra. Qed.
