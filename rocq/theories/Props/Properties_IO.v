(** Files (render/io, python/gotetra.py) and configuration values. *)
From Coq Require Import String ZArith List Bool Reals Lra Lia.
From Verif Require Import Base.Res Base.Bytes Base.Num Model.Geom Model.SheetIO Model.GridIO Model.Config Model.Render.
From Verif Require Import Spec.Files Spec.Regions Spec.Workspace.
From Verif Require Import Proof.BytesP Proof.SheetP Proof.ParticleP Proof.GridIOP Proof.ConfigP Proof.RenderP Proof.IOCases.
Import ListNotations.
Open Scope Z_scope.

(** C73: what a machine of order [sysW] writes, a machine of order [sysR] reads
    back as the same words, and the same header except for Count. *)
Theorem C73_round_trip : forall sysW sysR h xs vs n, sheet_data h n xs vs ->
  exists file xs' vs', write_sheet sysW h xs vs = Ok (file, xs', vs') /\
    read_sheet_header file = Ok (Good (set_count h (wrap64 (sh_countWidth h * sh_countWidth h * sh_countWidth h)), Little)) /\
    forall buf, length buf = (12 * n)%nat ->
      (exists mx, read_sheet_positions sysR file buf = Ok (Good mx) /\ length mx = length xs /\
         words sysR 4 (3 * n) mx = words sysW 4 (3 * n) xs) /\
      (exists mv, read_sheet_velocities sysR file buf = Ok (Good mv) /\ length mv = length vs /\
         words sysR 4 (3 * n) mv = words sysW 4 (3 * n) vs).
Proof. exact round_trip_thm. Qed.
Print Assumptions C73_round_trip.

Example C73_example : sheet_data header1 1 ones ones.
Proof. exact header1_data. Qed.

(** C74: refuted.  A file that ends inside the positions, or inside the
    velocities, is read without an error. *)
Theorem C74_truncated_refuted : forall sys h xs vs n file xs' vs' buf, sheet_data h n xs vs -> (0 < n)%nat ->
  write_sheet sys h xs vs = Ok (file, xs', vs') -> length buf = (12 * n)%nat ->
  (exists k m, (k < 160 + 12 * n)%nat /\ read_sheet_positions sys (firstn k file) buf = Ok (Good m)) /\
  (exists k m, (k < length file)%nat /\ read_sheet_velocities sys (firstn k file) buf = Ok (Good m)).
Proof. exact truncated_refuted_thm. Qed.
Print Assumptions C74_truncated_refuted.

(** C74, the part that holds: cuts at or before the first byte of the velocities
    are reported (or panic) when velocities are read; for positions only the cut
    exactly after the header is. *)
Theorem C74_truncated_partial : forall sys h xs vs n file xs' vs' k buf, sheet_data h n xs vs -> (0 < n)%nat ->
  write_sheet sys h xs vs = Ok (file, xs', vs') -> length buf = (12 * n)%nat ->
  ((k <= 160 + 12 * n)%nat -> forall m, read_sheet_velocities sys (firstn k file) buf <> Ok (Good m)) /\
  (k = 160%nat -> read_sheet_positions sys (firstn k file) buf = Ok Err).
Proof. exact truncated_partial_thm. Qed.
Print Assumptions C74_truncated_partial.

Example C74_example : exists file xs' vs', write_sheet Little header1 ones ones = Ok (file, xs', vs') /\ length file = 184%nat.
Proof. do 3 eexists. split; [vm_compute; reflexivity|reflexivity]. Qed.

(** C75: refuted.  The error of an unreadable header is dropped when positions
    are read; the buffer comes back unchanged. *)
Theorem C75_bad_header_refuted : (exists file, read_sheet_header file = Ok Err) /\
  forall sys file buf, read_sheet_header file = Ok Err -> read_sheet_positions sys file buf = Ok (Good buf).
Proof. exact (conj (ex_intro _ _ header_error_exists) header_error_lost). Qed.
Print Assumptions C75_bad_header_refuted.

(** C75, the part that holds: velocities. *)
Theorem C75_bad_header_partial : forall sys file buf, read_sheet_header file = Ok Err -> read_sheet_velocities sys file buf = Ok Err.
Proof. exact header_error_kept. Qed.
Print Assumptions C75_bad_header_partial.

Example C75_example : read_sheet_header (put Little 4 0 ++ put Little 4 100 ++ repeat 0 200) = Ok Err.
Proof. exact header_error_exists. Qed.

(** C76: the words in memory, in the order of the machine, are the words of the
    file in the declared order. *)
Theorem C76_byte_order : forall sys o a b c n,
  (forall mem, length b = (4 * n)%nat -> length mem = length b ->
    exists m, read_vec_as_byte sys o (a ++ b ++ c) (length a) mem = Ok (Good m) /\
      length m = length b /\ words sys 4 n m = words o 4 n b) /\
  (forall mem, length b = (8 * n)%nat -> length mem = length b ->
    exists m, read_int64_as_byte sys o (a ++ b ++ c) (length a) mem = Ok (Good m) /\
      length m = length b /\ words sys 8 n m = words o 8 n b) /\
  (length b = (4 * n)%nat ->
    read_int32_as_byte sys o (a ++ b ++ c) (length a) n = Ok (Good (map (signed 32) (words o 4 n b)))).
Proof.
  exact (fun sys o a b c n => conj (fun mem => read_vec_ok sys o a b c mem n)
    (conj (fun mem => read_int64_ok sys o a b c mem n) (read_int32_ok sys o a b c n))).
Qed.
Print Assumptions C76_byte_order.

Example C76_example : read_int32_as_byte Little Big ([9] ++ [255; 255; 255; 254; 0; 0; 1; 0] ++ [7]) 1 2 = Ok (Good [-2; 256]).
Proof. reflexivity. Qed.

(** C77: refuted.  The byte swap of the double reader undoes itself, so the
    declared order is ignored. *)
Theorem C77_doubles_refuted :
  (forall sys cvt o a b c n, length b = (24 * n)%nat ->
    read_vec64_as_byte sys cvt o (a ++ b ++ c) (length a) n = Ok (Good (map cvt (words sys 8 (3 * n) b)))) /\
  (let one := 4607182418800017408 in let file := (put Big 8 one ++ put Big 8 one ++ put Big 8 one)%list in
   words Big 8 3 file = [one; one; one] /\
   read_vec64_as_byte Little (fun x => x) Big file 0 1 = Ok (Good [61503; 61503; 61503])).
Proof. exact (conj read_vec64_any read_vec64_bad). Qed.
Print Assumptions C77_doubles_refuted.

(** C77, the part that holds: files in the order of the machine. *)
Theorem C77_doubles_partial : forall sys cvt a b c n, length b = (24 * n)%nat ->
  read_vec64_as_byte sys cvt sys (a ++ b ++ c) (length a) n = Ok (Good (map cvt (words sys 8 (3 * n) b))).
Proof. exact (fun sys cvt => read_vec64_any sys cvt sys). Qed.
Print Assumptions C77_doubles_partial.

Example C77_example : length (put Little 8 1 ++ put Little 8 2 ++ put Little 8 3)%list = (24 * 1)%nat /\
  words Little 8 3 (put Little 8 1 ++ put Little 8 2 ++ put Little 8 3) = [1; 2; 3].
Proof. split; reflexivity. Qed.

(** C78. *)
Theorem C78_particle_buffer : forall {V} (z : V) bufSize xs vs (batches : list (list (particle V))),
  0 < bufSize -> length vs = length xs ->
  Forall (Forall (fun p => 1 <= p_id p <= zlen xs)) batches ->
  exists b, send z xs vs bufSize batches = Ok b /\
    delivered xs p_x (concat batches) (pb_xs b) /\ delivered vs p_v (concat batches) (pb_vs b).
Proof. exact (fun V z => @all_delivered V z). Qed.
Print Assumptions C78_particle_buffer.

Example C78_example :
  let batches := [[(10, 20, 1); (11, 21, 3)]; [(12, 22, 1)]] in
  Forall (Forall (fun p => 1 <= p_id p <= 3)) batches /\
  exists b, send 0 [0; 0; 0] [0; 0; 0] 2 batches = Ok b /\ pb_xs b = [12; 0; 11] /\ pb_vs b = [22; 0; 21].
Proof. cbv zeta. split; [repeat constructor; cbn; lia|]. eexists. split; [vm_compute; reflexivity|]. split; reflexivity. Qed.

(** C79: refuted.  The high word is shifted out of a 32 bit integer. *)
Theorem C79_count_refuted : bits 32 1 /\ bits 32 0 /\ standard_count 1 0 = 0 /\ 0 <> 1 * 2 ^ 32 + 0.
Proof. exact count_bad. Qed.
Print Assumptions C79_count_refuted.

(** C79, the part that holds: no high word. *)
Theorem C79_count_partial : forall n1, bits 32 n1 -> standard_count 0 n1 = 0 * 2 ^ 32 + n1.
Proof. exact (count_low 0). Qed.
Print Assumptions C79_count_partial.

Example C79_example : bits 32 1073741824.
Proof. unfold bits. lia. Qed.

(** C80. *)
Theorem C80_grid_round_trip : forall q xs c r l, typed_out q c r l -> Forall (bits 32) xs -> zlen xs = pixels l -> zlen xs < 2 ^ 63 ->
  exists file flag, write_buffer q (FScalar xs) c r l = Ok file /\ endianness_version_flag Little = Ok flag /\
    read_grid_header file = Good (header_of flag q c r l) /\ read_grid file = Ok (Good xs).
Proof. exact grid_round_trip. Qed.
Print Assumptions C80_grid_round_trip.

Example C80_example :
  let l := LI (V3 0 0 0) (V3 0 0 0) (V3 (-1) 0 0) (V3 2 1 1) 4607182418800017408 in
  typed_out 0 (CI 1 2 3 4 5 6 7 8) (RI 50 100 1 0 (-1)) l /\ Forall (bits 32) [1065353216; 4290772992] /\
  zlen [1065353216; 4290772992] = pixels l.
Proof. cbv zeta. split; [|split; [repeat constructor; unfold bits; lia|reflexivity]].
  unfold typed_out, cosmo_typed, render_typed, loc_typed, all3, int64, bits. cbn. repeat split; repeat constructor; lia. Qed.

(** C81: refuted.  The header of a vector grid says it is not one, two thirds of
    the data cannot be read; a grid with fewer values than pixels, as projected
    images have, cannot be read at all. *)
Theorem C81_self_describing_refuted : forall q xs ys zs c r l, typed_out q c r l ->
  (Forall (bits 32) xs -> zlen xs = pixels l -> zlen xs < 2 ^ 63 ->
    exists file hd, write_buffer q (FVector xs ys zs) c r l = Ok file /\
      read_grid_header file = Good hd /\ gh_isVector hd = 0 /\ read_grid file = Ok (Good xs)) /\
  (zlen xs < pixels l -> pixels l < 2 ^ 63 ->
    exists file, write_buffer q (FScalar xs) c r l = Ok file /\ read_grid file = Ok Err).
Proof. exact (fun q xs ys zs c r l H => conj (vector_lost q xs ys zs c r l H) (projected_unreadable q xs c r l H)). Qed.
Print Assumptions C81_self_describing_refuted.

Example C81_example :
  let l := LI (V3 0 0 0) (V3 0 0 0) (V3 0 0 0) (V3 2 2 3) 0 in
  typed_out 2 (CI 0 0 0 0 0 0 0 0) (RI 0 0 0 0 0) l /\ zlen [1; 2; 3; 4] < pixels l.
Proof. cbv zeta. split; [|reflexivity].
  unfold typed_out, cosmo_typed, render_typed, loc_typed, all3, int64, bits. cbn. repeat split; repeat constructor; lia. Qed.

(** C82. *)
Theorem C82_flag :
  (forall x, bits 64 x -> exists y, reverse x = Ok y /\ bits 64 y /\ reverse y = Ok x) /\
  (forall x, exists y, reverse x = Ok y /\ forall j, 0 <= j < 64 -> Z.testbit y j = Z.testbit x (63 - j)) /\
  (forall v, endianness_version_flag Little = Ok v -> read_endianness_version Little (put Little 8 v) = (-1, version)).
Proof. exact (conj reverse_twice (conj reverse_spec flag_read)). Qed.
Print Assumptions C82_flag.

Example C82_example : reverse 6 = Ok (2 ^ 62 + 2 ^ 61) /\ endianness_version_flag Little = Ok 9223372036854775806.
Proof. split; vm_compute; reflexivity. Qed.

(** C83: refuted.  If the radius equals a coordinate of the center, the box
    starts at L, outside of [0, L). *)
Theorem C83_ball_box_refuted : let b := BallC 1%R 2%R 2%R 1%R 1%R in let L := 10%R in
  ball_check_init b L = Some b /\ ~ inside_period L (v0 (bx_o (ball_box b L))).
Proof. exact ball_box_edge'. Qed.
Print Assumptions C83_ball_box_refuted.

(** C83, the part that holds: all other balls, in exact arithmetic. *)
Theorem C83_ball_box_partial : forall L b, (0 < L)%R -> inside_period L (bl_x b) -> inside_period L (bl_y b) -> inside_period L (bl_z b) ->
  let rad := (bl_radius b * bl_multiplier b)%R in
  (0 < rad < L)%R -> bl_x b <> rad -> bl_y b <> rad -> bl_z b <> rad ->
  encloses_ball L b (ball_box b L).
Proof. exact ball_box_ok. Qed.
Print Assumptions C83_ball_box_partial.

Example C83_example : let b := BallC 1%R 5%R 9%R 2%R (/ 4)%R in
  inside_period 10 (bl_x b) /\ (0 < bl_radius b * bl_multiplier b < 10)%R /\ bl_x b <> (bl_radius b * bl_multiplier b)%R.
Proof. cbn. unfold inside_period. lra. Qed.

(** C84: both loops end and accept exactly the powers of two. *)
Theorem C84_power_of_two : forall s,
  (exists b, hist_valid_subsample s = Ok b /\ (b = true <-> power_of_two s)) /\
  (exists b, is_pow_two s = Ok b /\ (b = true <-> power_of_two s)).
Proof. exact (fun s => conj (hist_valid_ok s) (is_pow_two_ok s)). Qed.
Print Assumptions C84_power_of_two.

Example C84_example : hist_valid_subsample 4096 = Ok true /\ hist_valid_subsample 96 = Ok false /\ hist_valid_subsample (-8) = Ok false.
Proof. split; [|split]; reflexivity. Qed.

(** C106: refuted.  On a big endian machine WriteSheet leaves the caller's
    positions and velocities byte swapped. *)
Theorem C106_caller_data_refuted : sheet_data header1 1 ones ones /\
  exists file xs' vs', write_sheet Big header1 ones ones = Ok (file, xs', vs') /\ xs' <> ones /\ vs' <> ones.
Proof. exact (conj header1_data write_changes'). Qed.
Print Assumptions C106_caller_data_refuted.

(** C106, the part that holds: little endian machines. *)
Theorem C106_caller_data_partial : forall h xs vs file xs' vs',
  write_sheet Little h xs vs = Ok (file, xs', vs') -> xs' = xs /\ vs' = vs.
Proof. exact write_keeps. Qed.
Print Assumptions C106_caller_data_partial.

Example C106_example : exists file, write_sheet Little header1 ones ones = Ok (file, ones, ones).
Proof. eexists. vm_compute. reflexivity. Qed.

(** C107: refuted.  A Render file may ask for SubsampleLength = 3. *)
Theorem C107_render_subsample_refuted : render_valid_subsample 3 = true /\ ~ power_of_two 3.
Proof. exact (conj eq_refl not_pow_three). Qed.
Print Assumptions C107_render_subsample_refuted.

(** C107, the part that holds: accepted lengths are positive. *)
Theorem C107_render_subsample_partial : forall s,
  (render_valid_subsample s = true -> 0 < s) /\ (power_of_two s -> render_valid_subsample s = true).
Proof. exact render_subsample_thm. Qed.
Print Assumptions C107_render_subsample_partial.

Example C107_example : power_of_two 8.
Proof. exists 3. split; [lia|reflexivity]. Qed.

(** C108: refuted.  No name at all is checked without a panic. *)
Theorem C108_valid_quantity_refuted : forall name, render_valid_quantity name = Panic.
Proof. exact valid_quantity_panics. Qed.
Print Assumptions C108_valid_quantity_refuted.

(** C109: refuted.  Two balls that CheckInit accepts give boxes that CheckInit
    of boxes would reject: one at the edge, one with a negative radius. *)
Theorem C109_ball_checks_refuted :
  (let b := BallC 1%R 2%R 2%R 1%R 1%R in ball_check_init b 10%R = Some b /\ box_check_init (ball_box b 10%R) 10%R = None) /\
  (let b := BallC 1%R 2%R 2%R (-1)%R 1%R in ball_check_init b 10%R = Some b /\ (v0 (bx_w (ball_box b 10%R)) < 0)%R).
Proof. exact ball_checks_bad. Qed.
Print Assumptions C109_ball_checks_refuted.

(** C109, the part that holds. *)
Theorem C109_ball_checks_partial : forall (L : R) b b', ball_check_init b L = Some b' ->
  let rad := (bl_radius b' * bl_multiplier b')%R in
  (0 < bl_radius b)%R -> (rad < L)%R -> bl_x b <> rad -> bl_y b <> rad -> bl_z b <> rad ->
  encloses_ball L b' (ball_box b' L) /\ box_check_init (ball_box b' L) L = Some (ball_box b' L).
Proof. exact ball_boxes_pass. Qed.
Print Assumptions C109_ball_checks_partial.

Example C109_example : let b := BallC 1%R 5%R 9%R 2%R 0%R in ball_check_init b 10%R = Some (BallC 1%R 5%R 9%R 2%R 1%R).
Proof. exact ball_check_example. Qed.

(** C110. *)
Theorem C110_box_check : forall (L : R) b r, box_check_init b L = Some r <->
  box_in_period L b /\ bx_o r = bx_o b /\ bx_w r = bx_w b /\ exists core, axis_name core (bx_axis r) /\ padded core (bx_axis b).
Proof. exact box_check_ok. Qed.
Print Assumptions C110_box_check.

Example C110_example : axis_name "y" "Y" /\ padded "y" "  y " /\ box_in_period 10 (BoxC (V3 0 1 9)%R (V3 1 20 3)%R "  y ").
Proof. exact box_check_example. Qed.

(** C111: refuted.  The reader in python/gotetra.py on a big endian machine. *)
Theorem C111_python_big_endian_refuted : forall v, endianness_version_flag Little = Ok v ->
  read_endianness_version Big (put Little 8 v) = (-1, 129) /\ 129 <> version.
Proof. exact flag_big_thm. Qed.
Print Assumptions C111_python_big_endian_refuted.

Example C111_example : endianness_version_flag Little = Ok 9223372036854775806.
Proof. vm_compute. reflexivity. Qed.
