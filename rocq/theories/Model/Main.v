(** Model of /repo/render/main/main.go.  Reading of flags and configuration
    files, logging and profiling are not modelled. *)
From Coq Require Import String DecimalString ZArith List Bool.
From Verif Require Import Base.Res Base.Num Model.Geom Model.Config.
Import ListNotations.
Open Scope Z_scope.
Open Scope res_scope.

(** main.go:219-239.  The list holds the entries of the map in the order of the
    iteration; [None] is an error. *)
Definition get_mode_name (vars : list (string * string)) : option string :=
  let set_names := map fst (filter (fun v => negb (String.eqb (snd v) "")) vars) in
  match set_names with
  | [] => None
  | [name] => Some name
  | _ => None
  end.

(** main.go:63-68 *)
Definition mode_vars (render convert example hist : string) : list (string * string) :=
  [("Render", render); ("ConvertSnapshot", convert); ("ExampleConfig", example); ("TetraHist", hist)]%string.

(** main.go:520-523.  The loop halves the number at most as often as it has binary
    digits. *)
Fixpoint halve (fuel : nat) (cells : Z) : res Z :=
  match fuel with
  | O => NoFuel
  | S f => if cells >? 1 then halve f (Z.quot cells 2) else Ok cells
  end.
Definition valid_cell_num (cells : Z) : res bool :=
  c <- halve (S (Z.to_nat (Z.log2 cells))) cells ;; Ok (c =? 1).

(** "%d" for an integer, main.go:392-394. *)
Definition decimal (n : Z) : string := NilZero.string_of_int (Z.to_int n).
Definition sheet_name (x y z : Z) : string := ("sheet" ++ decimal x ++ decimal y ++ decimal z ++ ".dat")%string.

Section Boxes.
Context {F : Type} {NF : Num F}.
Local Notation vec := (vec3 F).

(** main.go:418-422; the field ToPt is a work space. *)
Record bounding_box := BB { bb_center : vec; bb_max : vec; bb_min : vec }.

(** main.go:426-429 *)
Definition bb_init (pt : vec) : bounding_box := BB pt (V3 #0 #0 #0)%num (V3 #0 #0 #0)%num.

(** main.go:451-459 *)
Definition min_max (min max x : F) : F * F :=
  if (x >? max)%num then (min, x) else if (x <? min)%num then (x, max) else (min, max).

(** main.go:432-448; [w] is float32(box.Width). *)
Definition bb_add (w : F) (box : bounding_box) (pt : vec) : bounding_box :=
  let to_pt := vec_sub pt (bb_center box) w in
  let mm := V3 (min_max (v0 (bb_min box)) (v0 (bb_max box)) (v0 to_pt))
               (min_max (v1 (bb_min box)) (v1 (bb_max box)) (v1 to_pt))
               (min_max (v2 (bb_min box)) (v2 (bb_max box)) (v2 to_pt)) in
  let min := vmap fst mm in let max := vmap snd mm in
  let shift := vec_scale (vec_add max min) (#1 / #2)%num in
  BB (vec_add (bb_center box) shift) (vec_sub max shift w) (vec_sub min shift w).

(** main.go:499-503 *)
Definition v_bounds1 (m : F * F) (v : F) : F * F :=
  if (v <? fst m)%num then (v, snd m) else if (v >? snd m)%num then (fst m, v) else m.
Definition v_bounds (m : vec * vec) (v : vec) : vec * vec :=
  let r := V3 (v_bounds1 (v0 (fst m), v0 (snd m)) (v0 v)) (v_bounds1 (v1 (fst m), v1 (snd m)) (v1 v))
              (v_bounds1 (v2 (fst m), v2 (snd m)) (v2 v)) in
  (vmap fst r, vmap snd r).

(** What one call of copyToSegment leaves behind: the two segment slices and the
    bounding boxes in the header. *)
Record segment := Seg { sg_x : list vec; sg_v : list vec; sg_origin : vec; sg_width : vec; sg_vorigin : vec; sg_vwidth : vec }.

Record seg_state := SS { ss_idx : Z; ss_x : list vec; ss_v : list vec; ss_box : bounding_box; ss_vm : vec * vec }.

(** main.go:464-517.  Go's / and % truncate; [w] is float32(shd.TotalWidth). *)
Definition copy_to_segment (countWidth segmentWidth gridWidth cells idx : Z) (w : F)
    (xs vs xsSeg vsSeg : list vec) : res segment :=
  a <- rem idx cells ;;
  b <- quot idx cells ;; b <- rem b cells ;;
  c <- quot idx (cells * cells) ;;
  let xStart := segmentWidth * a in
  let yStart := segmentWidth * b in
  let zStart := segmentWidth * c in
  let n := countWidth in let n2 := countWidth * countWidth in
  p0 <- get xs (xStart + n * yStart + n2 * zStart) ;;
  v <- get vs 0 ;;
  let wrap i := if i =? countWidth then 0 else i in
  s <- for_ zStart (zStart + gridWidth) (fun z s =>
    for_ yStart (yStart + gridWidth) (fun y s =>
      for_ xStart (xStart + gridWidth) (fun x s =>
        let large := wrap x + wrap y * n + wrap z * n2 in
        px <- get xs large ;; xsg <- set (ss_x s) (ss_idx s) px ;;
        pv <- get vs large ;; vsg <- set (ss_v s) (ss_idx s) pv ;;
        px <- get xsg (ss_idx s) ;;
        Ok (SS (ss_idx s + 1) xsg vsg (bb_add w (ss_box s) px) (v_bounds (ss_vm s) pv))) s) s)
    (SS 0 xsSeg vsSeg (bb_init p0) (v, v)) ;;
  let box := ss_box s in
  let '(vMin, vMax) := ss_vm s in
  Ok (Seg (ss_x s) (ss_v s) (vec_mod (vec_add (bb_center box) (bb_min box)) w) (vec_scale (bb_max box) (#2)%num)
          vMin (vmap2 nsub vMax vMin)).

(** main.go:363-412: the files in the order in which they are written.  The
    header apart from the bounding boxes is not modelled; [zero] is a zero
    vector. *)
Definition write_grids (zero : vec) (countWidth cells : Z) (w : F) (xs vs : list vec) : res (list (string * segment)) :=
  segmentWidth <- quot countWidth cells ;;
  let gridWidth := segmentWidth + 1 in
  if gridWidth * gridWidth * gridWidth <? 0 then Panic else
  let buf := repeat zero (Z.to_nat (gridWidth * gridWidth * gridWidth)) in
  '(_, _, _, out) <- for_ 0 cells (fun z s => for_ 0 cells (fun y s => for_ 0 cells (fun x s =>
    let '(idx, xsSeg, vsSeg, out) := s in
    sg <- copy_to_segment countWidth segmentWidth gridWidth cells idx w xs vs xsSeg vsSeg ;;
    Ok (idx + 1, sg_x sg, sg_v sg, out ++ [(sheet_name x y z, sg)])) s) s) (0, buf, buf, []) ;;
  Ok out.
End Boxes.
Arguments bounding_box F : clear implicits.
Arguments segment F : clear implicits.
Arguments seg_state F : clear implicits.

Section Pixels.
Context {D : Type} {ND : Num D}.

(** main.go:681-688 *)
Definition round (x : D) : Z :=
  let floor := nfloor x in let ceil := - nfloor (- x)%num in
  if (#ceil - x <? x - #floor)%num then ceil else floor.

(** main.go:356-360; [pow] is math.Pow. *)
Definition int_cube_root (pow : D -> D -> D) (x : Z) : res Z :=
  let cr := round (pow (#x)%num (#1 / #3)%num) in
  if negb (cr * cr * cr =? x) then Panic else Ok cr.

(** main.go:709-722 *)
Definition max_width (box : box_config D) : D :=
  let max := if (v0 (bx_w box) >? v1 (bx_w box))%num then v0 (bx_w box) else v1 (bx_w box) in
  if (max >? v2 (bx_w box))%num then max else v2 (bx_w box).

(** The integer fields of RenderConfig, config.go:287-299. *)
Record render_config := RC { rc_totalPixels : Z; rc_particles : Z; rc_auto : bool; rc_imagePixels : Z; rc_depth : Z; rc_subsample : Z }.

(** main.go:691-706 *)
Definition total_pixels (con : render_config) (box : box_config D) (boxWidth : D) : res Z :=
  if rc_imagePixels con >? 0 then
    let w := max_width box in
    if (w >? boxWidth)%num then Fatal
    else Ok (round (boxWidth / w * #(rc_imagePixels con))%num)
  else Ok (rc_totalPixels con).

(** int(math.Ceil(x)) *)
Definition ceil_int (x : D) : Z := - nfloor (- x)%num.
Definition cube (x : D) : D := (x * x * x)%num.

(** main.go:724-759: the number and the new value of con.ProjectionDepth.
    math.Pow(x, 3) is a product. *)
Definition particles (con : render_config) (box : box_config D) (boxWidth : D) : res (Z * Z) :=
  depth <- (if rc_auto con then
    cells <- total_pixels con box boxWidth ;;
    let cellWidth := (boxWidth / #cells)%num in
    Ok (if String.eqb (bx_axis box) "X" then ceil_int (v0 (bx_w box) / cellWidth)%num
        else if String.eqb (bx_axis box) "Y" then ceil_int (v1 (bx_w box) / cellWidth)%num
        else if String.eqb (bx_axis box) "Z" then ceil_int (v2 (bx_w box) / cellWidth)%num
        else 1)
    else Ok (rc_depth con)) ;;
  if depth >? 0 then
    pixels <- total_pixels con box boxWidth ;;
    Ok (ceil_int (#5 * cube (#pixels / #500) * cube (#(rc_subsample con) / #1) * (#1 / #depth))%num, depth)
  else Ok (rc_particles con, depth).

(** main.go:586-589: the numbers of particles and pixels recorded in the output
    file of a box. *)
Definition recorded (con : render_config) : Z * Z := (rc_particles con, rc_totalPixels con).

(** main.go:112-134 and config.go:317-332: the checks on the numbers of a
    [Render] configuration. *)
Definition accepted_render (con : render_config) : bool :=
  (rc_subsample con >? 0) && ((rc_imagePixels con >? 0) || (rc_totalPixels con >? 0)) &&
  ((rc_particles con >? 0) || (rc_depth con >? 0) || rc_auto con).

(** main.go:547-549: cells and particles of one box.  The depth that particles
    leaves in the configuration is computed anew for every box. *)
Definition box_numbers (con : render_config) (box : box_config D) (boxWidth : D) : res (Z * Z) :=
  cells <- total_pixels con box boxWidth ;; '(pts, _) <- particles con box boxWidth ;; Ok (cells, pts).
End Pixels.

(** io/io.go:122-129, 241-246 and main.go:334-339: one coordinate of a particle
    between the snapshot file and the sheet file.  main.go:284-287, 380: the
    width of the box in the header of the sheet file. *)
Section Convert.
Context {D F : Type} {ND : Num D} {NF : Num F} (cvt : D -> F) (up : F -> D).
Definition wrap_distance (boxSize x : D) : D :=
  (if x <? #0 then x + boxSize else if x >=? boxSize then x - boxSize else x)%num.
Definition stored_position (boxSize xUnits : D) (x : F) : F := (cvt (wrap_distance boxSize (up x)) * cvt xUnits)%num.
Definition stored_width (boxSize xUnits : D) : D := boxSize.
End Convert.

