(** Model of renderMain of /repo/render/main/main.go with NewBox of
    /repo/render/box.go and the records of /repo/render/io/output.go: from the
    configuration and the boxes of the bounds files to images and what is
    recorded with them. *)
From Coq Require Import ZArith String List Bool.
From Verif Require Import Base.Res Base.Num Model.Geom Model.GridDeriv Model.Cosmo Model.Config Model.Density Model.Box Model.Render Model.SheetIO Model.Main Model.Manager.
Import ListNotations.
Open Scope Z_scope.
Open Scope res_scope.

Section Boxes.
Context {D : Type} {ND : Num D}.

(** ** Boxes *)

(** box.go:146-154 *)
Definition axis_number (axis : string) : res Z :=
  if String.eqb axis "X" then Ok 0 else if String.eqb axis "Y" then Ok 1 else if String.eqb axis "Z" then Ok 2 else Panic.

(** box.go:139-180 *)
Definition new_box2D (boxWidth : D) (pts cells q : Z) (config : box_config D) : res (rbox D) :=
  proj <- axis_number (bx_axis config) ;;
  let cb := box_cells boxWidth cells (bx_o config) (bx_w config) in
  let '(i, j) := if proj =? 0 then (1, 2) else if proj =? 1 then (0, 2) else (0, 1) in
  b <- new_buffer q (vget (width cb) i * vget (width cb) j) ;;
  Ok (RB cb pts cells (boxWidth / #cells)%num (Some proj) (contents_of b)).

(** box.go:182-212 *)
Definition new_box3D (boxWidth : D) (pts cells q : Z) (config : box_config D) : res (rbox D) :=
  let cb := box_cells boxWidth cells (bx_o config) (bx_w config) in
  b <- new_buffer q (v0 (width cb) * v1 (width cb) * v2 (width cb)) ;;
  Ok (RB cb pts cells (boxWidth / #cells)%num None (contents_of b)).

(** box.go:129-137 *)
Definition new_box (boxWidth : D) (pts cells q : Z) (config : box_config D) : res (rbox D) :=
  project <- (if is_projection config then can_project q else Ok false) ;;
  if project : bool then new_box2D boxWidth pts cells q config else new_box3D boxWidth pts cells q config.

(** main.go:545-557, one box. *)
Definition config_box (con : render_config) (boxWidth : D) (q : Z) (config : box_config D) : res (rbox D) :=
  '(cells, pts) <- box_numbers con config boxWidth ;; new_box boxWidth pts cells q config.

(** ** What is recorded with an image *)

(** output.go:54-58, 126-139 *)
Record location := Loc { lc_origin : vec3 D; lc_span : vec3 D; lc_pixelOrigin : vec3 Z; lc_pixelSpan : vec3 Z; lc_pixelWidth : D }.
Definition new_location (origin span : vec3 Z) (cellWidth : D) : location :=
  let scale v := V3 (#(v0 v) * cellWidth)%num (#(v1 v) * cellWidth)%num (#(v2 v) * cellWidth)%num in
  Loc (scale origin) (scale span) origin span cellWidth.

(** output.go:118-124.  math.Pow(x, 3) is a product; the conversion of an
    infinity to int is left to [nfloor]. *)
Definition projection_depth (particles totalCells skip : Z) : Z :=
  ceil_int ((#20000 / #particles) * cube (#totalCells / #5000) / cube #skip : D)%num.

(** output.go:46-52, 103-116 *)
Record render_record := RR { rr_particles : Z; rr_totalPixels : Z; rr_subsample : Z; rr_depth : Z; rr_axis : Z }.
Definition new_render_record (particles totalCells skip : Z) (axisStr : string) : render_record :=
  let axis := -1 in
  let axis := if String.eqb axisStr "X" then 0 else axis in
  let axis := if String.eqb axisStr "Y" then 1 else axis in
  let axis := if String.eqb axisStr "Z" then 2 else axis in
  RR particles totalCells skip (projection_depth particles totalCells skip) axis.

(** main.go:567-592, one box: the location, the render record and the image. *)
Definition output (con : render_config) (config : box_config D) (box : rbox D) : location * render_record * contents D :=
  (new_location (origin (rb_cb box)) (width (rb_cb box)) (rb_cw box),
   new_render_record (rc_particles con) (rc_totalPixels con) (rc_subsample con) (bx_axis config), rb_vals box).

End Boxes.
Arguments location D : clear implicits.

(** ** renderMain *)
Section RenderMain.
Context {D F : Type} {ND : Num D} {NF : Num F} (up : F -> D) (down : D -> F).

(** The strings of RenderConfig, config.go:284-299. *)
Record render_names := RN { rn_quantity : string; rn_output : string; rn_prepend : string; rn_append : string }.

(** What gcfg reads from a bounds file: the sections with their names, in the
    order in which Go iterates over the two maps. *)
Record bounds_file := BF { bf_balls : list (string * ball_config D); bf_boxes : list (string * box_config D) }.

(** config.go:486-508 with the names, see [read_bounds] for the rest. *)
Definition read_named (b : bounds_file) (totalWidth : D) : option (list (string * box_config D)) :=
  match read_bounds (map snd (bf_balls b)) (map snd (bf_boxes b)) totalWidth with
  | None => None
  | Some l => Some (combine (map fst (bf_balls b) ++ map fst (bf_boxes b)) l)
  end.

(** main.go:531-537; [None] is a file that cannot be read. *)
Fixpoint all_bounds (bounds : list (option bounds_file)) (totalWidth : D) : res (list (string * box_config D)) :=
  match bounds with
  | [] => Ok []
  | None :: _ => Fatal
  | Some b :: rest =>
      match read_named b totalWidth with
      | None => Fatal
      | Some l => more <- all_bounds rest totalWidth ;; Ok (l ++ more)
      end
  end.

(** main.go:571-572.  path.Join is written as a slash; what it does to dots and
    slashes in the names is left out. *)
Definition output_path (names : render_names) (name : string) : string :=
  (rn_output names ++ "/" ++ rn_prepend names ++ name ++ rn_append names ++ ".gtet")%string.

(** main.go:636: the error of reading the first header is dropped and the header
    stays zero. *)
Definition first_total (f : option (sheet_file D F)) : D := match f with Some f => s_total (sf_hd f) | None => (#0)%num end.

(** main.go:526-565 and 606-639 without log and profile: the width of the
    simulation, the quantity, and the boxes after rendering with what was asked of
    them.  [files] is the listing of con.Input. *)
Definition render_boxes (fs : string -> option (sheet_file D F)) (numCores : Z) rnd choose order (files : list string)
    (con : render_config) (names : render_names) (bounds : list (option bounds_file)) :
    res (D * Z * list ((string * box_config D) * rbox D)) :=
  first <- get files 0 ;;
  let total := first_total (fs first) in
  configs <- all_bounds bounds total ;;
  let '(q, ok) := quantity_from_string (rn_quantity names) in
  if negb ok then Fatal else
  boxes <- map_res (fun c => config_box con total q (snd c)) configs ;;
  images <- render_job up down fs numCores rnd choose order files boxes q (rc_subsample con) ;;
  Ok (total, q, combine configs images).

(** main.go:567-597: the files in the order in which they are written, with the
    images as they are in memory. *)
Definition render_main fs numCores rnd choose order files con names bounds : res (list (string * (location D * render_record * contents D))) :=
  '(_, _, l) <- render_boxes fs numCores rnd choose order files con names bounds ;;
  Ok (map (fun p => (output_path names (fst (fst p)), output con (snd (fst p)) (snd p))) l).

(** What WriteBuffer stores, output.go:153-166: one image or three. *)
Inductive image := Plain (xs : list F) | Triple (xs : vec3 (list F)).

(** output.go:154-166 with the methods of the five kinds of buffers, buffer.go:115-119,
    176, 235-250, 293-306, 345-366 and 415-429.  [g] is what NewBuffer was given. *)
Definition final_image (q : Z) (g : grid_location D) (c : contents D) : res image :=
  match c with
  | Scalar vals =>
      if q =? Density then Ok (Plain (finalized_scalar down vals))
      else if q =? DensityGradient then xs <- finalized_gradient down g vals ;; Ok (Triple xs)
      else Panic
  | Vector vecs num =>
      if q =? Velocity then xs <- finalized_velocity down vecs num ;; Ok (Triple xs)
      else if q =? VelocityDivergence then xs <- finalized_divergence down g vecs num ;; Ok (Plain xs)
      else if q =? VelocityCurl then xs <- finalized_curl down g vecs num ;; Ok (Triple xs)
      else Panic
  end.

(** box.go:178 and 209 *)
Definition box_location (total : D) (b : rbox D) : grid_location D :=
  new_grid_location (origin (rb_cb b)) (width (rb_cb b)) total (rb_cells b).

(** main.go:526-597: the same with the images as they are written. *)
Definition written_main fs numCores rnd choose order files con names bounds : res (list (string * (location D * render_record * image))) :=
  '(total, q, l) <- render_boxes fs numCores rnd choose order files con names bounds ;;
  map_res (fun p =>
    let '(loc, rec, vals) := output con (snd (fst p)) (snd p) in
    im <- final_image q (box_location total (snd p)) vals ;;
    Ok (output_path names (fst (fst p)), (loc, rec, im))) l.
End RenderMain.
Arguments bounds_file D : clear implicits.
Arguments image F : clear implicits.

(** The last file that is written under a name is found, main.go:575. *)
Definition found {A} (out : list (string * A)) (name : string) : option A :=
  match find (fun p => String.eqb (fst p) name) (rev out) with Some (_, a) => Some a | None => None end.

(** ** The cosmology *)
Section CosmoRecord.
Context {D : Type} {ND : Num D} (fsqrt : D -> D) (fpow : D -> D -> D) (k : cosmo_consts D).

(** output.go:39-44, 94-101 and main.go:580-583 *)
Record cosmo_record := CR { cr_z : D; cr_a : D; cr_omegaM : D; cr_omegaL : D; cr_H0 : D; cr_rhoM : D; cr_rhoC : D; cr_width : D }.
Definition new_cosmo (H0 omegaM omegaL z boxWidth : D) : cosmo_record :=
  CR z (#1 / (#1 + z))%num omegaM omegaL H0 (rho_average fsqrt fpow k H0 omegaM omegaL z) (rho_critical fsqrt fpow k H0 omegaM omegaL z) boxWidth.
Definition sheet_cosmo (h100 omegaM omegaL z total : D) : cosmo_record := new_cosmo (h100 * #100)%num omegaM omegaL z total.
End CosmoRecord.
