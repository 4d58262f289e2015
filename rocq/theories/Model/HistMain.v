(** Model of the manager of /repo/render/hist.go and of tetraHistMain of
    /repo/render/main/main.go: from the configuration and the boxes of the bounds
    files to the tables that are written.  [D] is float64, [F] is float32.  The
    goroutines of one pass are in [Hist.hstep]; here the workers run one after the
    other, and their histograms are added in an arbitrary given order. *)
From Coq Require Import String.
From Coq Require Import ZArith List Bool.
From Verif Require Import Base.Res Base.Num Model.Geom Model.GridDeriv Model.Config Model.Density Model.Render Model.SheetIO Model.Hist Model.Manager Model.RenderMain.
Import ListNotations.
Open Scope Z_scope.
Open Scope res_scope.

Section HistMain.
Context {D F : Type} {ND : Num D} {NF : Num F} (up : F -> D) (cvt : D -> F).
Variables log10 pow10 : D -> D.        (* math.Log10 and math.Pow(10, _) *)

(** What a readable sheet file holds: GridCount, the other fields of the header
    that are used, and the positions; the reading of bytes is in SheetIO.v. *)
Record hfile := HF { hf_count : Z; hf_hd : hist_sheet D F; hf_xs : list (vec3 F) }.
(** The file system: [None] is a file whose header cannot be read. *)
Variable fs : string -> option hfile.

(** hist.go:28-36 *)
Definition new_hist_box (config : box_config D) (bins : Z) : res (hist_box D) :=
  if bins <? 0 then Panic else Ok (HB (bx_o config) (bx_w config) (repeat 0 (Z.to_nat bins))).

(** hist.go:48-70.  The workspaces hists, qs, inBox and vecBufs are local to
    [chan_histogram]; hd is set anew for every file and is an argument below. *)
Record hist_manager := HM {
  hm_xs : list (vec3 F); hm_files : list string; hm_boxes : list (hist_box D); hm_units : list (list (vec3 F));
  hm_skip : Z; hm_quantity : string; hm_workers : Z; hm_gridHd : hist_grid D; hm_grid : list D }.

(** hist.go:73-101.  [gridFile] is what io.ReadGridHeader and io.ReadGrid find,
    [None] if one of them fails. *)
Definition new_hist_manager (numCores : Z) (rnd : Z -> Z -> vec3 F) (files : list string) (boxes : list (hist_box D)) (points : Z)
    (quantity : string) (gridFile : option (hist_grid D * list D)) : res (outcome hist_manager) :=
  first <- get files 0 ;;
  match fs first with
  | None => Ok Err
  | Some f =>
      if (hf_count f <? 0) || (points <? 0) then Panic else
      let xs := repeat (V3 (#0) (#0) (#0))%num (Z.to_nat (hf_count f)) in
      let units := map visible (unit_bufs rnd UnitBufCount points) in
      match gridFile with
      | None => Ok Err
      | Some (hd, grid) => Ok (Good (HM xs files boxes units 1 quantity numCores hd grid))
      end
  end.

(** hist.go:103-109: the old value is checked. *)
Definition hist_subsample (m : hist_manager) (skip : Z) : res hist_manager :=
  k <- subsample (hm_skip m) skip ;;
  Ok (HM (hm_xs m) (hm_files m) (hm_boxes m) (hm_units m) k (hm_quantity m) (hm_workers m) (hm_gridHd m) (hm_grid m)).

(** io.ReadSheetPositionsAt, io.go:314-332: the buffer is filled only if it has
    the length given in the header; its error is dropped in hist.go:170. *)
Definition positions_or_old (f : hfile) (xs : list (vec3 F)) : list (vec3 F) :=
  if hf_count f =? zlen xs then hf_xs f else xs.

(** hist.go:172-182: one file in one box. *)
Definition hist_pass (m : hist_manager) (hd : hist_sheet D F) (xs : list (vec3 F)) (info : hist_info D) (choose : Z -> Z -> Z) (order : list Z)
    (box : hist_box D) : res (list Z) :=
  hists <- tabulate (hm_workers m) (fun id =>
    chan_histogram up cvt log10 hd (hm_skip m) xs box info (hm_gridHd m) (hm_grid m) (hm_units m) (hm_quantity m) (hm_workers m) id (choose id)) ;;
  (fix merge ids counts := match ids with
   | [] => Ok counts
   | id :: ids => h <- get hists id ;; counts <- add_counts (hi_bins info) h counts ;; merge ids counts
   end) order (hb_counts box).

(** hist.go:162-189.  The sum in 185-188 is not used. *)
Definition hist_from_file (info : hist_info D) (choose : Z -> Z -> Z -> Z) (order : Z -> list Z) (file : string) (m : hist_manager) :
    res (outcome hist_manager) :=
  match fs file with
  | None => Ok Err
  | Some f =>
      s <- for_ 0 (zlen (hm_boxes m)) (fun bi s =>
        let '(xs, boxes) := s in
        box <- get boxes bi ;;
        if negb (hist_intersect up (hf_hd f) box) then Ok s else
        let xs := positions_or_old f xs in
        counts <- hist_pass m (hf_hd f) xs info (choose bi) (order bi) box ;;
        boxes <- set boxes bi (HB (hb_origin box) (hb_span box) counts) ;;
        Ok (xs, boxes)) (hm_xs m, hm_boxes m) ;;
      Ok (Good (HM (fst s) (hm_files m) (snd s) (hm_units m) (hm_skip m) (hm_quantity m) (hm_workers m) (hm_gridHd m) (hm_grid m)))
  end.

(** hist.go:135-139.  The choices and orders are those of file number k, k + 1, ... *)
Fixpoint hist_files (info : hist_info D) (choose : Z -> Z -> Z -> Z -> Z) (order : Z -> Z -> list Z) (k : Z) (files : list string) (m : hist_manager) :
    res (outcome hist_manager) :=
  match files with
  | [] => Ok (Good m)
  | file :: rest =>
      r <- hist_from_file info (choose k) (order k) file m ;;
      match r with Err => Ok Err | Good m => hist_files info choose order (k + 1) rest m end
  end.

(** hist.go:112-140: the boxes with their centers. *)
Definition hist_run (info : hist_info D) choose order (m : hist_manager) : res (outcome (list (hist_box D * list D))) :=
  let bins := hi_bins info in
  if (hm_workers m <? 0) || ((bins <? 0) && ((0 <? hm_workers m) || (0 <? zlen (hm_boxes m)))) then Panic else
  _ <- get (hm_units m) 0 ;;
  let boxes := map (fun b => HB (hb_origin b) (hb_span b) (repeat 0 (Z.to_nat bins))) (hm_boxes m) in
  centers <- map_res (fun _ => hist_centers log10 pow10 info) boxes ;;
  let m := HM (hm_xs m) (hm_files m) boxes (hm_units m) (hm_skip m) (hm_quantity m) (hm_workers m) (hm_gridHd m) (hm_grid m) in
  r <- hist_files info choose order 0 (hm_files m) m ;;
  match r with Err => Ok Err | Good m => Ok (Good (combine (hm_boxes m) centers)) end.

(** ** tetraHistMain *)

(** config.go:510-525.  The name of the grid file is left out. *)
Record hist_config := HC {
  hc_input : string; hc_output : string; hc_quantity : string; hc_min : D; hc_max : D; hc_bins : Z; hc_scale : string;
  hc_particles : Z; hc_subsample : Z; hc_append : string; hc_prepend : string }.

(** main.go:147-160 with config.go:536-542, 572-574: the checks that are made. *)
Definition accepted_hist (con : hist_config) : res bool :=
  sub <- hist_valid_subsample (hc_subsample con) ;;
  Ok (negb (String.eqb (hc_input con) "") && negb (String.eqb (hc_output con) "") && sub &&
      (String.eqb (hc_scale con) "Linear" || String.eqb (hc_scale con) "Log") &&
      valid_hist_min (hc_scale con) (hc_min con) (hc_max con) && valid_hist_max (hc_scale con) (hc_min con) (hc_max con)).

(** main.go:802-803.  path.Join is written as a slash, as in [output_path]. *)
Definition hist_path (con : hist_config) (name : string) : string :=
  (hc_output con ++ "/" ++ hc_prepend con ++ name ++ hc_append con ++ ".txt")%string.

(** main.go:644-677: the width in the first header, zero if it cannot be read. *)
Definition hist_total (f : option hfile) : D := match f with Some f => hs_total (hf_hd f) | None => (#0)%num end.

(** main.go:761-819 without log and profile: the tables in the order in which
    they are written.  The comment lines and the format of the numbers are left
    out.  [files] is the listing of con.Input. *)
Definition hist_main (numCores : Z) rnd choose order (files : list string) (gridFile : option (hist_grid D * list D))
    (con : hist_config) (bounds : list (option (bounds_file D))) : res (list (string * list (D * Z))) :=
  first <- get files 0 ;;
  configs <- all_bounds bounds (hist_total (fs first)) ;;
  boxes <- map_res (fun c => new_hist_box (snd c) (hc_bins con)) configs ;;
  r <- new_hist_manager numCores rnd files boxes (hc_particles con) (hc_quantity con) gridFile ;;
  match r with
  | Err => Fatal
  | Good m =>
      m <- hist_subsample m (hc_subsample con) ;;
      r <- hist_run (HI (hc_min con) (hc_max con) (hc_bins con) (hc_scale con)) choose order m ;;
      match r with
      | Err => Fatal
      | Good l => Ok (map (fun p => (hist_path con (fst (fst p)), combine (snd (snd p)) (hb_counts (fst (snd p))))) (combine configs l))
      end
  end.
End HistMain.
Arguments hfile D F : clear implicits. Arguments hist_manager D F : clear implicits. Arguments hist_config D : clear implicits.
