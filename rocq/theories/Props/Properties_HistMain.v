(** Properties of tetraHistMain as a whole (C162-C166). *)
From Coq Require Import ZArith String List Bool Reals Permutation Lia Lra.
From Verif Require Import Base.Res Base.ResFacts Base.Num Base.IEEE Base.Convert Model.Geom Model.GridDeriv Model.Config Model.Density Model.Box Model.Render Model.SheetIO Model.Hist Model.Main Model.Manager Model.RenderMain Model.HistMain
  Spec.Geometry Spec.GeomDefs Spec.Fields Spec.Work Spec.Histograms Spec.HistDefs Spec.Renders Spec.Workspace Spec.ManagerEx Spec.RenderMains Spec.RenderMainEx Spec.HistMains Spec.HistMainEx Proof.RenderMainX Proof.HistMainP Proof.HistMainQ.
Import ListNotations.
Open Scope Z_scope.

(** C162: false of the code: a box that is exactly the region of a sheet gets
    nothing from it (see C92); a box that is smaller by one gets all samples. *)
Theorem C162_same_region_refuted :
  counts_of (hist_job [("a"%string, point_sheet 1 1 8 3)] (five_bins "Density" 5 1) [("b"%string, cube_at 1 8); ("c"%string, cube_at 1 7)]) =
  Ok [("out/b.txt"%string, [0; 0; 0; 0; 0]); ("out/c.txt"%string, [0; 0; 0; 6; 0])].
Proof. exact region_is_box. Qed.
Print Assumptions C162_same_region_refuted.

(** C162: holds for all boxes if the sheets that are skipped for that reason are
    left out, see [file_adds]. *)
Theorem C162_main_partial : forall L con bounds parts workers rnd choose order g grid fs count,
  hist_request L con bounds parts workers rnd choose order g grid -> forall sheet files, files <> [] ->
  (forall file, In file files -> fs file = Some (sheet file) /\ hist_sheet_ok L (hc_subsample con) count (sheet file)) ->
  exists out, hist_main (ND := RNum) (NF := RNum) (fun x => x) (fun x => x) log10R pow10R fs workers rnd choose order files (Some (g, grid)) con bounds = Ok out /\
  Forall2 (fun c o => fst o = (hc_output con ++ "/" ++ hc_prepend con ++ fst c ++ hc_append con ++ ".txt")%string /\ exists adds,
    Forall2 (file_adds (hc_subsample con) workers (con_info con) g grid (unit_pool rnd (hc_particles con)) (bx_o (snd c)) (bx_w (snd c))) (map sheet files) adds /\
    snd o = table (con_info con) (fun j => zsum (map (fun a => a j) adds))) (concat parts) out.
Proof. exact hist_main_ok. Qed.
Print Assumptions C162_main_partial.

Example C162_example :
  hist_request 10 real_bins real_bounds real_parts 1 (fun _ _ => half_point) (fun _ _ _ _ => 0) (fun _ _ => [0]) (fst one_pixel) (snd one_pixel) /\
  hist_sheet_ok 10 (hc_subsample real_bins) 8 (point_sheet 1 1 8 3) /\ sheet_meets (hf_hd (point_sheet 1 1 8 3)) (all_at 2) (all_at 4) /\
  counts_of (hist_job [("a"%string, point_sheet 1 1 8 3)] (five_bins "Density" 5 1) [("b"%string, cube_at 2 4)]) = Ok [("out/b.txt"%string, [0; 0; 0; 6; 0])].
Proof. split; [exact real_hist_request|]. split; [exact real_hist_sheet|]. split; [exact real_meets|exact point_counts]. Qed.

(** C163: false of the code.  Alone, neither of two sheets adds anything to the
    box: the particles of the first are outside its region, those of the second
    outside the box.  But the second has fewer particles than the buffer holds;
    its positions are not read, and those of the first are counted for it. *)
Theorem C163_positions_refuted :
  counts_of (hist_job [("a"%string, point_sheet 2 5 2 3); ("b"%string, point_sheet 1 1 8 9)] (five_bins "Density" 5 1) [("b"%string, cube_at 2 4)]) =
    Ok [("out/b.txt"%string, [0; 0; 0; 6; 0])] /\
  counts_of (hist_job [("a"%string, point_sheet 2 5 2 3)] (five_bins "Density" 5 1) [("b"%string, cube_at 2 4)]) = Ok [("out/b.txt"%string, [0; 0; 0; 0; 0])] /\
  counts_of (hist_job [("b"%string, point_sheet 1 1 8 9)] (five_bins "Density" 5 1) [("b"%string, cube_at 2 4)]) = Ok [("out/b.txt"%string, [0; 0; 0; 0; 0])].
Proof. exact old_positions. Qed.
Print Assumptions C163_positions_refuted.

(** C163: holds for headers and for the grid. *)
Theorem C163_unreadable_partial : forall L con bounds parts workers rnd choose order g grid count fs sheet pre bad post,
  hist_request L con bounds parts workers rnd choose order g grid ->
  (forall file, In file pre -> fs file = Some (sheet file) /\ hist_sheet_ok L (hc_subsample con) count (sheet file)) -> fs bad = None ->
  hist_main (ND := RNum) (NF := RNum) (fun x => x) (fun x => x) log10R pow10R fs workers rnd choose order (pre ++ bad :: post) (Some (g, grid)) con bounds = Fatal.
Proof. exact unreadable_file. Qed.
Print Assumptions C163_unreadable_partial.

Theorem C163_grid_partial : forall L con bounds parts workers rnd choose order g grid fs first files f,
  hist_request L con bounds parts workers rnd choose order g grid -> fs first = Some f -> 0 <= hf_count f ->
  hist_main (ND := RNum) (NF := RNum) (fun x => x) (fun x => x) log10R pow10R fs workers rnd choose order (first :: files) None con bounds = Fatal.
Proof. exact unreadable_grid. Qed.
Print Assumptions C163_grid_partial.

Example C163_example : 
  hist_request 10 real_bins real_bounds real_parts 1 (fun _ _ => half_point) (fun _ _ _ _ => 0) (fun _ _ => [0]) (fst one_pixel) (snd one_pixel) /\
  (forall file, In file ["a"%string] ->
    (if String.eqb file "a" then Some (point_sheet (ND := RNum) (NF := RNum) 1 1 8 3) else None) = Some (point_sheet 1 1 8 3) /\ hist_sheet_ok 10 (hc_subsample real_bins) 8 (point_sheet 1 1 8 3)) /\
  0 <= hf_count (point_sheet (ND := RNum) (NF := RNum) 1 1 8 3).
Proof. split; [exact real_hist_request|]. split; [intros file [<-|[]]; split; [reflexivity|exact real_hist_sheet]|discriminate]. Qed.

(** C164: false of the code: a quantity that is not a density, a negative number
    of bins and a negative number of particles are accepted; the run panics. *)
Theorem C164_accepted_refuted : forall con, In con [five_bins "Velocity" 5 1; five_bins "Density" (-1) 1; five_bins "Density" 5 (-1)] ->
  accepted_hist (ND := F64Num) con = Ok true /\ counts_of (hist_job [("a"%string, point_sheet 1 1 8 3)] con [("b"%string, cube_at 2 4)]) = Panic.
Proof. exact accepted_panics. Qed.
Print Assumptions C164_accepted_refuted.

(** C164: holds for the range of the bins and the subsampling length. *)
Theorem C164_checks_partial : forall con : hist_config R, accepted_hist (ND := RNum) con = Ok true -> 0 < hc_bins con ->
  info_ok (con_info con) /\ power_of_two (hc_subsample con) /\ hc_input con <> ""%string /\ hc_output con <> ""%string.
Proof. exact accepted_info. Qed.
Print Assumptions C164_checks_partial.

Example C164_example : accepted_hist (ND := RNum) real_bins = Ok true /\ 0 < hc_bins real_bins.
Proof. split; [exact real_accepted|reflexivity]. Qed.

(** C165: false of the code: boxes of the same name share a file, and the table
    of the last one is left in it. *)
Theorem C165_same_name_refuted :
  match counts_of (hist_job [("a"%string, point_sheet 1 1 8 3)] (five_bins "Density" 5 1) [("b"%string, cube_at 2 4); ("b"%string, cube_at 4 4)]) with
  | Ok out => out = [("out/b.txt"%string, [0; 0; 0; 6; 0]); ("out/b.txt"%string, [0; 0; 0; 0; 0])] /\ found out "out/b.txt" = Some [0; 0; 0; 0; 0]
  | _ => False
  end.
Proof. exact names_clash. Qed.
Print Assumptions C165_same_name_refuted.

Theorem C165_own_file_partial : forall L con bounds parts workers rnd choose order g grid count fs sheet files,
  hist_request L con bounds parts workers rnd choose order g grid -> files <> [] ->
  (forall file, In file files -> fs file = Some (sheet file) /\ hist_sheet_ok L (hc_subsample con) count (sheet file)) ->
  NoDup (map fst (concat parts)) ->
  exists out, hist_main (ND := RNum) (NF := RNum) (fun x => x) (fun x => x) log10R pow10R fs workers rnd choose order files (Some (g, grid)) con bounds = Ok out /\
  Forall2 (fun c o => fst o = (hc_output con ++ "/" ++ hc_prepend con ++ fst c ++ hc_append con ++ ".txt")%string /\ found out (fst o) = Some (snd o)) (concat parts) out.
Proof. exact own_table. Qed.
Print Assumptions C165_own_file_partial.

Example C165_example : NoDup (map fst (concat [[("b"%string, cube_at (ND := RNum) 2 4)]; [("c"%string, cube_at 4 4)]])).
Proof. cbn. repeat constructor; cbn; intuition discriminate. Qed.

(** C166: false of the code: a projected image describes itself as a grid of
    more values than it has. *)
Theorem C166_projected_refuted : forall L render q config b v p, (0 < L)%R -> good_config L render config ->
  (exists cells pts, box_numbers (ND := RNum) render config L = Ok (cells, pts) /\ shows L cells pts q config b) -> zlen v = volume (image_size b) ->
  rb_proj b = Some p ->
  pixel_total (image_grid L (fst (fst (output (ND := RNum) render config (set_vals b (Scalar v)))))) = zlen v * box_depth b.
Proof. intros L render q config b v p H1 H2 H3 H4. apply (image_as_grid L render q config b v H1 H2 H3 H4). Qed.
Print Assumptions C166_projected_refuted.

(** C166: holds without projection. *)
Theorem C166_image_grid_partial : forall L render q config b v, (0 < L)%R -> good_config L render config ->
  (exists cells pts, box_numbers (ND := RNum) render config L = Ok (cells, pts) /\ shows L cells pts q config b) -> zlen v = volume (image_size b) ->
  let gr := image_grid L (fst (fst (output (ND := RNum) render config (set_vals b (Scalar v))))) in
  grid_ok gr /\ hg_box gr = L /\
  (rb_proj b = None -> zlen v = pixel_total gr /\ forall c, pixel_number gr c = cell_index (image_size b) c) /\
  (forall p, rb_proj b = Some p -> pixel_total gr = zlen v * box_depth b).
Proof. exact image_as_grid. Qed.
Print Assumptions C166_image_grid_partial.

Example C166_example : good_config 8 four_pixels real_config /\ box_numbers (ND := RNum) four_pixels real_config 8%R = Ok (4, 1) /\
  shows 8 4 1 Density real_config (RB (rb_cb real_box) 1 4 (8 / 4)%R None (Scalar (repeat 0%R 64))).
Proof. split; [|split; [exact real_numbers|apply real_box_shown]]. exact real_good. Qed.

(** C190 *)
Theorem C190_histogram : forall con : hist_config R, exists b, accepted_hist (ND := RNum) con = Ok b /\
  (b = true <-> hc_input con <> ""%string /\ hc_output con <> ""%string /\ power_of_two (hc_subsample con) /\
     (hc_min con < hc_max con)%R /\ (hc_scale con = "Linear"%string \/ hc_scale con = "Log"%string /\ (0 < hc_min con)%R)).
Proof. exact accepted_hist_iff. Qed.
Print Assumptions C190_histogram.

Theorem C190_range : forall scale mn mx,
  (valid_hist_min (ND := RNum) scale mn mx = true <-> (mn < mx)%R /\ (scale = "Linear"%string \/ scale = "Log"%string /\ (0 < mn)%R)) /\
  (valid_hist_max (ND := RNum) scale mn mx = true <-> (mn < mx)%R /\ (scale = "Linear"%string \/ scale = "Log"%string /\ (0 < mx)%R)).
Proof. exact (fun scale mn mx => conj (hist_min_iff scale mn mx) (hist_max_iff scale mn mx)). Qed.
Print Assumptions C190_range.

Theorem C190_render : forall con, accepted_render con = true <->
  0 < rc_subsample con /\ (0 < rc_imagePixels con \/ 0 < rc_totalPixels con) /\
  (0 < rc_particles con \/ 0 < rc_depth con \/ rc_auto con = true).
Proof. exact accepted_render_iff. Qed.
Print Assumptions C190_render.

Example C190_example : accepted_hist (ND := RNum) real_bins = Ok true /\ accepted_render (RC 500 0 false 0 3 1) = true /\
  accepted_render (RC 500 0 false 0 0 1) = false.
Proof. split; [exact real_accepted|split; reflexivity]. Qed.
