(** Properties of renderMain as a whole (C155-C161). *)
From Coq Require Import ZArith String List Bool Reals Permutation Lia Lra.
From Verif Require Import Base.Res Base.ResFacts Base.Num Base.IEEE Base.Convert Model.Geom Model.GridDeriv Model.Cosmo Model.Config Model.Density Model.Box Model.Render Model.SheetIO Model.Main Model.Manager Model.RenderMain
  Spec.GeomDefs Spec.Fields Spec.Work Spec.Renders Spec.Segments Spec.Catalogs Spec.ManagerEx Spec.RenderMains Spec.RenderMainEx Proof.RenderMainP Proof.RenderMainQ Proof.RenderMainX.
Import ListNotations.
Open Scope Z_scope.
Local Notation realK := (CC PI gravity megaparsec solar_mass (177653 / 1000)%R).

(** C155: false of the code: a ball with a negative radius is accepted, and its
    image has a negative number of pixels. *)
Theorem C155_negative_refuted : let ball := BallC (nofZ 5) (nofZ 5) (nofZ 5) (nofZ (-5)) (nofZ 1) in
  match ball_check_init (ND := F64Num) ball (nofZ 10) with
  | Some b => forall pts, new_box (ND := F64Num) (nofZ 10) pts 4 Density (ball_box b (nofZ 10)) = Panic
  | None => False
  end.
Proof. exact negative_ball_bad. Qed.
Print Assumptions C155_negative_refuted.

(** C155: holds for boxes whose widths are not negative. *)
Theorem C155_new_box_partial : forall L cells pts q config, (0 < L)%R -> 0 < cells -> 0 <= q < EndQuantity -> valid_axis (bx_axis config) ->
  (forall a, In a [0; 1; 2] -> (0 <= vget (bx_w config) a)%R) ->
  exists b, new_box (ND := RNum) L pts cells q config = Ok b /\ shows L cells pts q config b.
Proof. exact new_box_ok. Qed.
Print Assumptions C155_new_box_partial.

Example C155_example : valid_axis (bx_axis real_config) /\ (forall a, In a [0; 1; 2] -> (0 <= vget (bx_w real_config) a)%R) /\
  shows 8 4 1 Density real_config (RB (rb_cb real_box) 1 4 (8 / 4)%R None (Scalar (repeat 0%R 64))).
Proof. exact real_box_shown. Qed.

(** C156: false of the code: the image of exactly the whole simulation has one
    more pixel along each axis (see C104).  They stay empty, so that the mean is
    64 / 125 instead of 1; in the projection it is 0.8 of that of the column. *)
Theorem C156_whole_refuted :
  match main_job [] [("all"%string, cube_config (nofZ 10) ""); ("map"%string, cube_config (nofZ 10) "Z")] with
  | Ok [(_, (loc, _, c)); (_, (loc', _, c'))] =>
      lc_pixelSpan loc = V3 5 5 5 /\ value_count c = 125 /\ total_value c = 63 /\ value_at c 0 >= 6300 /\ value_at c 4 = 0 /\
      lc_pixelSpan loc' = V3 5 5 5 /\ value_count c' = 25 /\ total_value c' = 12
  | _ => False
  end.
Proof. exact whole_image_bad. Qed.
Print Assumptions C156_whole_refuted.

(** C156: holds for boxes that are at least one pixel narrower than the simulation. *)
Theorem C156_main_partial : forall L con names bounds parts q workers rnd choose order fs sheet X files grid,
  main_input L con names bounds parts q workers rnd choose order fs sheet X files grid ->
  exists out, render_main (ND := RNum) (NF := RNum) (fun x => x) (fun x => x) fs workers rnd choose order files con names bounds = Ok out /\
  Forall2 (fun c o => exists cells pts b b', box_numbers con (snd c) L = Ok (cells, pts) /\ shows L cells pts q (snd c) b /\
     rendered L (rc_subsample con) (unit_pool rnd pts) (map (fun file => (sheet file, X file)) files) b b' /\
     o = (output_path names (fst c), output con (snd c) b')) (concat parts) out.
Proof. exact main_ok. Qed.
Print Assumptions C156_main_partial.

(** An image from the first to the last pixel of the simulation has mean 1. *)
Theorem C156_full_partial : forall L con names bounds parts q workers rnd choose order fs sheet X files grid seg cnt,
  main_input L con names bounds parts q workers rnd choose order fs sheet X files grid ->
  (forall file, In file files -> s_seg (sf_hd (sheet file)) = seg /\ s_count (sf_hd (sheet file)) = cnt) ->
  seg mod rc_subsample con = 0 -> zlen files * seg ^ 3 = cnt ^ 3 ->
  exists out, render_main (ND := RNum) (NF := RNum) (fun x => x) (fun x => x) fs workers rnd choose order files con names bounds = Ok out /\
  Forall2 (fun c o => forall cells pts, box_numbers con (snd c) L = Ok (cells, pts) -> spans_all L cells (snd c) -> mean_of (snd (snd o)) = 1%R) (concat parts) out.
Proof. exact main_full. Qed.
Print Assumptions C156_full_partial.

(** A first file that cannot be read is reported although its error is dropped. *)
Theorem C156_unreadable_partial : forall numCores rnd choose order first files con names bounds fs, 0 <= numCores -> fs first = None ->
  render_main (ND := RNum) (NF := RNum) (fun x => x) (fun x => x) fs numCores rnd choose order (first :: files) con names bounds = Fatal.
Proof. exact first_unreadable. Qed.
Print Assumptions C156_unreadable_partial.

Example C156_example : main_input 8 four_pixels density_names [Some (BF [] [("all"%string, real_config)])] [[("all"%string, real_config)]] Density 1
    (fun _ _ => quarter) (fun _ _ _ _ => 0) (fun _ _ => [0]) (fun _ => Some real_sheet) (fun _ => real_sheet) (fun _ => sf_xs real_sheet) ["sheet"%string] 8 /\
  s_seg (sf_hd real_sheet) = 1 /\ s_count (sf_hd real_sheet) = 1 /\ 1 * 1 ^ 3 = 1 ^ 3 /\
  box_numbers (ND := RNum) four_pixels real_config 8%R = Ok (4, 1) /\ spans_all 8 4 real_config.
Proof. split; [exact real_input|]. repeat (split; [reflexivity|]). exact real_spans. Qed.

(** C157: false of the code: of a quantity that is not projected, the axis of
    the configuration is recorded although the image has three dimensions. *)
Theorem C157_axis_refuted : forall L cells pts q config con, (0 < L)%R -> 0 < cells -> 0 <= q < EndQuantity -> projectable q = false ->
  In (bx_axis config) ["X"; "Y"; "Z"]%string -> (forall a, In a [0; 1; 2] -> (0 <= vget (bx_w config) a)%R) ->
  exists b, new_box (ND := RNum) L pts cells q config = Ok b /\ rb_proj b = None /\
    0 <= rr_axis (snd (fst (output (ND := RNum) con config b))) <= 2.
Proof. exact axis_bad. Qed.
Print Assumptions C157_axis_refuted.

(** C157: holds for everything else. *)
Theorem C157_location_partial : forall L cells pts q config con, (0 < L)%R -> 0 < cells -> 0 <= q < EndQuantity -> valid_axis (bx_axis config) ->
  (forall a, In a [0; 1; 2] -> (0 <= vget (bx_w config) a)%R) ->
  exists b, new_box (ND := RNum) L pts cells q config = Ok b /\ forall vals,
  let '(loc, rec, v) := output (ND := RNum) con config (set_vals b vals) in
  v = vals /\ lc_pixelWidth loc = (L / IZR cells)%R /\
  (forall a, In a [0; 1; 2] -> let h := (L / IZR cells)%R in
     (vget (lc_origin loc) a = IZR (vget (lc_pixelOrigin loc) a) * h)%R /\ (vget (lc_span loc) a = IZR (vget (lc_pixelSpan loc) a) * h)%R /\
     (vget (lc_origin loc) a <= vget (bx_o config) a < vget (lc_origin loc) a + h)%R /\
     (vget (lc_origin loc) a + vget (lc_span loc) a - h <= vget (bx_o config) a + vget (bx_w config) a < vget (lc_origin loc) a + vget (lc_span loc) a)%R) /\
  (projectable q = true -> rr_axis rec = match rb_proj b with Some p => p | None => -1 end) /\
  (rb_proj b = None -> volume (image_size b) = v0 (lc_pixelSpan loc) * v1 (lc_pixelSpan loc) * v2 (lc_pixelSpan loc)) /\
  rr_particles rec = rc_particles con /\ rr_totalPixels rec = rc_totalPixels con /\ rr_subsample rec = rc_subsample con.
Proof. exact location_ok. Qed.
Print Assumptions C157_location_partial.

Example C157_example : projectable DensityGradient = false /\ 0 <= DensityGradient < EndQuantity /\ In (bx_axis (cube_config 6%R "Y")) ["X"; "Y"; "Z"]%string /\
  projectable Density = true /\ valid_axis (bx_axis (cube_config 6%R "Y")) /\ forall a, In a [0; 1; 2] -> (0 <= vget (bx_w (cube_config 6%R "Y")) a)%R.
Proof. split; [reflexivity|]. split; [split; [discriminate|reflexivity]|]. split; [cbn; tauto|]. split; [reflexivity|]. split; [cbn; tauto|].
  intros a [<-|[<-|[<-|[]]]]; cbn; lra. Qed.

(** C158: false of the code.  [needed] is the depth at which the rule that
    chooses the number of particles (C117) gives [particles]; recorded is four
    times that number divided by the sixth power of the subsampling length. *)
Theorem C158_depth_refuted : forall con config b,
  let particles := rc_particles con in let pixels := rc_totalPixels con in let skip := rc_subsample con in
  0 < particles -> 0 < pixels -> 0 < skip ->
  let needed := (5 * (IZR pixels / 500) ^ 3 * IZR skip ^ 3 / IZR particles)%R in
  least_above (rr_depth (snd (fst (output (ND := RNum) con config b)))) (4 * needed / IZR skip ^ 6)%R.
Proof. exact (fun con _ _ => depth_bad (rc_particles con) (rc_totalPixels con) (rc_subsample con)). Qed.
Print Assumptions C158_depth_refuted.

Example C158_example : projection_depth (ND := F64Num) 5000 5000 1 = 4 /\ projection_depth (ND := F64Num) 4000 5000 2 = 1 /\
  (5 * (IZR 5000 / 500) ^ 3 * IZR 1 ^ 3 / IZR 5000 = 1)%R /\ (5 * (IZR 5000 / 500) ^ 3 * IZR 2 ^ 3 / IZR 4000 = 10)%R.
Proof. split; [vm_compute; reflexivity|]. split; [vm_compute; reflexivity|]. split; field. Qed.

(** C159 *)
Theorem C159_bounds : forall L bounds,
  (forall configs, all_bounds (ND := RNum) bounds L = Ok configs <->
     exists parts, Forall2 (fun b l => exists f, b = Some f /\ accepted_sections L f l) bounds parts /\ configs = concat parts) /\
  ((forall configs, all_bounds (ND := RNum) bounds L <> Ok configs) -> all_bounds (ND := RNum) bounds L = Fatal).
Proof. exact all_bounds_thm. Qed.
Print Assumptions C159_bounds.

Example C159_example :
  match all_bounds (ND := F64Num) [Some (BF [("b"%string, ball_config5)] [("a"%string, cube_config (nofZ 7) " y")]); Some (BF [] [("c"%string, cube_config (nofZ 7) "")])] (nofZ 10) with
  | Ok l => map fst l = ["b"; "a"; "c"]%string /\ map (fun c => bx_axis (snd c)) l = [""; "Y"; ""]%string
  | _ => False
  end /\ all_bounds (ND := F64Num) [Some (BF [] [("a"%string, cube_config (nofZ 7) "W")])] (nofZ 10) = Fatal.
Proof. vm_compute. repeat split. Qed.

(** C160: false of the code: a ball and a box of one name overwrite each other. *)
Theorem C160_same_name_refuted :
  match main_job [("a"%string, ball_config5)] [("a"%string, cube_config (nofZ 7) "")] with
  | Ok ([(n, (loc, _, _)); (n', (loc', _, _))] as out) => n = n' /\ lc_pixelSpan loc = V3 2 2 2 /\ lc_pixelSpan loc' = V3 3 3 3 /\
      match found out n with Some (l, _, _) => lc_pixelSpan l = V3 3 3 3 | None => False end
  | _ => False
  end.
Proof. exact same_name_bad. Qed.
Print Assumptions C160_same_name_refuted.

(** C160: holds if no name is used twice. *)
Theorem C160_own_file_partial : forall L con names bounds parts q workers rnd choose order fs sheet X files grid,
  main_input L con names bounds parts q workers rnd choose order fs sheet X files grid -> NoDup (map fst (concat parts)) ->
  exists out, render_main (ND := RNum) (NF := RNum) (fun x => x) (fun x => x) fs workers rnd choose order files con names bounds = Ok out /\
  Forall2 (fun c o => fst o = (rn_output names ++ "/" ++ rn_prepend names ++ fst c ++ rn_append names ++ ".gtet")%string /\ found out (fst o) = Some (snd o)) (concat parts) out.
Proof. exact own_file. Qed.
Print Assumptions C160_own_file_partial.

Example C160_example : NoDup (map fst (concat [[("all"%string, real_config)]; [("map"%string, real_config)]])).
Proof. cbn. repeat constructor; cbn; intuition discriminate. Qed.

(** C161 *)
Theorem C161_cosmology : forall h om ol z L, h <> 0%R -> (0 <= om)%R -> (0 <= ol)%R -> (-1 < z)%R ->
  let c := sheet_cosmo (ND := RNum) sqrt Rpower realK h om ol z L in
  (cr_a c * (1 + cr_z c) = 1)%R /\ cr_z c = z /\ cr_omegaM c = om /\ cr_omegaL c = ol /\ (cr_H0 c = 100 * h)%R /\ cr_width c = L /\
  (cr_rhoC c = critical_today * (cr_omegaM c / cr_a c ^ 3 + cr_omegaL c))%R /\
  ((om + ol = 1)%R -> (cr_rhoM c = critical_today * (cr_omegaM c / cr_a c ^ 3))%R).
Proof. exact cosmo_ok. Qed.
Print Assumptions C161_cosmology.

Example C161_example : (7 / 10 <> 0)%R /\ (0 <= 27 / 100)%R /\ (0 <= 73 / 100)%R /\ (-1 < 1 / 2)%R /\ (27 / 100 + 73 / 100 = 1)%R.
Proof. lra. Qed.
