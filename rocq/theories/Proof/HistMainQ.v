(** Errors, accepted configurations, names, rendered grids; witnesses. *)
From Coq Require Import String.
From Coq Require Import ZArith List Reals Bool Permutation Lia Lra.
From Verif Require Import Base.Res Base.ResFacts Base.Num Base.IEEE Base.Convert Model.Geom Model.GridDeriv Model.Config Model.Density Model.Box Model.Render Model.SheetIO Model.Hist Model.Main Model.Manager Model.RenderMain Model.HistMain
  Spec.Geometry Spec.GeomDefs Spec.Fields Spec.FieldDefs Spec.Work Spec.Histograms Spec.HistDefs Spec.Renders Spec.Workspace Spec.RenderMains Spec.HistMains Spec.HistMainEx
  Proof.ConfigP Proof.HistP Proof.HistT Proof.ManagerBox Proof.RenderMainP Proof.RenderMainQ Proof.RenderMainX Proof.HistMainP.
Import ListNotations.
Open Scope Z_scope.
Open Scope res_scope.
Local Notation idR := (fun x : R => x).

(** ** Errors *)
Lemma files_app (fs : string -> option (hfile R R)) info choose order l1 l2 : forall k m,
  hist_files idR idR log10R fs info choose order k (l1 ++ l2) m =
  (r <- hist_files idR idR log10R fs info choose order k l1 m ;;
   match r with Err => Ok Err | Good m => hist_files idR idR log10R fs info choose order (k + zlen l1) l2 m end).
Proof.
  induction l1 as [|f l1 IH]; intros k m; cbn [app hist_files].
  - cbn [bind]. f_equal. unfold zlen; cbn; lia.
  - destruct (hist_from_file idR idR log10R fs info (choose k) (order k) f m) as [[m1|]| | |]; cbn [bind]; auto.
    rewrite IH. replace (k + 1 + zlen l1) with (k + zlen (f :: l1)) by (unfold zlen; cbn [List.length]; lia). reflexivity.
Qed.

Lemma bounds_or_fatal bounds L : (exists l, all_bounds (ND := RNum) bounds L = Ok l) \/ all_bounds (ND := RNum) bounds L = Fatal.
Proof.
  destruct (all_bounds (ND := RNum) bounds L) as [l| | |] eqn:E; eauto; right; rewrite <- E; apply all_bounds_thm; intros l E'; rewrite E in E'; discriminate.
Qed.
Lemma boxes_made bins (l : list (string * box_config R)) : 0 <= bins -> exists boxes, map_res (fun c => new_hist_box (snd c) bins) l = Ok boxes.
Proof.
  intros HB. destruct (map_res_ex (fun c : string * box_config R => new_hist_box (snd c) bins) (fun _ _ => True) l) as (b & E & _); [|eauto].
  apply Forall_forall. intros c _. unfold new_hist_box. replace (bins <? 0) with false by lia. eauto.
Qed.

Theorem unreadable_file L con bounds parts workers rnd choose order g grid count fs sheet pre bad post :
  hist_request L con bounds parts workers rnd choose order g grid ->
  (forall file, In file pre -> fs file = Some (sheet file) /\ hist_sheet_ok L (hc_subsample con) count (sheet file)) -> fs bad = None ->
  hist_main idR idR log10R pow10R fs workers rnd choose order (pre ++ bad :: post) (Some (g, grid)) con bounds = Fatal.
Proof.
  intros HR HP HB. destruct pre as [|first rest].
  - cbn [app]. unfold hist_main. cbn [get]. change (get (bad :: post) 0) with (Ok (A := string) bad). cbn [bind]. rewrite HB. cbn [hist_total].
    destruct (bounds_or_fatal bounds (#0)%num) as [[l ->]| ->]; [|reflexivity]. cbn [bind].
    destruct HR as (_ & (HI & _) & _). cbn in HI. destruct (boxes_made (hc_bins con) l ltac:(lia)) as (boxes & ->). cbn [bind].
    unfold new_hist_manager. change (get (bad :: post) 0) with (Ok (A := string) bad). cbn [bind]. rewrite HB. reflexivity.
  - destruct (main_files L con bounds parts workers rnd choose order g grid fs count HR ((first :: rest) ++ bad :: post) first (sheet first) eq_refl (HP first (or_introl eq_refl)))
      as (m0 & cs & M0 & _ & _ & _ & ->).
    rewrite files_app.
    destruct (files_ok L con bounds parts workers rnd choose order g grid fs count HR (first :: rest) (map sheet (first :: rest))) with (k := 0) (m := m0) as (m1 & E1 & _ & _); [|exact M0|].
    + generalize dependent (first :: rest). clear. intros l H. induction l as [|x l IH]; cbn [map]; constructor; [apply H; now left|apply IH; intros; apply H; now right].
    + rewrite E1. cbn [bind hist_files]. unfold hist_from_file. rewrite HB. reflexivity.
Qed.

Theorem unreadable_grid L con bounds parts workers rnd choose order g grid fs first files f :
  hist_request L con bounds parts workers rnd choose order g grid -> fs first = Some f -> 0 <= hf_count f ->
  hist_main idR idR log10R pow10R fs workers rnd choose order (first :: files) None con bounds = Fatal.
Proof.
  intros HR Hf Hc. unfold hist_main. change (get (first :: files) 0) with (Ok (A := string) first). cbn [bind]. rewrite Hf. cbn [hist_total].
  destruct (bounds_or_fatal bounds (hs_total (hf_hd f))) as [[l ->]| ->]; [|reflexivity]. cbn [bind].
  destruct HR as (_ & (HI & _) & HP & _). cbn in HI. destruct (boxes_made (hc_bins con) l ltac:(lia)) as (boxes & ->). cbn [bind].
  unfold new_hist_manager. change (get (first :: files) 0) with (Ok (A := string) first). cbn [bind]. rewrite Hf.
  replace ((hf_count f <? 0) || (hc_particles con <? 0)) with false by lia. reflexivity.
Qed.

(** ** Accepted configurations *)
Theorem accepted_info (con : hist_config R) : accepted_hist (ND := RNum) con = Ok true -> 0 < hc_bins con ->
  info_ok (con_info con) /\ power_of_two (hc_subsample con) /\ hc_input con <> ""%string /\ hc_output con <> ""%string.
Proof.
  unfold accepted_hist. destruct (hist_valid_ok (hc_subsample con)) as (b & -> & Hb). cbn [bind]. intros E HB. injection E as E.
  rewrite !andb_true_iff in E. destruct E as [[[[[E1 E2] E3] E4] E5] E6].
  split; [|split; [now apply Hb|split; intros K; rewrite K in *; discriminate]].
  unfold valid_hist_min in E5. rewrite andb_true_iff in E5. destruct E5 as [E5 E7]. cbn in E7.
  destruct (Rlt_dec (hc_min con) (hc_max con)) as [HL|] ; [|unfold Raux.Rlt_bool in E7; destruct (Raux.Rcompare_spec (hc_min con) (hc_max con)); try discriminate; lra].
  split; [exact HB|]. split; [exact HL|]. unfold is_log, con_info. cbn [hi_scale hi_min]. intros HLog.
  apply orb_true_iff in E5. destruct E5 as [E5|E5].
  - apply String.eqb_eq in E5. rewrite E5 in HLog. discriminate.
  - apply andb_true_iff in E5. destruct E5 as [_ E5]. cbn in E5.
    unfold Raux.Rlt_bool in E5. destruct (Raux.Rcompare_spec 0 (hc_min con)); try discriminate; lra.
Qed.

(** ** Names *)
Lemma hist_path_inj (con : hist_config R) a b : hist_path con a = hist_path con b -> a = b.
Proof. unfold hist_path. intros E. apply string_app_left, string_app_left, string_app_left in E. apply string_app_right in E. exact E. Qed.

Theorem own_table L con bounds parts workers rnd choose order g grid count fs sheet files :
  hist_request L con bounds parts workers rnd choose order g grid -> files <> [] ->
  (forall file, In file files -> fs file = Some (sheet file) /\ hist_sheet_ok L (hc_subsample con) count (sheet file)) ->
  NoDup (map fst (concat parts)) ->
  exists out, hist_main idR idR log10R pow10R fs workers rnd choose order files (Some (g, grid)) con bounds = Ok out /\
  Forall2 (fun c o => fst o = (hc_output con ++ "/" ++ hc_prepend con ++ fst c ++ hc_append con ++ ".txt")%string /\ found out (fst o) = Some (snd o)) (concat parts) out.
Proof.
  intros HR H0 HF HN. destruct (hist_main_ok L con bounds parts workers rnd choose order g grid fs count HR sheet files H0 HF) as (out & E & F).
  exists out. split; [exact E|].
  assert (EN : map fst out = map (fun c => hist_path con (fst c)) (concat parts)).
  { clear - F. induction F as [|c o l l' [H _] F IH]; cbn; congruence. }
  assert (HO : NoDup (map fst out)).
  { rewrite EN. rewrite <- (map_map fst (hist_path con)). clear - HN. induction HN as [|x l HX HN IH]; cbn; constructor; auto.
    intros K. apply in_map_iff in K. destruct K as (y & Ey & Hy). apply hist_path_inj in Ey. now subst. }
  assert (HI : forall o, In o out -> found out (fst o) = Some (snd o)) by (intros; now apply found_last).
  revert HI. generalize (found out). intros fnd HI. clear - F HI. induction F as [|c o l l' [H _] F IH]; constructor; [|apply IH; intros; apply HI; now right].
  split; [exact H|apply HI; now left].
Qed.

(** ** Rendered images as grids *)
Theorem image_grid_ok L cells pts q config con b : (0 < L)%R -> 0 < cells -> shows L cells pts q config b ->
  (forall a, In a [0; 1; 2] -> (0 <= vget (bx_o config) a < L)%R /\ (0 <= vget (bx_w config) a <= IZR (cells - 1) * (L / IZR cells))%R) ->
  let loc := fst (fst (output (ND := RNum) con config b)) in let gr := image_grid L loc in
  grid_ok gr /\ hg_box gr = L /\
  (rb_proj b = None -> pixel_total gr = volume (image_size b) /\ forall c, pixel_number gr c = cell_index (image_size b) c) /\
  (forall p, rb_proj b = Some p -> pixel_total gr = volume (image_size b) * box_depth b).
Proof.
  intros HL Hc (E1 & _ & E3 & HB & E4 & _) HA. cbv zeta. unfold output. cbn [fst]. unfold image_grid, new_location. cbn [lc_origin lc_span lc_pixelSpan lc_pixelWidth].
  set (h := rb_cw b) in *. assert (Hcp : (0 < IZR cells)%R) by (apply IZR_lt; lia).
  assert (Hh : (0 < h)%R) by (rewrite E3; apply Rdiv_lt_0_compat; lra).
  assert (HLh : (L = IZR cells * h)%R) by (rewrite E3; field; lra).
  assert (K : forall a, In a [0; 1; 2] -> 1 <= vget (width (rb_cb b)) a <= cells /\ 0 <= vget (origin (rb_cb b)) a < cells).
  { intros a Ia. specialize (HB a Ia). cbv zeta in HB. destruct HB as [[B1 B2] [B3 B4]]. destruct (HA a Ia) as [[A1 A2] [A3 A4]]. rewrite <- E3 in A4. fold h in A4.
    set (f := vget (origin (rb_cb b)) a) in *. set (n := vget (width (rb_cb b)) a) in *. clearbody f n.
    assert (X1 : 0 < f + 1) by (apply lt_IZR; apply Rmult_lt_reg_r with h; lra).
    assert (X2 : f < cells) by (apply lt_IZR; apply Rmult_lt_reg_r with h; lra).
    assert (X3 : f < f + n) by (apply lt_IZR; apply Rmult_lt_reg_r with h; lra).
    assert (X4 : f + n - 1 < f + 1 + (cells - 1)).
    { apply lt_IZR. apply Rmult_lt_reg_r with h; [lra|]. rewrite (plus_IZR (f + 1)), Rmult_plus_distr_r. lra. }
    lia. }
  split; [|split; [reflexivity|split]].
  - split; [exact Hh|]. intros k Hk. assert (Ik : In k [0; 1; 2]) by (cbn; lia). destruct (K k Ik) as [K1 K2].
    cbn [hg_pixels hg_span hg_pixelWidth hg_box hg_origin].
    split; [lia|]. rewrite HLh.
    assert (EV : forall v : vec3 Z, vget (V3 (IZR (v0 v) * h) (IZR (v1 v) * h) (IZR (v2 v) * h))%R k = (IZR (vget v k) * h)%R).
    { intros v. assert (Ck : k = 0 \/ k = 1 \/ k = 2) by lia. destruct Ck as [->|[->| ->]]; reflexivity. }
    cbn [nofZ nmul RNum]. rewrite !EV.
    split; [reflexivity|]. split; [apply Rmult_le_compat_r; [lra|apply IZR_le; lia]|].
    split; [apply Rmult_le_pos; [apply IZR_le; lia|lra]|apply Rmult_lt_compat_r; [lra|apply IZR_lt; lia]].
  - intros EP. unfold image_size. rewrite EP. unfold pixel_total. cbn [hg_pixels]. unfold wcell. split; [reflexivity|].
    intros [[x y] z]. unfold pixel_number, cell_index. cbn [hg_pixels]. cbn [vget]. change (vget (width (rb_cb b)) 0) with (v0 (width (rb_cb b))). change (vget (width (rb_cb b)) 1) with (v1 (width (rb_cb b))). ring.
  - intros p EP. rewrite E4 in EP. destruct (projectable q); [|discriminate]. pose proof (axis_index_ok (bx_axis config)) as HP. rewrite EP in HP.
    unfold image_size, box_depth. rewrite E4. replace (if true then axis_index (bx_axis config) else None) with (Some p).
    unfold pixel_total. cbn [hg_pixels].
    assert (Cp : p = 0 \/ p = 1 \/ p = 2) by lia. destruct Cp as [->|[->| ->]]; cbn; ring.
Qed.

Theorem image_as_grid L render q config b v : (0 < L)%R -> good_config L render config ->
  (exists cells pts, box_numbers (ND := RNum) render config L = Ok (cells, pts) /\ shows L cells pts q config b) -> zlen v = volume (image_size b) ->
  let gr := image_grid L (fst (fst (output (ND := RNum) render config (set_vals b (Scalar v))))) in
  grid_ok gr /\ hg_box gr = L /\
  (rb_proj b = None -> zlen v = pixel_total gr /\ forall c, pixel_number gr c = cell_index (image_size b) c) /\
  (forall p, rb_proj b = Some p -> pixel_total gr = zlen v * box_depth b).
Proof.
  intros HL (_ & cells & pts & E & H4 & HA) (cells' & pts' & E' & HS) HV. rewrite E in E'. injection E' as <- <-. rewrite HV.
  change (fst (fst (output (ND := RNum) render config (set_vals b (Scalar v))))) with (fst (fst (output (ND := RNum) render config b))).
  destruct (image_grid_ok L cells pts q config render b HL ltac:(lia) HS) as (G1 & G2 & G3 & G4).
  { intros a Ia. destruct (HA a Ia). split; lra. }
  split; [exact G1|]. split; [exact G2|]. split; [|exact G4]. intros EP. destruct (G3 EP) as [G5 G6]. split; [now symmetry|exact G6].
Qed.

(** ** Witnesses *)
Local Open Scope string_scope.
Lemma region_is_box : counts_of (hist_job [("a", point_sheet 1 1 8 3)] (five_bins "Density" 5 1) [("b", cube_at 1 8); ("c", cube_at 1 7)]) =
  Ok [("out/b.txt", [0; 0; 0; 0; 0]); ("out/c.txt", [0; 0; 0; 6; 0])].
Proof. vm_compute. reflexivity. Qed.

Lemma old_positions :
  counts_of (hist_job [("a", point_sheet 2 5 2 3); ("b", point_sheet 1 1 8 9)] (five_bins "Density" 5 1) [("b", cube_at 2 4)]) = Ok [("out/b.txt", [0; 0; 0; 6; 0])] /\
  counts_of (hist_job [("a", point_sheet 2 5 2 3)] (five_bins "Density" 5 1) [("b", cube_at 2 4)]) = Ok [("out/b.txt", [0; 0; 0; 0; 0])] /\
  counts_of (hist_job [("b", point_sheet 1 1 8 9)] (five_bins "Density" 5 1) [("b", cube_at 2 4)]) = Ok [("out/b.txt", [0; 0; 0; 0; 0])].
Proof. repeat split; vm_compute; reflexivity. Qed.

Lemma accepted_panics : forall con, In con [five_bins "Velocity" 5 1; five_bins "Density" (-1) 1; five_bins "Density" 5 (-1)] ->
  accepted_hist (ND := F64Num) con = Ok true /\ counts_of (hist_job [("a", point_sheet 1 1 8 3)] con [("b", cube_at 2 4)]) = Panic.
Proof. intros con [<-|[<-|[<-|[]]]]; split; vm_compute; reflexivity. Qed.

Lemma names_clash : match counts_of (hist_job [("a", point_sheet 1 1 8 3)] (five_bins "Density" 5 1) [("b", cube_at 2 4); ("b", cube_at 4 4)]) with
  | Ok out => out = [("out/b.txt", [0; 0; 0; 6; 0]); ("out/b.txt", [0; 0; 0; 0; 0])] /\ found out "out/b.txt" = Some [0; 0; 0; 0; 0]
  | _ => False
  end.
Proof. vm_compute. split; reflexivity. Qed.

(** A run on real numbers. *)
Lemma axes3 (P : Z -> Prop) : P 0 -> P 1 -> P 2 -> forall k, 0 <= k < 3 -> P k.
Proof. intros H0 H1 H2 k Hk. assert (C : k = 0 \/ k = 1 \/ k = 2) by lia. destruct C as [->|[->| ->]]; auto. Qed.
Lemma all_at_get x : forall k, 0 <= k < 3 -> vget (all_at (NA := RNum) x) k = IZR x.
Proof. apply axes3; reflexivity. Qed.

Lemma real_hist_request : hist_request 10 real_bins real_bounds real_parts 1 (fun _ _ => half_point) (fun _ _ _ _ => 0) (fun _ _ => [0]) (fst one_pixel) (snd one_pixel).
Proof.
  unfold hist_request. split; [reflexivity|]. split.
  { split; [cbn; lia|]. split; [cbn; lra|]. intros K. discriminate K. }
  split; [cbn; lia|]. split; [cbn; lia|]. split.
  { constructor; [|constructor]. eexists. split; [reflexivity|]. exists [], [("b", cube_at 2 4)]. split; [reflexivity|]. split; [constructor|].
    constructor; [|constructor]. split; [reflexivity|]. cbn [snd]. unfold box_check_init, cube_at, all_at. cbn [bx_w bx_o v0 v1 v2].
    assert (O : outside (ND := RNum) (nofZ 2) 10%R = false).
    { unfold outside. cbn [nofZ nleb nltb RNum]. destruct (Raux.Rle_bool_spec 10 2), (Raux.Rlt_bool_spec 2 0); cbn; auto; lra. }
    rewrite O. cbn [nofZ nleb nltb RNum]. destruct (Raux.Rle_bool_spec 4 0); [lra|]. reflexivity. }
  split.
  { constructor; [|constructor]. intros k Hk. cbn [snd bx_o bx_w cube_at]. rewrite !all_at_get by lia. lra. }
  split; [lia|]. split; [intros; unfold unit_cube, half_point; cbn; lra|]. split; [intros; lia|]. split; [intros; apply Permutation_refl|].
  split.
  { split; [cbn; lra|]. intros k Hk. cbn [one_pixel fst hg_pixels hg_span hg_pixelWidth hg_box hg_origin]. rewrite !all_at_get by lia.
    replace (vget (V3 1 1 1) k) with 1 by (revert k Hk; apply axes3; reflexivity). cbn [nofZ RNum]. split; [lia|]. split; lra. }
  split; [reflexivity|]. split; [reflexivity|]. intros K. discriminate K.
Qed.
Lemma real_hist_sheet : hist_sheet_ok 10 1 8 (point_sheet 1 1 8 3).
Proof.
  unfold hist_sheet_ok, point_sheet. cbn [hf_hd hf_count hf_xs hs_total hs_origin hs_width hs_seg hs_grid].
  split; [reflexivity|]. split; [intros k Hk; rewrite !all_at_get by lia; lra|].
  split; [lia|]. split; [reflexivity|]. split; [lia|]. split; [lia|]. split; [reflexivity|]. split; [lia|].
  apply Forall_forall. intros v Hv. apply repeat_spec in Hv. subst v. intros k Hk. rewrite all_at_get by lia. lra.
Qed.
Lemma real_meets : sheet_meets (hf_hd (point_sheet 1 1 8 3)) (all_at 2) (all_at 4).
Proof.
  intros k Hk. cbv zeta. unfold point_sheet. cbn [hf_hd hs_total hs_origin hs_width]. rewrite !all_at_get by lia.
  split; [|intros [K _]; lra]. exists 3%R. unfold strictly_in. split; exists 0; cbn; lra.
Qed.
Lemma point_counts : counts_of (hist_job [("a", point_sheet 1 1 8 3)] (five_bins "Density" 5 1) [("b", cube_at 2 4)]) = Ok [("out/b.txt", [0; 0; 0; 6; 0])].
Proof. vm_compute. reflexivity. Qed.
Lemma real_accepted : accepted_hist (ND := RNum) real_bins = Ok true.
Proof.
  unfold accepted_hist, real_bins, five_bins. cbn [hc_input hc_output hc_scale hc_min hc_max hc_subsample]. change (hist_valid_subsample 1) with (Ok (A := bool) true).
  cbn [bind String.eqb negb andb orb]. unfold valid_hist_min, valid_hist_max. cbn -[Raux.Rlt_bool].
  destruct (Raux.Rlt_bool_spec 0 10); [reflexivity|lra].
Qed.
Lemma real_good : good_config 8 Spec.RenderMainEx.four_pixels Spec.RenderMainEx.real_config.
Proof. pose proof Proof.RenderMainX.real_input as H. apply proj2, proj2, proj2, proj2, proj2, proj2, proj1 in H. now inversion H. Qed.

(** ** What is accepted *)
Lemma rlt_bool_iff a b : Raux.Rlt_bool a b = true <-> (a < b)%R.
Proof. case Raux.Rlt_bool_spec; intros; split; intros; try lra; auto; discriminate. Qed.

Lemma hist_min_iff scale mn mx : valid_hist_min (ND := RNum) scale mn mx = true <->
  (mn < mx)%R /\ (scale = "Linear"%string \/ scale = "Log"%string /\ (0 < mn)%R).
Proof.
  unfold valid_hist_min. rewrite andb_true_iff, orb_true_iff, andb_true_iff, !String.eqb_eq. cbn [nltb nofZ RNum].
  rewrite !rlt_bool_iff. tauto.
Qed.
Lemma hist_max_iff scale mn mx : valid_hist_max (ND := RNum) scale mn mx = true <->
  (mn < mx)%R /\ (scale = "Linear"%string \/ scale = "Log"%string /\ (0 < mx)%R).
Proof.
  unfold valid_hist_max. rewrite andb_true_iff, orb_true_iff, andb_true_iff, !String.eqb_eq. cbn [nltb nofZ RNum].
  rewrite !rlt_bool_iff. tauto.
Qed.

Theorem accepted_hist_iff (con : hist_config R) : exists b, accepted_hist (ND := RNum) con = Ok b /\
  (b = true <-> hc_input con <> ""%string /\ hc_output con <> ""%string /\ power_of_two (hc_subsample con) /\
     (hc_min con < hc_max con)%R /\ (hc_scale con = "Linear"%string \/ hc_scale con = "Log"%string /\ (0 < hc_min con)%R)).
Proof.
  unfold accepted_hist. destruct (hist_valid_ok (hc_subsample con)) as (b & -> & Hb). cbn [bind]. eexists. split; [reflexivity|].
  rewrite !andb_true_iff, orb_true_iff, !negb_true_iff, !String.eqb_neq, !String.eqb_eq, hist_min_iff, hist_max_iff, Hb.
  split; [tauto|]. intros (A & B & C & D & E). repeat split; auto; try tauto. destruct E as [E|[E F]]; [left; exact E|right; split; [exact E|lra]].
Qed.

Theorem accepted_render_iff con : accepted_render con = true <->
  0 < rc_subsample con /\ (0 < rc_imagePixels con \/ 0 < rc_totalPixels con) /\
  (0 < rc_particles con \/ 0 < rc_depth con \/ rc_auto con = true).
Proof.
  unfold accepted_render. rewrite !andb_true_iff, !orb_true_iff, !Z.gtb_lt. tauto.
Qed.
