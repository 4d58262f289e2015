(** Properties C170-C173: what renderMain writes for velocities and derivatives. *)
From Coq Require Import ZArith String List Bool Reals Permutation.
From Verif Require Import Base.Res Base.Num Model.Geom Model.GridDeriv Model.Config Model.Density Model.Box Model.Render Model.SheetIO Model.Main Model.Manager Model.RenderMain.
From Verif Require Import Spec.Geometry Spec.GeomDefs Spec.Fields Spec.FieldDefs Spec.Work Spec.Renders Spec.Segments Spec.ManagerEx Spec.RenderMains Spec.RenderMainEx Spec.VelRenders Spec.VelEx Spec.Writtens Spec.WrittenEx.
From Verif Require Import Proof.WrittenP Proof.WrittenX.
Import ListNotations.
Open Scope Z_scope.
Local Notation written_mainR := (written_main (ND := RNum) (NF := RNum) (fun x => x) (fun x => x)).

(** C170: false of the code: if one box has fewer than 30 pixels the run panics. *)
Theorem C170_short_refuted : forall L con names bounds parts q workers rnd choose order fs sheet X files grid,
  vel_main_input L con names bounds parts q workers rnd choose order fs sheet X files grid -> q = Velocity ->
  (exists c, In c (concat parts) /\ forall b, pixels_of L con q (snd c) b -> volume (image_size b) < 30) ->
  written_mainR fs workers rnd choose order files con names bounds = Panic.
Proof. exact velocity_short_files. Qed.
Print Assumptions C170_short_refuted.

(** What holds: with at least 30 pixels in every image each pixel is the mean
    velocity of the points in it over the depth (see C168 for projections). *)
Theorem C170_velocity_partial : forall L con names bounds parts q workers rnd choose order fs sheet X files grid,
  vel_main_input L con names bounds parts q workers rnd choose order fs sheet X files grid -> q = Velocity ->
  (forall c b, In c (concat parts) -> pixels_of L con q (snd c) b -> 30 <= volume (image_size b)) ->
  exists out, written_mainR fs workers rnd choose order files con names bounds = Ok out /\
  Forall2 (fun c o => exists b im, pixels_of L con q (snd c) b /\
     mean_images L (rc_subsample con) (unit_pool rnd (rb_pts b)) (map (fun file => (sheet file, X file)) files) b im /\
     o = (output_path names (fst c), (fst (output con (snd c) b), Triple im))) (concat parts) out.
Proof. exact velocity_files. Qed.
Print Assumptions C170_velocity_partial.

(** Six pixels along each axis, and two. *)
Example C170_example : wind_input "Velocity" Velocity 0 (11 / 2) /\ wind_input "Velocity" Velocity 0 (3 / 2) /\
  (forall c b, In c (concat [wind_bounds 0 (11 / 2)]) -> pixels_of 8 eight_pixels Velocity (snd c) b -> wide 5 b /\ 30 <= volume (image_size b)) /\
  (forall b, pixels_of 8 eight_pixels Velocity (wind_cube 0 (3 / 2)) b -> volume (image_size b) < 30 /\ thin b 0 /\ thin b 2).
Proof. exact (conj (velocity_input 0 _ no_pixels wide_enough) (conj (velocity_input 0 _ no_pixels short_enough) (conj (six_wide _ 0) (two_thin _ 0)))). Qed.

(** C171: false of the code: with a box of fewer than three pixels along an axis, or
    of three or four along x or y which do not cover the simulation, nothing is
    written after everything has been rendered. *)
Theorem C171_thin_refuted : forall L con names bounds parts q workers rnd choose order fs sheet X files grid,
  main_input L con names bounds parts q workers rnd choose order fs sheet X files grid -> q = DensityGradient ->
  (exists c a, In c (concat parts) /\ In a [0; 1; 2] /\ forall b, pixels_of L con q (snd c) b -> thin b a) ->
  forall out, written_mainR fs workers rnd choose order files con names bounds <> Ok out.
Proof. exact gradient_thin. Qed.
Print Assumptions C171_thin_refuted.

(** What holds: with at least five pixels along each axis, every component of every
    pixel is the slope of the density along its axis, but for the z component next to
    the faces across z, which is the slope along the list.  Missing: those pixels, and
    z axes of three or four pixels. *)
Theorem C171_gradient_partial : forall L con names bounds parts q workers rnd choose order fs sheet X files grid,
  main_input L con names bounds parts q workers rnd choose order fs sheet X files grid -> q = DensityGradient ->
  (forall c b, In c (concat parts) -> pixels_of L con q (snd c) b -> wide 5 b) ->
  exists out, written_mainR fs workers rnd choose order files con names bounds = Ok out /\
  Forall2 (fun c o => exists b b' im, pixels_of L con q (snd c) b /\
     rendered L (rc_subsample con) (unit_pool rnd (rb_pts b)) (map (fun file => (sheet file, X file)) files) b b' /\
     o = (output_path names (fst c), (fst (output con (snd c) b), Triple im)) /\
     forall a k, In a [0; 1; 2] -> in_grid (image_size b) k -> pixel b (vget im a) k = taken b (density_of b') a k) (concat parts) out.
Proof. exact gradient_files. Qed.
Print Assumptions C171_gradient_partial.

Example C171_example : still_input "DensityGradient" DensityGradient 0 (11 / 2) /\ still_input "DensityGradient" DensityGradient 0 (3 / 2) /\
  (forall c b, In c (concat [wind_bounds 0 (11 / 2)]) -> pixels_of 8 eight_pixels DensityGradient (snd c) b -> wide 5 b /\ 30 <= volume (image_size b)) /\
  (forall b, pixels_of 8 eight_pixels DensityGradient (wind_cube 0 (3 / 2)) b -> volume (image_size b) < 30 /\ thin b 0 /\ thin b 2) /\
  (forall b, pixels_of 8 eight_pixels DensityGradient (wind_cube 0 (7 / 2)) b -> thin b 1).
Proof. exact (conj (still_in 0 _ no_pixels wide_enough) (conj (still_in 0 _ no_pixels short_enough) (conj (six_wide _ 0) (conj (two_thin _ 0) (four_thin _ 0))))). Qed.

(** C172: false of the code for thin boxes, as C171. *)
Theorem C172_thin_refuted : forall L con names bounds parts q workers rnd choose order fs sheet X files grid,
  vel_main_input L con names bounds parts q workers rnd choose order fs sheet X files grid -> In q [VelocityDivergence; VelocityCurl] ->
  (exists c a, In c (concat parts) /\ In a [0; 1; 2] /\ forall b, pixels_of L con q (snd c) b -> thin b a) ->
  forall out, written_mainR fs workers rnd choose order files con names bounds <> Ok out.
Proof. exact vel_thin. Qed.
Print Assumptions C172_thin_refuted.

(** What holds: the curl of the mean velocities, where next to the faces across z the
    slopes along z are those along the list.  Missing: those pixels. *)
Theorem C172_curl_partial : forall L con names bounds parts q workers rnd choose order fs sheet X files grid,
  vel_main_input L con names bounds parts q workers rnd choose order fs sheet X files grid -> q = VelocityCurl ->
  (forall c b, In c (concat parts) -> pixels_of L con q (snd c) b -> wide 5 b) ->
  exists out, written_mainR fs workers rnd choose order files con names bounds = Ok out /\
  Forall2 (fun c o => exists b m im, pixels_of L con q (snd c) b /\
     mean_images L (rc_subsample con) (unit_pool rnd (rb_pts b)) (map (fun file => (sheet file, X file)) files) b m /\
     o = (output_path names (fst c), (fst (output con (snd c) b), Triple im)) /\
     forall k, in_grid (image_size b) k ->
       pixel b (v0 im) k = (taken b (v2 m) 1%Z k - taken b (v1 m) 2%Z k)%R /\
       pixel b (v1 im) k = (taken b (v0 m) 2%Z k - taken b (v2 m) 0%Z k)%R /\
       pixel b (v2 im) k = (taken b (v1 m) 0%Z k - taken b (v0 m) 1%Z k)%R) (concat parts) out.
Proof. exact curl_files. Qed.
Print Assumptions C172_curl_partial.

Example C172_example : wind_input "VelocityCurl" VelocityCurl 0 (11 / 2) /\ wind_input "VelocityCurl" VelocityCurl 0 (3 / 2) /\
  (forall c b, In c (concat [wind_bounds 0 (11 / 2)]) -> pixels_of 8 eight_pixels VelocityCurl (snd c) b -> wide 5 b /\ 30 <= volume (image_size b)).
Proof. exact (conj (curl_input 0 _ no_pixels wide_enough) (conj (curl_input 0 _ no_pixels short_enough) (six_wide _ 0))). Qed.

(** C173: false of the code: wherever the x and the y component of the mean velocity
    change differently along y, what is written is not the divergence. *)
Theorem C173_divergence_refuted : forall L con names bounds parts q workers rnd choose order fs sheet X files grid,
  vel_main_input L con names bounds parts q workers rnd choose order fs sheet X files grid -> q = VelocityDivergence ->
  (forall c b, In c (concat parts) -> pixels_of L con q (snd c) b -> wide 5 b) ->
  exists out, written_mainR fs workers rnd choose order files con names bounds = Ok out /\
  Forall2 (fun c o => exists b m im, pixels_of L con q (snd c) b /\
     mean_images L (rc_subsample con) (unit_pool rnd (rb_pts b)) (map (fun file => (sheet file, X file)) files) b m /\
     o = (output_path names (fst c), (fst (output con (snd c) b), Plain im)) /\
     forall k, inner b k -> slope b (v0 m) 1%Z k <> slope b (v1 m) 1%Z k ->
       pixel b im k <> (slope b (v0 m) 0%Z k + slope b (v1 m) 1%Z k + slope b (v2 m) 2%Z k)%R) (concat parts) out.
Proof. exact divergence_wrong. Qed.
Print Assumptions C173_divergence_refuted.

(** What is written instead, in every pixel. *)
Theorem C173_divergence_partial : forall L con names bounds parts q workers rnd choose order fs sheet X files grid,
  vel_main_input L con names bounds parts q workers rnd choose order fs sheet X files grid -> q = VelocityDivergence ->
  (forall c b, In c (concat parts) -> pixels_of L con q (snd c) b -> wide 5 b) ->
  exists out, written_mainR fs workers rnd choose order files con names bounds = Ok out /\
  Forall2 (fun c o => exists b m im, pixels_of L con q (snd c) b /\
     mean_images L (rc_subsample con) (unit_pool rnd (rb_pts b)) (map (fun file => (sheet file, X file)) files) b m /\
     o = (output_path names (fst c), (fst (output con (snd c) b), Plain im)) /\
     forall k, in_grid (image_size b) k -> pixel b im k = (taken b (v0 m) 0%Z k + taken b (v0 m) 1%Z k + taken b (v2 m) 2%Z k)%R) (concat parts) out.
Proof. exact divergence_files. Qed.
Print Assumptions C173_divergence_partial.

(** In this run the particles in one pixel move with velocity (3, 5, 7), so that the
    two components change differently along y. *)
Example C173_example : wind_input "VelocityDivergence" VelocityDivergence 7 (11 / 2) /\
  (forall c b, In c (concat [wind_bounds 7 (11 / 2)]) -> pixels_of 8 eight_pixels VelocityDivergence (snd c) b -> wide 5 b /\ 30 <= volume (image_size b)) /\
  (forall b m, pixels_of 8 eight_pixels VelocityDivergence (wind_cube 7 (11 / 2)) b ->
     mean_images 8 1 (unit_pool (fun _ _ => quarter) (rb_pts b)) [(wind_sheet, sf_xs wind_sheet)] b m ->
     inner b (2, 3, 2) /\ slope b (v0 m) 1 (2, 3, 2) <> slope b (v1 m) 1 (2, 3, 2)).
Proof. exact (conj (divergence_input 7 _ seven_pixels wide_enough) (conj (six_wide _ 7) (slopes_differ _))). Qed.
