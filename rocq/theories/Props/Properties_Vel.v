(** Properties C167-C169: runs that render velocities. *)
From Coq Require Import ZArith String List Bool Reals Permutation.
From Verif Require Import Base.Res Base.Num Model.Geom Model.GridDeriv Model.Density Model.Box Model.Render Model.SheetIO Model.Manager.
From Verif Require Import Spec.Geometry Spec.GeomDefs Spec.Fields Spec.FieldDefs Spec.Work Spec.Deposits Spec.Workspace Spec.Renders Spec.ManagerEx Spec.VelRenders Spec.VelEx.
From Verif Require Import Proof.ManagerX Proof.VelP Proof.VelImages Proof.VelX.
Import ListNotations.
Open Scope Z_scope.

(** C167 *)
Theorem C167_velocity_job : forall L skip q workers rnd choose order fs (sheet : string -> sheet_file R R) X files boxes grid,
  files <> [] -> boxes <> [] -> 1 <= workers -> requires_velocity q = Ok true ->
  (forall bi j, unit_cube (rnd bi j)) -> (forall k ri id j, 0 <= choose k ri id j < 64) ->
  (forall k ri, Permutation (order k ri) (zseq workers)) ->
  Forall (vel_box_ok L) boxes ->
  (forall file, In file files -> fs file = Some (sheet file) /\ vel_sheet_ok L skip (sheet file) (X file) /\
     s_grid (sf_hd (sheet file)) = grid /\
     forall b, In b boxes -> faces_ok L skip b (sheet file) (X file) (unit_pool rnd (rb_pts b))) ->
  exists out, render_job (ND := RNum) (NF := RNum) (fun x => x) (fun x => x) fs workers rnd choose order files boxes q skip = Ok out /\
    Forall2 (fun b b' => vel_rendered L skip (unit_pool rnd (rb_pts b)) (map (fun file => (sheet file, X file)) files) b b') boxes out.
Proof. exact job_ok. Qed.
Print Assumptions C167_velocity_job.

Example C167_example : vel_sheet_ok 8 1 wind_sheet (sf_xs wind_sheet) /\ vel_box_ok 8 wind_box /\ vel_box_ok 8 wind_slab /\ unit_cube quarter /\
  faces_ok 8 1 wind_box wind_sheet (sf_xs wind_sheet) (unit_pool (fun _ _ => quarter) 1) /\
  faces_ok 8 1 wind_slab wind_sheet (sf_xs wind_sheet) (unit_pool (fun _ _ => quarter) 1).
Proof.
  split; [exact wind_sheet_ok|]. split; [apply wind_box_ok|]. split; [apply wind_slab_ok|]. split; [exact quarter_in|].
  split; [apply wind_faces|apply slab_faces].
Qed.

(** C168: false of the code in projections: if all particles move alike, no pixel
    with points in it shows their velocity. *)
Theorem C168_projection_refuted : forall L skip q workers rnd choose order fs (sheet : string -> sheet_file R R) X files boxes grid v,
  files <> [] -> boxes <> [] -> 1 <= workers -> requires_velocity q = Ok true ->
  (forall bi j, unit_cube (rnd bi j)) -> (forall k ri id j, 0 <= choose k ri id j < 64) ->
  (forall k ri, Permutation (order k ri) (zseq workers)) ->
  Forall (fun b => vel_box_ok L b /\ empty_vectors b /\ 30 <= volume (image_size b)) boxes ->
  (forall file, In file files -> fs file = Some (sheet file) /\ vel_sheet_ok L skip (sheet file) (X file) /\ all_move v (sheet file) /\
     s_grid (sf_hd (sheet file)) = grid /\
     forall b, In b boxes -> faces_ok L skip b (sheet file) (X file) (unit_pool rnd (rb_pts b))) ->
  v0 v <> 0%R ->
  exists bs, render_job (ND := RNum) (NF := RNum) (fun x => x) (fun x => x) fs workers rnd choose order files boxes q skip = Ok bs /\
    Forall2 (fun b b' => exists vecs num out, rb_vals b' = Vector vecs num /\
      finalized_velocity (D := R) (F := R) (NF := RNum) (fun x => x) vecs num = Ok out /\
      (2 <= box_depth b -> exists us,
        Forall2 (fun s ps => uses_of (s_seg (sf_hd (fst s))) skip (unit_pool rnd (rb_pts b)) ps) (map (fun file => (sheet file, X file)) files) us /\
        forall c, in_grid (image_size b) c -> cell_velocities L skip b (map (fun file => (sheet file, X file)) files) us c <> [] ->
          nth (Z.to_nat (cell_index (image_size b) c)) (v0 out) 0%R <> v0 v)) boxes bs.
Proof. exact projection_wrong. Qed.
Print Assumptions C168_projection_refuted.

(** What holds: pixels are the mean velocity of the points in them over the depth
    of the box, which is 1 for three dimensional images. *)
Theorem C168_images_partial : forall L skip q workers rnd choose order fs (sheet : string -> sheet_file R R) X files boxes grid,
  files <> [] -> boxes <> [] -> 1 <= workers -> requires_velocity q = Ok true ->
  (forall bi j, unit_cube (rnd bi j)) -> (forall k ri id j, 0 <= choose k ri id j < 64) ->
  (forall k ri, Permutation (order k ri) (zseq workers)) ->
  Forall (fun b => vel_box_ok L b /\ empty_vectors b /\ 30 <= volume (image_size b)) boxes ->
  (forall file, In file files -> fs file = Some (sheet file) /\ vel_sheet_ok L skip (sheet file) (X file) /\
     s_grid (sf_hd (sheet file)) = grid /\
     forall b, In b boxes -> faces_ok L skip b (sheet file) (X file) (unit_pool rnd (rb_pts b))) ->
  exists bs, render_job (ND := RNum) (NF := RNum) (fun x => x) (fun x => x) fs workers rnd choose order files boxes q skip = Ok bs /\
    Forall2 (fun b b' => exists vecs num out, rb_vals b' = Vector vecs num /\
      finalized_velocity (D := R) (F := R) (NF := RNum) (fun x => x) vecs num = Ok out /\
      mean_images L skip (unit_pool rnd (rb_pts b)) (map (fun file => (sheet file, X file)) files) b out) boxes bs.
Proof. exact images_ok. Qed.
Print Assumptions C168_images_partial.

(** A slab of depth two over particles with velocity (3, 5, 7). *)
Example C168_example : exists b' vecs num out, render_job (ND := RNum) (NF := RNum) (fun x => x) (fun x => x) (fun _ => Some wind_sheet) 1
    (fun _ _ => quarter) (fun _ _ _ _ => 0) (fun _ _ => [0]) ["sheet"%string] [wind_slab] Velocity 1 = Ok [b'] /\
    rb_vals b' = Vector vecs num /\ finalized_velocity (D := R) (F := R) (NF := RNum) (fun x => x) vecs num = Ok out /\
    nth 9 (v0 out) 0%R = (3 / 2)%R /\ nth 9 (v1 out) 0%R = (5 / 2)%R /\ nth 9 (v2 out) 0%R = (7 / 2)%R.
Proof. exact (wind_run wind_slab (1, 1, 0) (or_intror (conj eq_refl eq_refl))). Qed.

(** C169 *)
Theorem C169_uniform : forall L skip q workers rnd choose order fs (sheet : string -> sheet_file R R) X files boxes grid v,
  files <> [] -> boxes <> [] -> 1 <= workers -> requires_velocity q = Ok true ->
  (forall bi j, unit_cube (rnd bi j)) -> (forall k ri id j, 0 <= choose k ri id j < 64) ->
  (forall k ri, Permutation (order k ri) (zseq workers)) ->
  Forall (fun b => vel_box_ok L b /\ empty_vectors b /\ 30 <= volume (image_size b)) boxes ->
  (forall file, In file files -> fs file = Some (sheet file) /\ vel_sheet_ok L skip (sheet file) (X file) /\ all_move v (sheet file) /\
     s_grid (sf_hd (sheet file)) = grid /\
     forall b, In b boxes -> faces_ok L skip b (sheet file) (X file) (unit_pool rnd (rb_pts b))) ->
  exists bs, render_job (ND := RNum) (NF := RNum) (fun x => x) (fun x => x) fs workers rnd choose order files boxes q skip = Ok bs /\
    Forall2 (fun b b' => exists vecs num out, rb_vals b' = Vector vecs num /\
      finalized_velocity (D := R) (F := R) (NF := RNum) (fun x => x) vecs num = Ok out /\
      shows L skip (unit_pool rnd (rb_pts b)) (map (fun file => (sheet file, X file)) files) b v out) boxes bs.
Proof. exact uniform_ok. Qed.
Print Assumptions C169_uniform.

Example C169_example : exists b' vecs num out, render_job (ND := RNum) (NF := RNum) (fun x => x) (fun x => x) (fun _ => Some wind_sheet) 1
    (fun _ _ => quarter) (fun _ _ _ _ => 0) (fun _ _ => [0]) ["sheet"%string] [wind_box] Velocity 1 = Ok [b'] /\
    rb_vals b' = Vector vecs num /\ finalized_velocity (D := R) (F := R) (NF := RNum) (fun x => x) vecs num = Ok out /\
    nth 0 (v0 out) 0%R = (3 / 1)%R /\ nth 0 (v1 out) 0%R = (5 / 1)%R /\ nth 0 (v2 out) 0%R = (7 / 1)%R.
Proof. exact (wind_run wind_box (0, 0, 0) (or_introl (conj eq_refl eq_refl))). Qed.
