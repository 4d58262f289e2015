(** What renderMain writes: velocities and derivatives. *)
From Coq Require Import ZArith String List Reals Bool Permutation.
From Verif Require Import Base.Res Base.ResFacts Model.Geom Model.GridDeriv Model.Config Model.Density Model.Box Model.Render Model.Manager Model.Main Model.RenderMain Spec.Geometry Spec.GeomDefs Spec.Fields Spec.FieldDefs Spec.Stencils Spec.Work Spec.Renders Spec.Segments Spec.RenderMains Spec.VelRenders.
Import ListNotations.
Open Scope R_scope.

(** As [main_input], for sheets with velocities and the quantities made of them. *)
Definition vel_main_input (L : R) (con : render_config) (names : render_names) (bounds : list (option (bounds_file R))) (parts : list (list (string * box_config R)))
  (q workers : Z) (rnd : Z -> Z -> vec3 R) (choose : Z -> Z -> Z -> Z -> Z) (order : Z -> Z -> list Z) (fs : string -> option (sheet_file R R))
  (sheet : string -> sheet_file R R) (X : string -> list (vec3 R)) (files : list string) (grid : Z) : Prop :=
  0 < L /\ files <> [] /\ accepted_render con = true /\
  In (rn_quantity names, q) [("Velocity"%string, Velocity); ("VelocityDivergence"%string, VelocityDivergence); ("VelocityCurl"%string, VelocityCurl)] /\
  Forall2 (fun b l => exists f, b = Some f /\ accepted_sections L f l) bounds parts /\
  concat parts <> [] /\ Forall (fun c => good_config L con (snd c)) (concat parts) /\
  (1 <= workers)%Z /\ (forall bi j, unit_cube (rnd bi j)) /\ (forall k ri id j, (0 <= choose k ri id j < 64)%Z) /\
  (forall k ri, Permutation (order k ri) (zseq workers)) /\
  (forall file, In file files -> fs file = Some (sheet file) /\ vel_sheet_ok L (rc_subsample con) (sheet file) (X file) /\
     s_grid (sf_hd (sheet file)) = grid /\
     forall c cells pts b, In c (concat parts) -> box_numbers con (snd c) L = Ok (cells, pts) -> RenderMains.shows L cells pts q (snd c) b ->
       faces_ok L (rc_subsample con) b (sheet file) (X file) (unit_pool rnd (rb_pts b))).

(** The cells of the image of a configured box. *)
Definition pixels_of (L : R) (con : render_config) (q : Z) (c : box_config R) (b : rbox R) : Prop :=
  exists cells pts, box_numbers con c L = Ok (cells, pts) /\ RenderMains.shows L cells pts q c b.
(** A box with at least [n] pixels along each axis. *)
Definition wide (n : Z) (b : rbox R) : Prop := forall a, In a [0; 1; 2]%Z -> (n <= vget (width (rb_cb b)) a)%Z.

(** The density of an image. *)
Definition density_of (b : rbox R) : list R := match rb_vals b with Scalar v => v | _ => [] end.
(** The slope of fourth order along [axis] in an unprojected image; an axis along which
    the image covers the whole simulation is closed to a circle. *)
Definition slope (b : rbox R) (vals : list R) (axis : Z) (c : cell) : R :=
  let w := wcell (width (rb_cb b)) in field_slope w 4 (rb_cw b) (rb_cells b =? axis_of axis w)%Z vals axis c.
(** The slope, but next to the faces across axis 2 the one along the list. *)
Definition taken (b : rbox R) (vals : list R) (axis : Z) (c : cell) : R :=
  let w := wcell (width (rb_cb b)) in taken_slope w 4 (rb_cw b) (fun a => rb_cells b =? axis_of a w)%Z vals axis c.
(** Two pixels away from the faces across axis 2. *)
Definition inner (b : rbox R) (c : cell) : Prop :=
  let w := wcell (width (rb_cb b)) in in_grid w c /\ (2 <= axis_of 2 c < axis_of 2 w - 2)%Z.
(** Too few pixels along [a] for the formulas of fourth order. *)
Definition thin (b : rbox R) (a : Z) : Prop :=
  let n := vget (width (rb_cb b)) a in (n < 3 \/ n < 5 /\ a <> 2 /\ rb_cells b <> n)%Z.
Definition pixel (b : rbox R) (vals : list R) (c : cell) : R := at_cell (wcell (width (rb_cb b))) vals c.
