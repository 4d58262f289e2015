(** What a configuration asks of an image. *)
From Coq Require Import ZArith String List Reals Bool Permutation.
From Verif Require Import Base.Res Base.ResFacts Model.Geom Model.GridDeriv Model.Config Model.Density Model.Box Model.Render Model.Manager Model.Main Model.RenderMain Spec.GeomDefs Spec.Fields Spec.Work Spec.Renders Spec.Segments.
Import ListNotations.
Open Scope R_scope.

(** The number of a projection axis. *)
Definition axis_index (axis : string) : option Z :=
  if String.eqb axis "X" then Some 0%Z else if String.eqb axis "Y" then Some 1%Z else if String.eqb axis "Z" then Some 2%Z else None.
Definition valid_axis (axis : string) : Prop := In axis [""; "X"; "Y"; "Z"]%string.
(** Quantities that can be summed along an axis. *)
Definition projectable (q : Z) : bool := (q =? Density)%Z || (q =? Velocity)%Z.

(** [b] is an empty image of the configured box: its cells are those that the
    closed box meets, and it is projected if that is asked for and possible. *)
Definition shows (L : R) (cells pts q : Z) (config : box_config R) (b : rbox R) : Prop :=
  rb_cells b = cells /\ rb_pts b = pts /\ rb_cw b = L / IZR cells /\
  (forall a, In a [0; 1; 2]%Z ->
     let h := rb_cw b in let first := vget (origin (rb_cb b)) a in let n := vget (width (rb_cb b)) a in
     IZR first * h <= vget (bx_o config) a < IZR (first + 1) * h /\
     IZR (first + n - 1) * h <= vget (bx_o config) a + vget (bx_w config) a < IZR (first + n) * h) /\
  rb_proj b = (if projectable q then axis_index (bx_axis config) else None) /\
  let n := Z.to_nat (volume (image_size b)) in
  rb_vals b = match requires_velocity q with Ok true => Vector (repeat (V3 0 0 0) n) (repeat 0%Z n) | _ => Scalar (repeat 0 n) end.

(** A configured box that starts in the simulation and is at least one cell
    narrower, on a grid of at least four cells. *)
Definition good_config (L : R) (con : render_config) (config : box_config R) : Prop :=
  valid_axis (bx_axis config) /\
  exists cells pts, box_numbers con config L = Ok (cells, pts) /\ (4 <= cells)%Z /\
    forall a, In a [0; 1; 2]%Z -> 0 <= vget (bx_o config) a < L /\ 0 < vget (bx_w config) a <= IZR (cells - 1) * (L / IZR cells).

(** The sections of a bounds file as boxes, if all of them are accepted. *)
Definition accepted_sections (L : R) (b : bounds_file R) (l : list (string * box_config R)) : Prop :=
  exists l1 l2, l = l1 ++ l2 /\
  Forall2 (fun s c => fst c = fst s /\ exists ball, ball_check_init (snd s) L = Some ball /\ snd c = ball_box ball L) (bf_balls b) l1 /\
  Forall2 (fun s c => fst c = fst s /\ box_check_init (snd s) L = Some (snd c)) (bf_boxes b) l2.

(** What is asked of a run: readable bounds files whose boxes are good, and
    complete sheets of a simulation of width [L].  [parts] are the boxes of each
    bounds file. *)
Definition main_input (L : R) (con : render_config) (names : render_names) (bounds : list (option (bounds_file R))) (parts : list (list (string * box_config R)))
  (q workers : Z) (rnd : Z -> Z -> vec3 R) (choose : Z -> Z -> Z -> Z -> Z) (order : Z -> Z -> list Z) (fs : string -> option (sheet_file R R))
  (sheet : string -> sheet_file R R) (X : string -> list (vec3 R)) (files : list string) (grid : Z) : Prop :=
  0 < L /\ files <> [] /\ accepted_render con = true /\
  (rn_quantity names = "Density"%string /\ q = Density \/ rn_quantity names = "DensityGradient"%string /\ q = DensityGradient) /\
  Forall2 (fun b l => exists f, b = Some f /\ accepted_sections L f l) bounds parts /\
  concat parts <> [] /\ Forall (fun c => good_config L con (snd c)) (concat parts) /\
  (1 <= workers)%Z /\ (forall bi j, unit_cube (rnd bi j)) /\ (forall k ri id j, (0 <= choose k ri id j < 64)%Z) /\
  (forall k ri, Permutation (order k ri) (zseq workers)) /\
  (forall file, In file files -> fs file = Some (sheet file) /\ sheet_ok L (rc_subsample con) (sheet file) (X file) /\
     s_grid (sf_hd (sheet file)) = grid /\
     forall c cells pts b, In c (concat parts) -> box_numbers con (snd c) L = Ok (cells, pts) -> shows L cells pts q (snd c) b ->
       faces_ok L (rc_subsample con) b (sheet file) (X file) (unit_pool rnd (rb_pts b))).

(** The mean of the values of an image. *)
Definition mean_of (c : contents R) : R := match c with Scalar v => fold_right Rplus 0 v / IZR (zlen v) | _ => 0 end.

(** A box that starts in the first cell and ends in the last one along each axis. *)
Definition spans_all (L : R) (cells : Z) (config : box_config R) : Prop :=
  forall a, In a [0; 1; 2]%Z -> let h := L / IZR cells in
    0 <= vget (bx_o config) a < h /\ L - h <= vget (bx_o config) a + vget (bx_w config) a < L.
