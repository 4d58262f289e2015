(** Velocity images of sheets, independently of buffers, workers and scaled
    coordinates: an image cell collects the velocities of the sample points that
    lie in it, modulo the period. *)
From Coq Require Import ZArith List Reals Bool String.
From Verif Require Import Base.Res Base.Num Model.Geom Model.GridDeriv Model.Density Model.Box Model.Render Model.SheetIO Model.Manager.
From Verif Require Import Spec.Geometry Spec.GeomDefs Spec.Fields Spec.FieldDefs Spec.Work Spec.Deposits Spec.Renders.
Import ListNotations.
Open Scope R_scope.

(** The velocities of the sample points of one tetrahedron that lie in cell [c]:
    the corners' velocities mixed as their positions are. *)
Definition use_velocities (L : R) (b : rbox R) (X V : list (vec3 R)) (n skip : Z) (p : use) (c : cell) : list (vec3 R) :=
  map (sample V n skip (fst (fst p)) (snd (fst p)))
      (filter (fun u => seen L b (sample X n skip (fst (fst p)) (snd (fst p)) u) c) (snd p)).
(** ... of all tetrahedra of a sheet, and of all sheets. *)
Definition sheet_velocities (L : R) (skip : Z) (b : rbox R) (s : sheet_file R R * list (vec3 R)) (ps : list use) (c : cell) : list (vec3 R) :=
  flat_map (fun p => use_velocities L b (snd s) (sf_vs (fst s)) (s_seg (sf_hd (fst s)) + 1) skip p c) ps.
Fixpoint cell_velocities (L : R) (skip : Z) (b : rbox R) (l : list (sheet_file R R * list (vec3 R))) (us : list (list use)) (c : cell) : list (vec3 R) :=
  match l, us with
  | s :: l, ps :: us => sheet_velocities L skip b s ps c ++ cell_velocities L skip b l us c
  | _, _ => []
  end.

(** Sums over lists of vectors. *)
Definition total_of (f : vec3 R -> R) (l : list (vec3 R)) : R := fold_right (fun v s => f v + s) 0 l.
(** What a point with velocity [v] adds to a component of its cell; [d] is the depth
    of the box along the projection axis. *)
Definition gives (d : Z) (q : component) (v : vec3 R) : R :=
  match q with
  | VelX => v0 v / IZR d | VelY => v1 v / IZR d | VelZ => v2 v / IZR d
  | Number => 1
  | Value => 0
  end.

(** A sheet with velocities. *)
Definition vel_sheet_ok (L : R) (skip : Z) (f : sheet_file R R) (X : list (vec3 R)) : Prop :=
  sheet_ok L skip f X /\ zlen (sf_vs f) = s_grid (sf_hd f).
(** A box whose image has vectors and counts. *)
Definition vel_box_ok (L : R) (b : rbox R) : Prop :=
  (4 <= rb_cells b)%Z /\ rb_cw b * IZR (rb_cells b) = L /\ (0 < rb_pts b)%Z /\
  (forall a, In a [0; 1; 2]%Z -> 0 <= vget (origin (rb_cb b)) a < rb_cells b /\ 0 < vget (width (rb_cb b)) a <= rb_cells b)%Z /\
  match rb_proj b with Some p => (0 <= p <= 2)%Z | None => True end /\
  sized (rb_vals b) (volume (image_size b)) /\ is_scalar (rb_vals b) = false.

(** [b'] is the box [b] after the sheets [l] were rendered into it: nothing but
    the image changed, and every cell grew by what the points in it add when each
    tetrahedron of each sheet is sampled once. *)
Definition vel_rendered (L : R) (skip : Z) (units : list (list (vec3 R))) (l : list (sheet_file R R * list (vec3 R))) (b b' : rbox R) : Prop :=
  b' = set_vals b (rb_vals b') /\ sized (rb_vals b') (volume (image_size b)) /\ is_scalar (rb_vals b') = false /\
  exists us, Forall2 (fun s ps => uses_of (s_seg (sf_hd (fst s))) skip units ps) l us /\
    forall q c, in_grid (image_size b) c ->
      comp q (rb_vals b') (cell_index (image_size b) c) =
      comp q (rb_vals b) (cell_index (image_size b) c) + total_of (gives (box_depth b) q) (cell_velocities L skip b l us c).

(** An image with nothing in it. *)
Definition empty_vectors (b : rbox R) : Prop :=
  let n := Z.to_nat (volume (image_size b)) in rb_vals b = Vector (repeat (V3 0 0 0) n) (repeat 0%Z n).
(** The mean of the velocities in a list. *)
Definition mean_of (f : vec3 R -> R) (l : list (vec3 R)) : R := total_of f l / IZR (zlen l).
(** The three images [out] written for [b']: where no point lies 0, and elsewhere
    the mean velocity of the points over the depth of the box. *)
Definition mean_images (L : R) (skip : Z) (units : list (list (vec3 R))) (l : list (sheet_file R R * list (vec3 R))) (b : rbox R) (out : vec3 (list R)) : Prop :=
  exists us, Forall2 (fun s ps => uses_of (s_seg (sf_hd (fst s))) skip units ps) l us /\
    forall c, in_grid (image_size b) c ->
      let k := Z.to_nat (cell_index (image_size b) c) in
      let vs := cell_velocities L skip b l us c in
      let pixel f := match vs with [] => 0 | _ => mean_of f vs / IZR (box_depth b) end in
      nth k (v0 out) 0 = pixel v0 /\ nth k (v1 out) 0 = pixel v1 /\ nth k (v2 out) 0 = pixel v2.

(** All particles of a sheet move alike. *)
Definition all_move (v : vec3 R) (f : sheet_file R R) : Prop := Forall (eq v) (sf_vs f).
(** Where no point lies the images are 0, elsewhere they show [v] over the depth. *)
Definition shows (L : R) (skip : Z) (units : list (list (vec3 R))) (l : list (sheet_file R R * list (vec3 R))) (b : rbox R) (v : vec3 R) (out : vec3 (list R)) : Prop :=
  exists us, Forall2 (fun s ps => uses_of (s_seg (sf_hd (fst s))) skip units ps) l us /\
    forall c, in_grid (image_size b) c ->
      let k := Z.to_nat (cell_index (image_size b) c) in
      let here := match cell_velocities L skip b l us c with [] => 0 | _ => 1 end in
      let d := IZR (box_depth b) in
      nth k (v0 out) 0 = here * v0 v / d /\ nth k (v1 out) 0 = here * v1 v / d /\ nth k (v2 out) 0 = here * v2 v / d.
