(** Images of sheets, independently of buffers, workers and scaled coordinates:
    an image cell counts the sample points that lie in it, modulo the period. *)
From Coq Require Import ZArith List Reals Bool String Permutation.
From Flocq Require Import Core.Raux.
From Verif Require Import Base.Res Base.Num Model.Geom Model.GridDeriv Model.Box Model.Render Model.SheetIO Model.Manager.
From Verif Require Import Spec.Geometry Spec.GeomDefs Spec.Fields Spec.FieldDefs Spec.Matrix Spec.Work Spec.Deposits.
Import ListNotations.
Open Scope R_scope.

(** The point with barycentric coordinates (u0, u1, u2, 1 - u0 - u1 - u2). *)
Definition mix (u a b c d : vec3 R) : vec3 R :=
  let one f := v0 u * f a + v1 u * f b + v2 u * f c + (1 - v0 u - v1 u - v2 u) * f d in
  V3 (one v0) (one v1) (one v2).

(** Corners of the six tetrahedra of the cube of side [skip] at [c] in a lattice
    with n points along each axis, and the sample point [u] of one of them. *)
Definition lattice_point (X : list (vec3 R)) (n : Z) (c : cell) : vec3 R := nth (Z.to_nat (lattice_index n c)) X zero3.
Definition tetra_corners (X : list (vec3 R)) (n skip : Z) (c : cell) (dir : Z) : vec3 R * vec3 R * vec3 R * vec3 R :=
  (lattice_point X n (cadd c skip (fst (dirs_of dir))), lattice_point X n (cadd c skip (snd (dirs_of dir))),
   lattice_point X n (cadd c skip (V3 1 1 1)%Z), lattice_point X n c).
Definition sample (X : list (vec3 R)) (n skip : Z) (c : cell) (dir : Z) (u : vec3 R) : vec3 R :=
  let '(p, q, r, s) := tetra_corners X n skip c dir in mix u p q r s.

(** The cell of the grid with [cells] cells in the length [L] a coordinate lies in. *)
Definition grid_cell (L : R) (cells : Z) (x : R) : Z := Zfloor (x * IZR cells / L).
(** Cell number k of the periodic grid is cell c of a box that starts at o. *)
Definition cell_is (cells k o c : Z) : bool := ((k - (o + c)) mod cells =? 0)%Z.

(** The size of the image of a box: the last coordinate is 0 in projections. *)
Definition image_size (b : rbox R) : cell :=
  match rb_proj b with
  | None => wcell (width (rb_cb b))
  | Some p => let '(i, j, _) := image_axes p in (vget (width (rb_cb b)) i, vget (width (rb_cb b)) j, 1%Z)
  end.
(** A point at [x] lies in cell [c] of the image; in projections, anywhere
    between the two faces of the box along the projection axis. *)
Definition seen (L : R) (b : rbox R) (x : vec3 R) (c : cell) : bool :=
  let n := rb_cells b in
  let k a := grid_cell L n (vget x a) in
  let o a := vget (origin (rb_cb b)) a in
  let '(x, y, z) := c in
  match rb_proj b with
  | None => cell_is n (k 0%Z) (o 0%Z) x && cell_is n (k 1%Z) (o 1%Z) y && cell_is n (k 2%Z) (o 2%Z) z
  | Some p => let '(i, j, d) := image_axes p in
      cell_is n (k i) (o i) x && cell_is n (k j) (o j) y && ((k d - o d) mod n <? vget (width (rb_cb b)) d)%Z
  end.
(** Depth of the box along the projection axis. *)
Definition box_depth (b : rbox R) : Z :=
  match rb_proj b with None => 1 | Some p => let '(_, _, d) := image_axes p in vget (width (rb_cb b)) d end%Z.

(** One use of a unit buffer: a tetrahedron, given by its cube and its number,
    and the unit buffer it is sampled with. *)
Definition use := ((cell * Z) * list (vec3 R))%type.
Definition hits (L : R) (b : rbox R) (X : list (vec3 R)) (n skip : Z) (p : use) (c : cell) : Z :=
  zlen (filter (fun u => seen L b (sample X n skip (fst (fst p)) (snd (fst p)) u) c) (snd p)).
Definition all_hits L b X n skip (ps : list use) (c : cell) : Z :=
  fold_right Z.add 0%Z (map (fun p => hits L b X n skip p c) ps).
(** Every tetrahedron of the segment is used once, with some unit buffer. *)
Definition uses_of (seg skip : Z) (units : list (list (vec3 R))) (ps : list use) : Prop :=
  Permutation (map fst ps) (list_prod (base_cells (seg / skip) skip) (zseq 6)) /\ Forall (fun p => In (snd p) units) ps.

(** The mass of one sample point in units of the mean mass of a cell. *)
Definition sample_value (b : rbox R) (countWidth skip : Z) : R :=
  (IZR (rb_cells b) / IZR countWidth) ^ 3 * IZR skip ^ 3 / 6 / IZR (rb_pts b) / IZR (box_depth b).

(** [X] is the position [x] moved by periods into the box from [o] of size [w]. *)
Definition unwrapped (L : R) (o w x X : vec3 R) : Prop :=
  forall a, In a [0; 1; 2]%Z -> vget o a <= vget X a <= vget o a + vget w a /\ rcong L (vget X a) (vget x a).

(** A sheet of a simulation of width L: a cubic lattice of particles, all in a
    periodic box narrower than half the simulation, which the header records. *)
Definition sheet_ok (L : R) (skip : Z) (f : sheet_file R R) (X : list (vec3 R)) : Prop :=
  let h := sf_hd f in
  s_total h = L /\ (0 < skip <= s_seg h)%Z /\ (0 < s_count h)%Z /\
  s_grid h = ((s_seg h + 1) * (s_seg h + 1) * (s_seg h + 1))%Z /\ zlen (sf_xs f) = s_grid h /\
  (forall a, In a [0; 1; 2]%Z -> 0 <= vget (s_origin h) a < L /\ 0 <= vget (s_width h) a < L / 2 /\
     Forall (fun x => 0 <= vget x a < L) (sf_xs f)) /\
  Forall2 (unwrapped L (s_origin h) (s_width h)) (sf_xs f) X.

(** A box on a grid of at least four cells. *)
Definition box_ok (L : R) (b : rbox R) : Prop :=
  (4 <= rb_cells b)%Z /\ rb_cw b * IZR (rb_cells b) = L /\ (0 < rb_pts b)%Z /\
  (forall a, In a [0; 1; 2]%Z -> 0 <= vget (origin (rb_cb b)) a < rb_cells b /\ 0 < vget (width (rb_cb b)) a <= rb_cells b)%Z /\
  match rb_proj b with Some p => (0 <= p <= 2)%Z | None => True end /\
  sized (rb_vals b) (volume (image_size b)) /\ is_scalar (rb_vals b) = true.

(** No sample point lies exactly between two cells. *)
Definition off_faces (L : R) (cells : Z) (X : list (vec3 R)) (n skip : Z) (units : list (list (vec3 R))) : Prop :=
  forall c dir us u a, (0 <= dir < 6)%Z -> cube_room n skip c -> In us units -> In u us -> In a [0; 1; 2]%Z ->
    let x := vget (sample X n skip c dir u) a * IZR cells / L in x <> IZR (Zfloor x).
(** This is asked for unless the sheet is rendered through a three dimensional
    segment buffer; see C68. *)
Definition faces_ok (L : R) (skip : Z) (b : rbox R) (f : sheet_file R R) (X : list (vec3 R)) (units : list (list (vec3 R))) : Prop :=
  (exists w, box_overlap (ND := RNum) (NF := RNum) (fun x => x) b (sf_hd f) = Ok w /\ okd w = Segment3D) \/
  off_faces L (rb_cells b) X (s_seg (sf_hd f) + 1) skip units.

Definition good_units (pts : Z) (units : list (list (vec3 R))) : Prop :=
  Forall (fun us => zlen us = pts /\ Forall unit_simplex us) units.

(** The cells of a sheet and of a box meet, as the code tests it (see C47). *)
Definition meets {D F} {ND : Num D} {NF : Num F} (up : F -> D) (b : rbox D) (f : sheet_file D F) : bool :=
  cb_intersect (sheet_cells up (sf_hd f) (rb_cells b)) (rb_cb b) (rb_cells b).

(** The 64 unit buffers with [pts] points each: random points of the unit cube
    folded into the unit tetrahedron (see C58). *)
Definition unit_pool (rnd : Z -> Z -> vec3 R) (pts : Z) : list (list (vec3 R)) :=
  map (fun bi => distribute_unit (map (rnd bi) (zseq pts))) (zseq 64).

(** What sheets, each with its own unwrapped positions and uses of the unit
    buffers, add to cell [c]. *)
Definition sheet_adds (L : R) (skip : Z) (b : rbox R) (s : sheet_file R R * list (vec3 R)) (ps : list use) (c : cell) : R :=
  let h := sf_hd (fst s) in
  sample_value b (s_count h) skip * IZR (all_hits L b (snd s) (s_seg h + 1) skip ps c).
Fixpoint sheets_add (L : R) (skip : Z) (b : rbox R) (l : list (sheet_file R R * list (vec3 R))) (us : list (list use)) (c : cell) : R :=
  match l, us with
  | s :: l, ps :: us => sheet_adds L skip b s ps c + sheets_add L skip b l us c
  | _, _ => 0
  end.

(** [b'] is the box [b] after the sheets [l] were rendered into it: nothing but
    the image changed, and every cell grew by what each sheet adds when each of
    its tetrahedra is sampled once. *)
Definition rendered (L : R) (skip : Z) (units : list (list (vec3 R))) (l : list (sheet_file R R * list (vec3 R))) (b b' : rbox R) : Prop :=
  b' = set_vals b (rb_vals b') /\ sized (rb_vals b') (volume (image_size b)) /\ is_scalar (rb_vals b') = true /\
  exists us, Forall2 (fun s ps => uses_of (s_seg (sf_hd (fst s))) skip units ps) l us /\
    forall c, in_grid (image_size b) c ->
      comp Value (rb_vals b') (cell_index (image_size b) c) =
      comp Value (rb_vals b) (cell_index (image_size b) c) + sheets_add L skip b l us c.

(** Sum of a quantity over the cells of an image. *)
Definition image_total (size : cell) (g : cell -> R) : R :=
  let '(a, b, c) := size in sum 0 c (fun z => sum 0 b (fun y => sum 0 a (fun x => g (x, y, z)))).
(** Mean of the values of an image. *)
Definition image_mean (b : rbox R) : R :=
  image_total (image_size b) (fun c => comp Value (rb_vals b) (cell_index (image_size b) c)) / IZR (volume (image_size b)).
(** A box that shows the whole simulation. *)
Definition whole (b : rbox R) : Prop := forall a, In a [0; 1; 2]%Z -> vget (width (rb_cb b)) a = rb_cells b.
