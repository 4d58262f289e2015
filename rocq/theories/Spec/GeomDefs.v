(** Notions used in the statements about render/geom that mention the model's
    record types: triples of a vec3, lattices, call histories, the tetrahedra
    selected by the code. *)
From Coq Require Import ZArith Reals List.
From Verif Require Import Base.Res Base.Num Model.Geom Spec.Geometry.
Import ListNotations.
Notation rv := (vec3 R).

Open Scope Z_scope.
Definition tup {A} (v : vec3 A) : A * A * A := (v0 v, v1 v, v2 v).
Definition inside (o w : vec3 Z) (c : cell) : Prop := in_box c (tup o) (tup w).
Definition valid_box (L : Z) (b : cellbounds) : Prop :=
  (0 <= v0 (origin b) < L /\ 0 < v0 (width b) <= L) /\
  (0 <= v1 (origin b) < L /\ 0 < v1 (width b) <= L) /\
  (0 <= v2 (origin b) < L /\ 0 < v2 (width b) <= L).
(** Cells of two boxes that agree modulo L. *)
Definition share_cell (L : Z) (a b : cellbounds) : Prop :=
  exists c d : cell, in_box c (tup (origin a)) (tup (width a)) /\
    in_box d (tup (origin b)) (tup (width b)) /\
    let '(x, y, z) := c in let '(x', y', z') := d in cong L x x' /\ cong L y y' /\ cong L z z'.
(** ** Tetrahedron vertices *)
Definition in_lattice (n : Z) (c : cell) : Prop :=
  let '(x, y, z) := c in 0 <= x < n /\ 0 <= y < n /\ 0 <= z < n.
Definition cube_room (n skip : Z) (c : cell) : Prop :=
  let '(x, y, z) := c in 0 < skip /\ 0 <= x /\ x + skip < n /\ 0 <= y /\ y + skip < n /\ 0 <= z /\ z + skip < n.
Definition cadd (c : cell) (k : Z) (d : vec3 Z) : cell :=
  let '(x, y, z) := c in (x + k * v0 d, y + k * v1 d, z + k * v2 d).
Definition dirs_of (dir : Z) : vec3 Z * vec3 Z :=
  match dirs dir with Some p => p | None => (V3 0 0 0, V3 0 0 0) end.
(** Corners of the cube of side [skip] at [c]. *)
Definition cube_corner (skip : Z) (c k : cell) : Prop :=
  let '(x, y, z) := c in let '(a, b, d) := k in
  (a = x \/ a = x + skip) /\ (b = y \/ b = y + skip) /\ (d = z \/ d = z + skip).
(** One step of length [skip] along an axis. *)
Definition step_of (skip : Z) (c k : cell) : Prop :=
  let '(x, y, z) := c in let '(a, b, d) := k in
  (Z.abs (a - x) = skip /\ b = y /\ d = z) \/ (a = x /\ Z.abs (b - y) = skip /\ d = z) \/
  (a = x /\ b = y /\ Z.abs (d - z) = skip).
Definition centers_of (dir : Z) : vec3 Z * vec3 Z * vec3 Z :=
  match centers dir with Some p => p | None => (V3 0 0 0, V3 0 0 0, V3 0 0 0) end.
Open Scope R_scope.
Definition vol6 (p q r s : point) : R := Rabs (odet p q r s) / 6.
Definition vol6l (l : list point) : R :=
  match l with [p; q; r; s] => vol6 p q r s | _ => 0 end.
(** Degenerate: some corner is an affine combination lying in a common plane. *)
Definition coplanar (p q r s : point) : Prop :=
  exists a b c d : R, (a <> 0 \/ b <> 0 \/ c <> 0) /\
    Forall (fun v : point => pdot (a, b, c) v = d) [p; q; r; s].
(** Histories of method calls on one Tetra. *)
Inductive tcall := TInit (a b c d : rv) | TVolume | TContains (v : rv) | TBary | TDist (ps : list rv) | TDistT (ps : list rv).
Definition trun1 (t : tetra R) (c : tcall) : tetra R :=
  match c with
  | TInit a b c d => tetra_init t a b c d
  | TVolume => snd (tetra_volume t)
  | TContains v => snd (tetra_contains t v)
  | TBary => snd (tetra_barycenter t)
  | TDist ps => snd (distribute t ps)
  | TDistT ps => snd (distribute_tetra t ps)
  end.
Definition trun (t : tetra R) (cs : list tcall) : tetra R := fold_left trun1 cs t.
(** The corners after a history: those of the last Init. *)
Fixpoint last_corners (cur : rv * rv * rv * rv) (cs : list tcall) : rv * rv * rv * rv :=
  match cs with
  | [] => cur
  | TInit a b c d :: cs => last_corners (a, b, c, d) cs
  | _ :: cs => last_corners cur cs
  end.
Definition corners (t : tetra R) : rv * rv * rv * rv := (c0 t, c1 t, c2 t, c3 t).
(** The faces at 1 belong to it: float32(x) can be 1 for x below 1 (see C187). *)
Definition unit_cube (p : rv) : Prop := 0 <= v0 p <= 1 /\ 0 <= v1 p <= 1 /\ 0 <= v2 p <= 1.
Definition unit_simplex (p : rv) : Prop :=
  0 <= v0 p /\ 0 <= v1 p /\ 0 <= v2 p /\ v0 p + v1 p + v2 p <= 1.
(** ** The fold is six to one *)
Definition open_cube (p : point) : Prop :=
  let '(a, b, c) := p in 0 < a < 1 /\ 0 < b < 1 /\ 0 < c < 1.
Definition open_simplex (p : point) : Prop :=
  let '(a, b, c) := p in 0 < a /\ 0 < b /\ 0 < c /\ a + b + c < 1.
(** The six inverse branches; [flip] undoes the reflection of (s, t). *)
Definition flip (p : point) : point := let '(s, t, u) := p in (1 - s, 1 - t, u).
Definition inv_a (p : point) : point := let '(a, b, c) := p in (a, 1 - a - c, 1 - b).
Definition inv_b (p : point) : point := let '(a, b, c) := p in (a + c, b, 1 - a - b).
Definition inv_c (p : point) : point := p.
Definition branches : list (point -> point) :=
  [inv_a; inv_b; inv_c; (fun p => flip (inv_a p)); (fun p => flip (inv_b p)); (fun p => flip (inv_c p))].
Definition unfold_v (p : point) : rv := let '(a, b, c) := p in V3 a b c.
(** Each branch is affine with determinant 1 or -1. *)
Definition unit_affine (f : point -> point) : Prop :=
  exists k c1 c2 c3 : point, (det3 c1 c2 c3 = 1 \/ det3 c1 c2 c3 = -1) /\ forall a b c, f (a, b, c) = padd k (padd (pscale a c1) (padd (pscale b c2) (pscale c c3))).
Definition in_cell (h x : R) (i : Z) : Prop := IZR i * h <= x < (IZR i + 1) * h.
Definition in_cell3 (h : R) (p : point) (c : cell) : Prop :=
  let '(x, y, z) := p in let '(i, j, k) := c in in_cell h x i /\ in_cell h y j /\ in_cell h z k.
Open Scope R_scope.
(** The tetrahedron with number [dir] of the cube at [c], as the code selects it:
    its corners are the lattice points with the four vertex indices. *)
Definition code_tetra (n skip : Z) (c : cell) (dir : Z) (A B C D : cell) : Prop :=
  tetra_idxs (lattice_index n c) n skip dir =
    Ok (I4 (lattice_index n A) (lattice_index n B) (lattice_index n C) (lattice_index n D)) /\
  Forall (in_lattice n) [A; B; C; D].
Definition in_code_tetra n skip c dir (p : point) : Prop :=
  exists A B C D, code_tetra n skip c dir A B C D /\
    in_tetra p (cell_point A) (cell_point B) (cell_point C) (cell_point D).
Definition in_code_tetra_open n skip c dir (p : point) : Prop :=
  exists A B C D, code_tetra n skip c dir A B C D /\
    in_tetra_open p (cell_point A) (cell_point B) (cell_point C) (cell_point D).
Definition in_cube (skip : Z) (c : cell) (p : point) : Prop :=
  let '(x, y, z) := c in let '(a, b, d) := p in
  IZR x <= a <= IZR x + IZR skip /\ IZR y <= b <= IZR y + IZR skip /\ IZR z <= d <= IZR z + IZR skip.
(** Offsets from the cube corner pairwise different. *)
Definition generic (c : cell) (p : point) : Prop :=
  let '(x, y, z) := cell_point c in let '(a, b, d) := p in
  a - x <> b - y /\ a - x <> d - z /\ b - y <> d - z.
