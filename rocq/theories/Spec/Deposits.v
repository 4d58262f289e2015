(** Where points of a periodic grid belong and what a buffer holds. *)
From Coq Require Import ZArith List Reals Bool.
From Flocq Require Import Core.Raux.
From Verif Require Import Base.Res Base.Num Model.Geom Model.GridDeriv Model.Density Model.Box Spec.Geometry Spec.Fields Spec.FieldDefs Spec.Matrix.
Import ListNotations.
Open Scope R_scope.

(** The quantities stored for a cell: the value of a scalar buffer, or the
    three components and the number of points of a vector buffer. *)
Inductive component := Value | VelX | VelY | VelZ | Number.
Definition zero3 : vec3 R := V3 0 0 0.
Definition comp (q : component) (b : contents R) (k : Z) : R :=
  match b, q with
  | Scalar v, Value => nth (Z.to_nat k) v 0
  | Vector v _, VelX => v0 (nth (Z.to_nat k) v zero3)
  | Vector v _, VelY => v1 (nth (Z.to_nat k) v zero3)
  | Vector v _, VelZ => v2 (nth (Z.to_nat k) v zero3)
  | Vector _ n, Number => IZR (nth (Z.to_nat k) n 0%Z)
  | _, _ => 0
  end.
Definition sized (b : contents R) (n : Z) : Prop :=
  match b with Scalar v => zlen v = n | Vector v c => zlen v = n /\ zlen c = n end.
Definition is_scalar (b : contents R) : bool := match b with Scalar _ => true | _ => false end.

(** The weights that go with a buffer and n points. *)
Definition fits (b : contents R) (w : weights R) (n : Z) : Prop :=
  match b, w with
  | Scalar _, WScalar l => zlen l = 0%Z \/ zlen l = n
  | Vector _ _, WVector l => zlen l = n
  | _, _ => False
  end.

(** What point number i adds to its cell. *)
Definition amount (b : contents R) (q : component) (v : R) (w : weights R) (i : Z) : R :=
  match b, q, w with
  | Scalar _, Value, WScalar [] => v
  | Scalar _, Value, WScalar l => v * nth (Z.to_nat i) l 0
  | Vector _ _, VelX, WVector l => v * v0 (nth (Z.to_nat i) l zero3)
  | Vector _ _, VelY, WVector l => v * v1 (nth (Z.to_nat i) l zero3)
  | Vector _ _, VelZ, WVector l => v * v2 (nth (Z.to_nat i) l zero3)
  | Vector _ _, Number, _ => 1
  | _, _, _ => 0
  end.

(** The axes of the image and the axis of projection. *)
Definition image_axes (proj : Z) : Z * Z * Z :=
  match proj with 0%Z => (1, 2, 0)%Z | 1%Z => (0, 2, 1)%Z | _ => (0, 1, 2)%Z end.

(** The cell along one axis. *)
Definition coord_cell (p : vec3 R) (axis : Z) : Z := Zfloor (vget p axis).

(** The cell of the buffer a point falls into: in segment buffers coordinates
    count from the buffer's corner, in domain buffers from the domain's corner
    and modulo the periodic grid.  In two dimensional buffers the point must lie
    between the two faces of the domain along the projection axis. *)
Definition landing (w : overlap) (p : vec3 R) : option Z :=
  let bw := width (bufCb w) in let dw := width (domCb w) in
  let '(i, j, k) := image_axes (oproj w) in
  match okd w with
  | Segment3D => Some (cell_index (wcell bw) (coord_cell p 0, coord_cell p 1, coord_cell p 2))
  | Domain3D =>
      let c a := (coord_cell p a mod ocells w)%Z in
      if ((c 0 <? v0 bw) && (c 1 <? v1 bw) && (c 2 <? v2 bw))%Z
      then Some (cell_index (wcell bw) (c 0%Z, c 1%Z, c 2%Z)) else None
  | Segment2D =>
      let depth := ((coord_cell p k - (vget (origin (domCb w)) k - vget (origin (bufCb w)) k)) mod ocells w)%Z in
      if (depth <? vget dw k)%Z then Some (coord_cell p i + coord_cell p j * vget bw i)%Z else None
  | Domain2D =>
      let c a := (coord_cell p a mod ocells w)%Z in
      if ((c i <? vget bw i) && (c j <? vget bw j) && (c k <? vget bw k))%Z
      then Some (c i + c j * vget bw i)%Z else None
  end.

(** The value of a point: projections average over the depth of the domain. *)
Definition point_value (w : overlap) (v : R) : R :=
  let '(_, _, k) := image_axes (oproj w) in
  match okd w with
  | Segment2D => v / IZR (vget (width (domCb w)) k)
  | Domain2D => v / IZR (vget (width (bufCb w)) k)
  | _ => v
  end.

(** Coordinates the code places correctly: positive or not an integer. *)
Definition regular (x : R) : Prop := 0 < x \/ x <> IZR (Zfloor x).
Definition in_buffer (w : overlap) (p : vec3 R) (axis : Z) : Prop :=
  0 <= vget p axis < IZR (vget (width (bufCb w)) axis).
(** At most one period outside the periodic grid. *)
Definition near (w : overlap) (off : Z) (x : R) : Prop :=
  regular x /\ (- ocells w <= Zfloor x - off < 2 * ocells w)%Z.

Definition placeable (w : overlap) (p : vec3 R) : Prop :=
  let '(i, j, k) := image_axes (oproj w) in
  match okd w with
  | Segment3D => in_buffer w p 0 /\ in_buffer w p 1 /\ in_buffer w p 2
  | Segment2D => in_buffer w p i /\ in_buffer w p j /\
      near w (vget (origin (domCb w)) k - vget (origin (bufCb w)) k) (vget p k)
  | _ => near w 0 (v0 p) /\ near w 0 (v1 p) /\ near w 0 (v2 p)
  end.

Definition lands (w : overlap) (p : vec3 R) (k : Z) : bool :=
  match landing w p with Some k' => (k =? k')%Z | None => false end.

(** Sum over the cells of a buffer. *)
Definition total (q : component) (b : contents R) (n : Z) : R := sum 0 n (fun k => comp q b k).

(** A non-empty periodic grid, a valid projection axis and no negative width. *)
Definition valid_overlap (w : overlap) : Prop :=
  (0 < ocells w)%Z /\ (0 <= oproj w <= 2 \/ okd w = Segment3D \/ okd w = Domain3D)%Z /\
  (0 <= v0 (width (bufCb w)) /\ 0 <= v1 (width (bufCb w)) /\ 0 <= v2 (width (bufCb w)))%Z.

(** Cell [b] of the buffer and cell [c] of the domain are the same cell of the
    periodic grid along one axis. *)
Definition same_cell (w : overlap) (axis b c : Z) : bool :=
  ((b + vget (origin (bufCb w)) axis - (c + vget (origin (domCb w)) axis)) mod ocells w =? 0)%Z.

(** Widths at most the period, origins less than a period apart. *)
Definition fits_axis (w : overlap) (axis : Z) : Prop :=
  (0 <= vget (width (bufCb w)) axis <= ocells w)%Z /\ (0 <= vget (width (domCb w)) axis <= ocells w)%Z /\
  (Z.abs (vget (origin (bufCb w)) axis - vget (origin (domCb w)) axis) < ocells w)%Z.

(** The cells of the image a rendering box holds: the last coordinate is 0 in
    projections. *)
Definition image_width (w : overlap) (b : cellbounds) : cell :=
  let '(i, j, _) := image_axes (oproj w) in
  match okd w with
  | Segment3D | Domain3D => wcell (width b)
  | _ => (vget (width b) i, vget (width b) j, 1%Z)
  end.

(** Conditions under which a buffer can be merged. *)
Definition mergeable (w : overlap) : Prop :=
  let '(i, j, _) := image_axes (oproj w) in
  (0 < ocells w)%Z /\
  match okd w with
  | Segment3D => fits_axis w 0 /\ fits_axis w 1 /\ fits_axis w 2
  | Segment2D => (0 <= oproj w <= 2)%Z /\ fits_axis w i /\ fits_axis w j
  | Domain3D => bufCb w = domCb w /\ (0 <= v0 (width (domCb w)) /\ 0 <= v1 (width (domCb w)) /\ 0 <= v2 (width (domCb w)))%Z
  | Domain2D => bufCb w = domCb w /\ (0 <= vget (width (domCb w)) i /\ 0 <= vget (width (domCb w)) j)%Z
  end.

(** What the cells of the buffer that coincide with cell [c] of the image hold
    together. *)
Definition contribution (w : overlap) (q : component) (buf : contents R) (c : cell) : R :=
  let '(i, j, _) := image_axes (oproj w) in
  let '(x, y, z) := c in
  let bw := image_width w (bufCb w) in
  let '(b0, b1, b2) := bw in
  sum 0 b2 (fun zb => sum 0 b1 (fun yb => sum 0 b0 (fun xb =>
    if match okd w with
       | Segment3D => same_cell w 0 xb x && same_cell w 1 yb y && same_cell w 2 zb z
       | Segment2D => same_cell w i xb x && same_cell w j yb y
       | _ => (xb =? x) && (yb =? y) && (zb =? z)
       end%Z
    then comp q buf (cell_index bw (xb, yb, zb)) else 0))).
