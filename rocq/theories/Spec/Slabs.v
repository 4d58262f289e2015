(** Means over layers of a grid. *)
From Coq Require Import ZArith List Reals.
From Verif Require Import Model.PyRender.
Import ListNotations.
Open Scope Z_scope.

(** The number of layers along the direction a picture is seen from; the axes of
    the array are z, y, x. *)
Definition thickness {D} (d : dim) (a : cube D) : Z :=
  match d, cb_shape a with DimZ, [n; _; _] => n | DimY, [_; n; _] => n | DimX, [_; _; n] => n | _, _ => 0 end.
(** Layer i at row u and column v. *)
Definition layer {D} (d : dim) (a : cube D) (u v i : Z) : D :=
  match d with DimZ => cb_at a i u v | DimY => cb_at a u i v | DimX => cb_at a u v i end.
(** The mean of k layers from [lo] on. *)
Definition layers_mean (f : Z -> R) (lo k : Z) : R :=
  (fold_right Rplus 0 (map (fun i => f (lo + Z.of_nat i)%Z) (seq 0 (Z.to_nat k))) / IZR k)%R.
(** The corner of the box along that direction. *)
Definition corner (d : dim) (origin : list R) : R :=
  match d, origin with DimX, [x; _; _] => x | DimY, [_; y; _] => y | DimZ, [_; _; z] => z | _, _ => 0%R end.
(** Numbers of rows and columns seen from that direction, and the corner and the
    span along the columns and along the rows. *)
Definition rows {D} (d : dim) (a : cube D) : Z := match d with DimZ => thickness DimY a | _ => thickness DimZ a end.
Definition columns {D} (d : dim) (a : cube D) : Z := match d with DimX => thickness DimY a | _ => thickness DimX a end.
Definition across (d : dim) (v : list R) : R := match d with DimX => corner DimY v | _ => corner DimX v end.
Definition down (d : dim) (v : list R) : R := match d with DimZ => corner DimY v | _ => corner DimZ v end.
(** The number of an axis in headers. *)
Definition header_axis (d : dim) : Z := match d with DimX => 0 | DimY => 1 | DimZ => 2 end.
