(** Model of the part of /repo/python/render.py that chooses what a picture of an
    unprojected grid shows: the layers, their mean, and the coordinates in the
    title.  The array is the one of read_grid after log10, abs and clip, with its
    axes z, y, x.  The same for projected grids.  Colours, files and windows are
    left out. *)
From Coq Require Import ZArith List Bool.
From Verif Require Import Base.Res Base.Num.
Import ListNotations.
Open Scope Z_scope.
Open Scope res_scope.

(** An array of shape (nz, ny, nx). *)
Record cube (D : Type) := Cube { cb_shape : list Z; cb_at : Z -> Z -> Z -> D }.
Arguments Cube {D}. Arguments cb_shape {D}. Arguments cb_at {D}.

(** render.py:10-15; ValueError for other letters. *)
Inductive dim := DimX | DimY | DimZ.
Definition axis_of (d : dim) : Z := match d with DimZ => 0 | DimY => 1 | DimX => 2 end.
Definition axis_x (d : dim) : Z := 2 - axis_of d.

(** The bound [i] of a slice of a sequence of length n: negative ones count from
    the end, and those outside are moved to the next end. *)
Definition slice_bound (n i : Z) : Z := let j := if i <? 0 then i + n else i in Z.max 0 (Z.min j n).

(** render.py:73-74, 89, 105, 121: int(n * 1.0 / 2), and the layers of the slice.
    The division of depth by 2 rounds down. *)
Definition middle (n : Z) : Z := n / 2.
Definition layers (n depth : Z) : list Z :=
  let lo := slice_bound n (middle n - depth / 2) in
  let hi := slice_bound n (middle n + depth / 2 + 1) in
  map (fun i => lo + Z.of_nat i) (seq 0 (Z.to_nat (hi - lo))).

Section Picture.
Context {D : Type} {ND : Num D}.

(** np.mean; the mean of nothing is nan, here None. *)
Definition np_mean (l : list D) : option D :=
  match l with [] => None | _ => Some (fold_left nadd l (#0)%num / #(Z.of_nat (length l)))%num end.

(** render.py:88-91, 104-107, 120-123 and 137-138 for hd.axis = -1: the number at
    row u and column v. *)
Definition picture (d : dim) (depth : Z) (a : cube D) (u v : Z) : option D :=
  let n := nth (Z.to_nat (axis_of d)) (cb_shape a) 0 in
  np_mean (map (fun i => match d with DimZ => cb_at a i u v | DimY => cb_at a u i v | DimX => cb_at a u v i end) (layers n depth)).

(** render.py:82-83: [origin] and [pw] are those of the header, by x, y, z. *)
Definition title_middle (d : dim) (a : cube D) (origin : list D) (pw : D) : D :=
  (nth (Z.to_nat (axis_x d)) origin #0 + #(middle (nth (Z.to_nat (axis_x d)) (cb_shape a) 0%Z)) * pw)%num.
(** render.py:92-93, 108-109, 124-125, then 143: left, right, bottom, top. *)
Definition extent (d : dim) (origin span : list D) : list D :=
  let lo i := nth i origin #0%num in
  let hi i := (lo i + nth i span #0)%num in
  let e := match d with
           | DimZ => [lo 1%nat; hi 1%nat; lo 0%nat; hi 0%nat]
           | DimY => [lo 2%nat; hi 2%nat; lo 0%nat; hi 0%nat]
           | DimX => [lo 2%nat; hi 2%nat; lo 1%nat; hi 1%nat]
           end in
  [nth 2 e #0%num; nth 3 e #0%num; nth 1 e #0%num; nth 0 e #0%num].
(** render.py:149-150, 154-155: imshow with its default origin, which is the upper
    edge.  Where it draws the centre of the number at row u and column v of an
    array of nr rows and nc columns. *)
Definition imshow_at (e : list D) (nr nc u v : Z) : D * D :=
  let left := nth 0 e #0%num in let right := nth 1 e #0%num in
  let bottom := nth 2 e #0%num in let top := nth 3 e #0%num in
  ((left + (#(2 * v + 1) / #(2 * nc)) * (right - left))%num, (top + (#(2 * u + 1) / #(2 * nr)) * (bottom - top))%num).
(** render.py:96-97, 112-113, 128-129 *)
Definition title_depth (depth : Z) (pw : D) : D := (pw * #depth)%num.

(** render.py:29-30, 85 and 96-97, 112-113, 128-129 for a projected grid: the
    coordinate and the depth in the title. *)
Definition projected_middle (d : dim) (origin span : list D) : D :=
  (nth (Z.to_nat (axis_x d)) origin #0 + nth (Z.to_nat (axis_x d)) span #0 / #2)%num.
Definition projected_depth (d : dim) (span : list D) (pw : D) : D := (pw * (nth (Z.to_nat (axis_x d)) span #0 / pw))%num.
End Picture.

(** render.py:18-21; the script stops if this is false. *)
Definition accepts (axis : Z) (d : dim) : bool := (axis =? -1) || (axis_x d =? axis).
