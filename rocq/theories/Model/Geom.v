(** Model of /repo/render/geom: grid.go, vec.go, tetra.go.

    A Go [3]T array is a record of three fields; the loops [for i := 0; i < 3;
    i++] that treat the components independently are unrolled.  float32 and
    float64 are identified: every function is written over one [Num F]. *)
From Coq Require Import ZArith List Bool.
From Verif Require Import Base.Res Base.Num.
Import ListNotations.
Open Scope Z_scope.
Open Scope res_scope.

Record vec3 (A : Type) := V3 { v0 : A; v1 : A; v2 : A }.
Arguments V3 {A}. Arguments v0 {A}. Arguments v1 {A}. Arguments v2 {A}.

Definition vmap {A B} (f : A -> B) (v : vec3 A) : vec3 B := V3 (f (v0 v)) (f (v1 v)) (f (v2 v)).
Definition vmap2 {A B C} (f : A -> B -> C) (v : vec3 A) (w : vec3 B) : vec3 C :=
  V3 (f (v0 v) (v0 w)) (f (v1 v) (v1 w)) (f (v2 v) (v2 w)).

(** ** grid.go *)

(** grid.go:20-22 *)
Record cellbounds := CB { origin : vec3 Z; width : vec3 Z }.

(** grid.go:5-9 *)
Record grid := Grid {
  gcb : cellbounds; glength : Z; garea : Z; gvolume : Z; guBounds : vec3 Z }.

(** grid.go:32-43 (and NewGrid, 25-29) *)
Definition new_grid (o w : vec3 Z) : grid :=
  Grid (CB o w) (v0 w) (v0 w * v1 w) (v0 w * v1 w * v2 w) (vmap2 Z.add o w).

(** grid.go:62-66 *)
Definition grid_idx (g : grid) (x y z : Z) : Z :=
  let o := origin (gcb g) in
  (x - v0 o) + (y - v1 o) * glength g + (z - v2 o) * garea g.

(** grid.go:80-84 *)
Definition bounds_check (g : grid) (x y z : Z) : bool :=
  let o := origin (gcb g) in let u := guBounds g in
  ((v0 o <=? x) && (v1 o <=? y) && (v2 o <=? z)) && ((x <? v0 u) && (y <? v1 u) && (z <? v2 u)).

(** grid.go:70-76 *)
Definition idx_check (g : grid) (x y z : Z) : Z * bool :=
  if negb (bounds_check g x y z) then (-1, false) else (grid_idx g x y z, true).

(** grid.go:87-92 *)
Definition grid_coords (g : grid) (idx : Z) : res (vec3 Z) :=
  x <- rem idx (glength g) ;;
  y1 <- rem idx (garea g) ;;
  y <- quot y1 (glength g) ;;
  z <- quot idx (garea g) ;;
  Ok (V3 x y z).

(** grid.go:146-151 *)
Definition bound (x o w : Z) : Z :=
  let diff := x - o in
  if diff <? 0 then diff + w else if diff >? w then diff - w else diff.

(** grid.go:111-123: the test along one axis. *)
Definition intersect_axis (o1 w1 o2 w2 width : Z) : bool :=
  let '(oSmall, wSmall, oBig, wBig) :=
    if w1 <? w2 then (o1, w1, o2, w2) else (o2, w2, o1, w1) in
  let eSmall := oSmall + wSmall in
  (bound eSmall oBig width <? wBig) || (bound oSmall oBig width <? wBig).

(** grid.go:105-126.  The early exit of the loop only skips tests. *)
Definition cb_intersect (a b : cellbounds) (L : Z) : bool :=
  intersect_axis (v0 (origin a)) (v0 (width a)) (v0 (origin b)) (v0 (width b)) L &&
  intersect_axis (v1 (origin a)) (v1 (width a)) (v1 (origin b)) (v1 (width b)) L &&
  intersect_axis (v2 (origin a)) (v2 (width a)) (v2 (origin b)) (v2 (width b)) L.

(** grid.go:135-141 *)
Definition unbounded_axis (o1 w1 o2 w2 : Z) : bool :=
  let '(oLow, oHigh, wLow) := if o1 <? o2 then (o1, o2, w1) else (o2, o1, w2) in
  oLow + wLow >? oHigh.

(** grid.go:129-144 *)
Definition cb_intersect_unbounded (a b : cellbounds) : bool :=
  unbounded_axis (v0 (origin a)) (v0 (width a)) (v0 (origin b)) (v0 (width b)) &&
  unbounded_axis (v1 (origin a)) (v1 (width a)) (v1 (origin b)) (v1 (width b)) &&
  unbounded_axis (v2 (origin a)) (v2 (width a)) (v2 (origin b)) (v2 (width b)).

(** ** tetra.go: vertex indices *)

(** tetra.go:55-62; [None] is an out of range index. *)
Definition dirs (dir : Z) : option (vec3 Z * vec3 Z) :=
  nth_error
    [(V3 1 0 0, V3 1 1 0); (V3 1 0 0, V3 1 0 1); (V3 0 1 0, V3 1 1 0);
     (V3 0 0 1, V3 1 0 1); (V3 0 1 0, V3 0 1 1); (V3 0 0 1, V3 0 1 1)] (Z.to_nat dir).

(** tetra.go:64-73 *)
Definition centers (dir : Z) : option (vec3 Z * vec3 Z * vec3 Z) :=
  nth_error
    [(V3 0 0 1, V3 0 1 0, V3 1 0 0);
     (V3 0 0 1, V3 0 1 0, V3 (-1) 0 0);
     (V3 0 0 1, V3 0 (-1) 0, V3 1 0 0);
     (V3 0 0 1, V3 0 (-1) 0, V3 (-1) 0 0);
     (V3 0 0 (-1), V3 0 1 0, V3 1 0 0);
     (V3 0 0 (-1), V3 0 1 0, V3 (-1) 0 0);
     (V3 0 0 (-1), V3 0 (-1) 0, V3 1 0 0);
     (V3 0 0 (-1), V3 0 (-1) 0, V3 (-1) 0 0)] (Z.to_nat dir).

(** tetra.go:108-114 *)
Definition compress_coords (x y z dx dy dz countWidth : Z) : Z :=
  let newX := x + dx in let newY := y + dy in let newZ := z + dz in
  newX + newY * countWidth + newZ * countWidth * countWidth.

(** tetra.go:116-132.  All three tests are of newX. *)
Definition compress_coords_check (x y z dx dy dz countWidth : Z) : Z * bool :=
  let newX := x + dx in let newY := y + dy in let newZ := z + dz in
  if (newX >=? countWidth) || (newX <? 0) then (-1, false)
  else if (newX >=? countWidth) || (newX <? 0) then (-1, false)
  else if (newX >=? countWidth) || (newX <? 0) then (-1, false)
  else (newX + newY * countWidth + newZ * countWidth * countWidth, true).

(** The four indices idxs[0..3]. *)
Record idxs4 := I4 { i0 : Z; i1 : Z; i2 : Z; i3 : Z }.

(** tetra.go:158-162 *)
Definition lattice_coords (idx countWidth : Z) : res (vec3 Z) :=
  let countArea := countWidth * countWidth in
  x <- rem idx countWidth ;;
  y1 <- rem idx countArea ;;
  y <- quot y1 countWidth ;;
  z <- quot idx countArea ;;
  Ok (V3 x y z).

(** tetra.go:153-178 *)
Definition tetra_idxs (idx countWidth skip dir : Z) : res idxs4 :=
  if (dir <? 0) || (dir >=? 6) then Fatal
  else match dirs dir with
  | None => Panic
  | Some (d0, d1) =>
      c <- lattice_coords idx countWidth ;;
      Ok (I4
        (compress_coords (v0 c) (v1 c) (v2 c) (skip * v0 d0) (skip * v1 d0) (skip * v2 d0) countWidth)
        (compress_coords (v0 c) (v1 c) (v2 c) (skip * v0 d1) (skip * v1 d1) (skip * v2 d1) countWidth)
        (compress_coords (v0 c) (v1 c) (v2 c) skip skip skip countWidth)
        idx)
  end.

(** tetra.go:136-150 *)
Definition tetra_idxs_cartesian (x y z countWidth dir : Z) : res idxs4 :=
  if dir <? 0 then Panic
  else match dirs dir with
  | None => Panic
  | Some (d0, d1) =>
      Ok (I4
        (compress_coords x y z (v0 d0) (v1 d0) (v2 d0) countWidth)
        (compress_coords x y z (v0 d1) (v1 d1) (v2 d1) countWidth)
        (compress_coords x y z 1 1 1 countWidth)
        (x + y * countWidth + z * (countWidth * countWidth)))
  end.

(** tetra.go:181-224.  On failure the indices are not used; [None] stands for
    [ok = false]. *)
Definition tetra_idxs_centered (idx countWidth skip dir : Z) : res (option idxs4) :=
  if (dir <? 0) || (dir >=? 8) then Fatal
  else match centers dir with
  | None => Panic
  | Some (a, b, d) =>
      c <- lattice_coords idx countWidth ;;
      let chk o := compress_coords_check (v0 c) (v1 c) (v2 c)
                     (skip * v0 o) (skip * v1 o) (skip * v2 o) countWidth in
      let '(j0, ok0) := chk a in
      if negb ok0 then Ok None else
      let '(j1, ok1) := chk b in
      if negb ok1 then Ok None else
      let '(j2, ok2) := chk d in
      if negb ok2 then Ok None else Ok (Some (I4 j0 j1 j2 idx))
  end.

(** ** vec.go *)
Section Vec.
Context {F : Type} {NF : Num F}.
Open Scope num_scope.
Notation vec := (vec3 F).

(** vec.go:42-53, one component *)
Definition mod1 (w x : F) : F :=
  if x >=? w then x - w else if x <? #0 then x + w else x.
Definition vec_mod (v : vec) (w : F) : vec := vmap (mod1 w) v.

(** vec.go:64-70 *)
Definition vec_add (a b : vec) : vec := vmap2 nadd a b.

(** vec.go:24-30 *)
Definition vec_scale (v : vec) (k : F) : vec := vmap (fun x => x * k) v.

(** vec.go:82-103, one component *)
Definition sub1 (w a b : F) : F :=
  let w2 := w / #2 in
  let diff := a - b in
  let diff := if diff <? - w then diff + w else if diff >=? w then diff - w else diff in
  if diff >? w2 then diff - w else if diff <? - w2 then diff + w else diff.
Definition vec_sub (a b : vec) (w : F) : vec := vmap2 (sub1 w) a b.

(** vec.go:111-117 *)
Definition dot (a b : vec) : F :=
  #0 + v0 a * v0 b + v1 a * v1 b + v2 a * v2 b.

(** vec.go:128-134: [recv.CrossAt(arg, out)].  In the source the receiver is
    called v2 and the argument v1; the three results are computed before they
    are stored, so [out] may alias an input. *)
Definition cross_at (recv arg : vec) : vec :=
  V3 (v1 arg * v2 recv - v2 arg * v1 recv)
     (v2 arg * v0 recv - v0 arg * v2 recv)
     (v0 arg * v1 recv - v1 arg * v0 recv).
(** vec.go:120-122, 124-126 *)
Definition cross (a b : vec) : vec := cross_at a b.
Definition cross_self (a b : vec) : vec := cross_at a b.

(** ** grid.go:153-209, one component *)
Definition scale_segment1 (org cells : Z) (boxWidth x : F) : F :=
  let scale := #cells / boxWidth in
  let x := x * scale - #org in
  if x <? #0 then x + #cells else x.

Definition domain_diff (vorg corg cells : Z) : F :=
  let diff := #(vorg - corg) in
  if diff <? - #cells / #2 then diff + #cells
  else if diff >? #cells / #2 then diff - #cells else diff.

Definition scale_domain1 (vorg corg cells : Z) (boxWidth x : F) : F :=
  scale_segment1 vorg cells boxWidth x + domain_diff vorg corg cells.

(** ** tetra.go *)

(** tetra.go:20-27; the scratch buffers are left out (they are written before
    they are read in every function). *)
Record tetra := Tetra {
  c0 : vec; c1 : vec; c2 : vec; c3 : vec;
  volume : F; volumeValid : bool; bary : vec; baryValid : bool }.

(** tetra.go:78-81: a zero Tetra. *)
Definition tetra_zero : tetra :=
  let z := V3 #0 #0 #0 in Tetra z z z z #0 false z false.

(** tetra.go:84-96 *)
Definition tetra_init (t : tetra) (a b c d : vec) : tetra :=
  Tetra a b c d (volume t) false (bary t) false.

(** tetra.go:285-296 *)
Definition signed_volume (p0 p1 p2 p3 : vec) : F :=
  let leg1 := vmap2 nsub p1 p0 in
  let leg2 := vmap2 nsub p2 p0 in
  let leg3 := vmap2 nsub p3 p0 in
  let leg2 := cross_self leg2 leg3 in
  dot leg1 leg2 / #6.

(** tetra.go:227-238 *)
Definition tetra_volume (t : tetra) : F * tetra :=
  if volumeValid t then (volume t, t)
  else
    let v := nabs (signed_volume (c0 t) (c1 t) (c2 t) (c3 t)) in
    (v, Tetra (c0 t) (c1 t) (c2 t) (c3 t) v true (bary t) (baryValid t)).

(** tetra.go:45 *)
Definition eps : F := #5 / #100000.

(** math.Signbit.  Negative zero is not distinguished. *)
Definition signbit (x : F) : bool := x <? #0.

(** tetra.go:280-283 *)
Definition eps_eq (x y e : F) : bool :=
  ((x =? #0) && (y =? #0)) ||
  (negb (x =? #0) && negb (y =? #0) && (nabs ((x - y) / x) <=? e)).

(** tetra.go:242-278 *)
Definition tetra_contains (t : tetra) (v : vec) : bool * tetra :=
  let '(vol, t) := tetra_volume t in
  let lim := vol * (#1 + eps) in
  let r :=
    let vi := signed_volume v (c0 t) (c1 t) (c2 t) in
    let volSum := nabs vi in
    let sign := signbit vi in
    if volSum >? lim then false else
    let vi := signed_volume v (c1 t) (c3 t) (c2 t) in
    if negb (Bool.eqb (signbit vi) sign) then false else
    let volSum := volSum + nabs vi in
    if volSum >? lim then false else
    let vi := signed_volume v (c0 t) (c3 t) (c1 t) in
    if negb (Bool.eqb (signbit vi) sign) then false else
    let volSum := volSum + nabs vi in
    if volSum >? lim then false else
    let vi := signed_volume v (c0 t) (c2 t) (c3 t) in
    if negb (Bool.eqb (signbit vi) sign) then false else
    eps_eq (nabs vi + volSum) vol eps in
  (r, t).

(** tetra.go:450-461 *)
Definition tetra_barycenter (t : tetra) : vec * tetra :=
  if baryValid t then (bary t, t)
  else
    let m a b c := (a + b + c) / #4 in
    let b := V3 (m (v0 (c0 t)) (v0 (c1 t)) (v0 (c2 t)))
                (m (v1 (c0 t)) (v1 (c1 t)) (v1 (c2 t)))
                (m (v2 (c0 t)) (v2 (c1 t)) (v2 (c2 t))) in
    (b, Tetra (c0 t) (c1 t) (c2 t) (c3 t) (volume t) (volumeValid t) b true).

(** tetra.go:344-354 and 377-387: the fold of the unit cube. *)
Definition fold_unit (p : vec) : vec :=
  let s := v0 p in let t := v1 p in let u := v2 p in
  let '(s, t) := if s + t >? #1 then (#1 - s, #1 - t) else (s, t) in
  if t + u >? #1 then V3 s (#1 - u) (#1 - s - t)
  else if s + t + u >? #1 then V3 (#1 - t - u) t (s + t + u - #1)
  else V3 s t u.

(** tetra.go:360-369, 412-420: the point with barycentric coordinates s, t, u. *)
Definition bary_point (t : tetra) (b p : vec) : vec :=
  let s := v0 p in let tt := v1 p in let u := v2 p in
  let v := #1 - s - tt - u in
  let comp f := f b + (f (c0 t) - f b) * s + (f (c1 t) - f b) * tt +
                (f (c2 t) - f b) * u + (f (c3 t) - f b) * v in
  V3 (comp v0) (comp v1) (comp v2).

(** tetra.go:329-371 *)
Definition distribute (t : tetra) (pts : list vec) : list vec * tetra :=
  let '(b, t) := tetra_barycenter t in
  (map (fun p => bary_point t b (fold_unit p)) pts, t).

(** tetra.go:375-391 *)
Definition distribute_unit (pts : list vec) : list vec := map fold_unit pts.

(** tetra.go:396-422 (and DistributeTetra64, 425-447) *)
Definition distribute_tetra (t : tetra) (pts : list vec) : list vec * tetra :=
  let '(b, t) := tetra_barycenter t in
  (map (bary_point t b) pts, t).

(** tetra.go:475-488, one component: minimum and maximum over the corners. *)
Definition minmax_step (m : F * F) (x : F) : F * F :=
  let '(mn, mx) := m in
  if x <? mn then (x, mx) else if x >? mx then (mn, x) else (mn, mx).

(** tetra.go:472-504, one component: (origin, width) in cells. *)
Definition cell_bounds1 (a b c d cellWidth : F) : Z * Z :=
  let '(mn, mx) := minmax_step (minmax_step (minmax_step (a, a) b) c) d in
  let w := mx - mn in
  let o := nfloor (mn / cellWidth) in
  (o, (1 + nfloor ((w + mn) / cellWidth)%num - o)%Z).

Definition tetra_cell_bounds (t : tetra) (cellWidth : F) : cellbounds :=
  let cb f := cell_bounds1 (f (c0 t)) (f (c1 t)) (f (c2 t)) (f (c3 t)) cellWidth in
  CB (V3 (fst (cb v0)) (fst (cb v1)) (fst (cb v2)))
     (V3 (snd (cb v0)) (snd (cb v1)) (snd (cb v2))).
End Vec.
Arguments tetra : clear implicits.
