(** Model of /repo/math/interpolate/search.go and linear_interpolators.go.

    EvalAll is in EvalAll.v.  Not modelled: the Ref methods (they only panic) and the texts of the panic messages. *)
From Coq Require Import ZArith List Bool.
From Verif Require Import Base.Res Base.Num.
Import ListNotations.
Open Scope Z_scope.
Open Scope res_scope.

Section Interp.
Context {F : Type} {NF : Num F}.

(** search.go:7-12 *)
Record searcher := Searcher {
  s_xs : list F; s_x0 : F; s_dx : F; s_lim : F; s_n : Z; s_unif : bool; s_incr : bool }.

(** search.go:14-22 *)
Definition searcher_init (xs : list F) : res searcher :=
  x0 <- get xs 0 ;;
  lim <- get xs (zlen xs - 1) ;;
  let dx := ((lim - x0) / #(zlen xs - 1))%num in
  Ok (Searcher xs x0 dx lim (zlen xs) false (#0 <? dx)%num).

(** search.go:24-32 *)
Definition searcher_unif (x0 dx : F) (n : Z) : searcher :=
  Searcher [] x0 dx (#(n - 1) * dx + x0)%num n true (#0 <? dx)%num.

(** search.go:57-68 and spline.go:176-185: the binary search on [lo, hi].
    Fuel: the length of the table bounds the number of halvings. *)
Definition bin_search (fuel : nat) (xs : list F) (incr : bool) (x : F) (hi : Z) : res Z :=
  loop fuel (fun '(lo, hi) =>
    if hi - lo >? 1 then
      let mid := Z.quot (lo + hi) 2 in
      xm <- get xs mid ;;
      if Bool.eqb incr (x >=? xm)%num then Ok (inl (mid, hi)) else Ok (inl (lo, mid))
    else Ok (inr lo)) (0, hi).

(** search.go:48-55 and spline.go:167-174: is the guess accepted? *)
Definition guess_ok (xs : list F) (incr : bool) (x : F) (guess : Z) : res bool :=
  if (guess >=? 0) && (guess <? zlen xs - 1) then
    a <- get xs guess ;;
    if Bool.eqb (a <=? x)%num incr then
      b <- get xs (guess + 1) ;;
      Ok (Bool.eqb (b >=? x)%num incr)
    else Ok false
  else Ok false.

(** search.go:35-70 *)
Definition search (s : searcher) (x : F) : res Z :=
  if (x >? s_lim s)%num || (x <? s_x0 s)%num then Panic
  else if s_unif s then
    let idx := ntrunc ((x - s_x0 s) / s_dx s)%num in
    Ok (if idx =? s_n s - 1 then idx - 1 else idx)
  else
    x0 <- get (s_xs s) 0 ;;
    let guess := ntrunc ((x - x0) / s_dx s)%num in
    ok <- guess_ok (s_xs s) (s_incr s) x guess ;;
    if ok : bool then Ok guess
    else bin_search (S (length (s_xs s))) (s_xs s) (s_incr s) x (s_n s - 1).

(** search.go:72-78 *)
Definition val (s : searcher) (i : Z) : res F :=
  if s_unif s then Ok (#i * s_dx s + s_x0 s)%num else get (s_xs s) i.

(** ** Linear *)

(** linear_interpolators.go:12-15 *)
Record linear := Linear { lin_xs : searcher; lin_vals : list F }.

(** linear_interpolators.go:22-30 *)
Definition new_linear (xs vals : list F) : res linear :=
  if negb (zlen xs =? zlen vals) then Panic
  else s <- searcher_init xs ;; Ok (Linear s vals).

(** linear_interpolators.go:37-42 *)
Definition new_uniform_linear (x0 dx : F) (vals : list F) : linear :=
  Linear (searcher_unif x0 dx (zlen vals)) vals.

(** linear_interpolators.go:47-54 *)
Definition linear_eval (l : linear) (x : F) : res F :=
  i1 <- search (lin_xs l) x ;;
  let i2 := i1 + 1 in
  x1 <- val (lin_xs l) i1 ;;
  x2 <- val (lin_xs l) i2 ;;
  v1 <- get (lin_vals l) i1 ;;
  v2 <- get (lin_vals l) i2 ;;
  Ok (((v2 - v1) / (x2 - x1)) * (x - x1) + v1)%num.

(** ** BiLinear *)

(** linear_interpolators.go:92-96 *)
Record bilinear := BiLinear { bl_xs : searcher; bl_ys : searcher; bl_vals : list F; bl_nx : Z }.

(** linear_interpolators.go:104-119 *)
Definition new_bilinear (xs ys vals : list F) : res bilinear :=
  sx <- searcher_init xs ;;
  sy <- searcher_init ys ;;
  if negb (zlen xs * zlen ys =? zlen vals) then Panic
  else Ok (BiLinear sx sy vals (zlen xs)).

(** linear_interpolators.go:127-148 *)
Definition new_uniform_bilinear (x0 dx : F) (nx : Z) (y0 dy : F) (ny : Z) (vals : list F)
    : res bilinear :=
  if negb (nx * ny =? zlen vals) then Panic
  else Ok (BiLinear (searcher_unif x0 dx nx) (searcher_unif y0 dy ny) vals nx).

(** linear_interpolators.go:153-181 *)
Definition bilinear_eval (b : bilinear) (x y : F) : res F :=
  ix1 <- search (bl_xs b) x ;;
  iy1 <- search (bl_ys b) y ;;
  let ix2 := ix1 + 1 in let iy2 := iy1 + 1 in
  let '(ix1, ix2) := if ix2 =? s_n (bl_xs b) then (ix1 - 1, ix2 - 1) else (ix1, ix2) in
  let '(iy1, iy2) := if iy2 =? s_n (bl_ys b) then (iy1 - 1, iy2 - 1) else (iy1, iy2) in
  x1 <- val (bl_xs b) ix1 ;; x2 <- val (bl_xs b) ix2 ;;
  y1 <- val (bl_ys b) iy1 ;; y2 <- val (bl_ys b) iy2 ;;
  v11 <- get (bl_vals b) (ix1 + bl_nx b * iy1) ;;
  v12 <- get (bl_vals b) (ix1 + bl_nx b * iy2) ;;
  v21 <- get (bl_vals b) (ix2 + bl_nx b * iy1) ;;
  v22 <- get (bl_vals b) (ix2 + bl_nx b * iy2) ;;
  let dx := (x2 - x1)%num in let dy := (y2 - y1)%num in
  let dx1 := (x - x1)%num in let dx2 := (x2 - x)%num in
  let dy1 := (y - y1)%num in let dy2 := (y2 - y)%num in
  Ok ((v11 * dx2 * dy2 + v12 * dx2 * dy1 + v21 * dx1 * dy2 + v22 * dx1 * dy1) / (dx * dy))%num.

(** ** TriLinear *)

(** linear_interpolators.go:217-221 *)
Record trilinear := TriLinear {
  tl_xs : searcher; tl_ys : searcher; tl_zs : searcher; tl_vals : list F; tl_nx : Z; tl_ny : Z }.

(** linear_interpolators.go:230-247 *)
Definition new_trilinear (xs ys zs vals : list F) : res trilinear :=
  sx <- searcher_init xs ;;
  sy <- searcher_init ys ;;
  sz <- searcher_init zs ;;
  if negb (zlen xs * zlen ys * zlen zs =? zlen vals) then Panic
  else Ok (TriLinear sx sy sz vals (zlen xs) (zlen ys)).

(** linear_interpolators.go:256-280 *)
Definition new_uniform_trilinear (x0 dx : F) (nx : Z) (y0 dy : F) (ny : Z) (z0 dz : F) (nz : Z)
    (vals : list F) : res trilinear :=
  if negb (nx * ny * nz =? zlen vals) then Panic
  else Ok (TriLinear (searcher_unif x0 dx nx) (searcher_unif y0 dy ny) (searcher_unif z0 dz nz)
             vals nx ny).

(** linear_interpolators.go:282-316; lines 285 and 301 really use [tri.ys] for z. *)
Definition trilinear_eval (t : trilinear) (x y z : F) : res F :=
  ix <- search (tl_xs t) x ;;
  iy <- search (tl_ys t) y ;;
  iz <- search (tl_ys t) z ;;
  let dix := 1 in let diy := tl_nx t in let diz := tl_nx t * tl_ny t in
  let i := ix + iy * tl_nx t + iz * tl_ny t * tl_nx t in
  v111 <- get (tl_vals t) i ;;
  v112 <- get (tl_vals t) (i + diz) ;;
  v121 <- get (tl_vals t) (i + diy) ;;
  v122 <- get (tl_vals t) (i + diy + diz) ;;
  v211 <- get (tl_vals t) (i + dix) ;;
  v212 <- get (tl_vals t) (i + dix + diz) ;;
  v221 <- get (tl_vals t) (i + dix + diy) ;;
  v222 <- get (tl_vals t) (i + dix + diy + diz) ;;
  x1 <- val (tl_xs t) ix ;; x2 <- val (tl_xs t) (ix + 1) ;;
  y1 <- val (tl_ys t) iy ;; y2 <- val (tl_ys t) (iy + 1) ;;
  z1 <- val (tl_ys t) iz ;; z2 <- val (tl_ys t) (iz + 1) ;;
  let xd := ((x - x1) / (x2 - x1))%num in
  let yd := ((y - y1) / (y2 - y1))%num in
  let zd := ((z - z1) / (z2 - z1))%num in
  let c11 := (v111 * (#1 - xd) + v211 * xd)%num in
  let c21 := (v121 * (#1 - xd) + v221 * xd)%num in
  let c12 := (v112 * (#1 - xd) + v212 * xd)%num in
  let c22 := (v122 * (#1 - xd) + v222 * xd)%num in
  let c1 := (c11 * (#1 - yd) + c21 * yd)%num in
  let c2 := (c12 * (#1 - yd) + c22 * yd)%num in
  Ok (c1 * (#1 - zd) + c2 * zd)%num.

End Interp.
Arguments searcher F : clear implicits.
Arguments linear F : clear implicits.
Arguments bilinear F : clear implicits.
Arguments trilinear F : clear implicits.
