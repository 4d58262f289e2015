(** Model of /repo/math/interpolate/spline.go and cubic_interpolators.go.

    A Spline object is a record; Init returns the new record.  Slices passed to
    a spline are stored by reference in the code; the callers modelled here
    never change a table without calling Init on it, so values are copied.
    EvalAll is in EvalAll.v.  Not modelled: the Ref methods (they only panic). *)
From Coq Require Import ZArith List Bool.
From Verif Require Import Base.Res Base.Num Model.Interp.
Import ListNotations.
Open Scope Z_scope.
Open Scope res_scope.

Section Spline.
Context {F : Type} {NF : Num F}.

(** spline.go:259-287.  The forward sweep; state (tmp, beta, out). *)
Definition tri_forward (as_ bs cs rs out : list F) (beta0 : F) : res (list F * F * list F) :=
  for_ 1 (zlen out) (fun i '(tmp, beta, out) =>
    c <- get cs (i - 1) ;;
    tmp <- set tmp i (c / beta)%num ;;
    b <- get bs i ;;
    a <- get as_ i ;;
    t <- get tmp i ;;
    let beta := (b - a * t)%num in
    if (beta =? #0)%num then Panic
    else
      r <- get rs i ;;
      o <- get out (i - 1) ;;
      out <- set out i ((r - a * o) / beta)%num ;;
      Ok (tmp, beta, out))
    (repeat (#0)%num (length as_), beta0, out).

(** spline.go:284-286 *)
Definition tri_backward (tmp out : list F) : res (list F) :=
  for_down (zlen out - 2) 0 (fun i out =>
    t <- get tmp (i + 1) ;;
    o1 <- get out (i + 1) ;;
    o <- get out i ;;
    set out i (o - t * o1)%num) out.

(** spline.go:259-287 *)
Definition tri_diag_at (as_ bs cs rs out : list F) : res (list F) :=
  if negb (zlen as_ =? zlen bs) || negb (zlen as_ =? zlen cs) ||
     negb (zlen as_ =? zlen out) || negb (zlen as_ =? zlen rs) then Panic
  else
    beta <- get bs 0 ;;
    if (beta =? #0)%num then Panic
    else
      r0 <- get rs 0 ;;
      out <- set out 0 (r0 / beta)%num ;;
      '(tmp, _, out) <- tri_forward as_ bs cs rs out beta ;;
      tri_backward tmp out.

(** spline.go:297-301 *)
Definition tri_diag (as_ bs cs rs : list F) : res (list F) :=
  tri_diag_at as_ bs cs rs (repeat (#0)%num (length as_)).

(** spline.go:10-12 *)
Record coeff := Coeff { ca : F; cb : F; cc : F; cd : F }.

(** spline.go:16-24 *)
Record spline := Spline {
  sp_xs : list F; sp_ys : list F; sp_y2s : list F; sp_coeffs : list coeff;
  sp_incr : bool; sp_dx : F }.

(** spline.go:56-70: the loop that checks the order of the table. *)
Definition check_sorted (xs : list F) (incr : bool) : res unit :=
  for_ 0 (zlen xs - 1) (fun i _ =>
    b <- get xs (i + 1) ;;
    a <- get xs i ;;
    if (if incr then (b <? a)%num else (b >? a)%num) then Panic else Ok tt) tt.

(** spline.go:196-219.  The four scratch slices are filled by one loop in the
    code; here each is tabulated. *)
Definition calc_y2s (xs ys y2s : list F) : res (list F) :=
  let n := zlen xs in
  let at_ l i := get l i in
  as_ <- tabulate (n - 2) (fun i => let j := i + 1 in
    x <- at_ xs j ;; w <- at_ xs (j - 1) ;; Ok ((x - w) / #6)%num) ;;
  bs <- tabulate (n - 2) (fun i => let j := i + 1 in
    x <- at_ xs (j + 1) ;; w <- at_ xs (j - 1) ;; Ok ((x - w) / #3)%num) ;;
  cs <- tabulate (n - 2) (fun i => let j := i + 1 in
    x <- at_ xs (j + 1) ;; w <- at_ xs j ;; Ok ((x - w) / #6)%num) ;;
  rs <- tabulate (n - 2) (fun i => let j := i + 1 in
    y2 <- at_ ys (j + 1) ;; y1 <- at_ ys j ;; y0 <- at_ ys (j - 1) ;;
    x2 <- at_ xs (j + 1) ;; x1 <- at_ xs j ;; x0 <- at_ xs (j - 1) ;;
    Ok (((y2 - y1) / (x2 - x1)) - ((y1 - y0) / (x1 - x0)))%num) ;;
  y2s <- set y2s 0 (#0)%num ;;
  y2s <- set y2s (n - 1) (#0)%num ;;
  mid <- slice y2s 1 (n - 1) ;;
  mid <- tri_diag_at as_ bs cs rs mid ;;
  Ok (firstn 1 y2s ++ mid ++ skipn (Z.to_nat (n - 1)) y2s).

(** spline.go:221-230 *)
Definition calc_coeffs (xs ys y2s : list F) (ncoeffs : Z) : res (list coeff) :=
  tabulate ncoeffs (fun i =>
    x1 <- get xs (i + 1) ;; x0 <- get xs i ;;
    let dx := (x1 - x0)%num in
    z0 <- get y2s i ;; z1 <- get y2s (i + 1) ;;
    y1 <- get ys (i + 1) ;; y0 <- get ys i ;;
    Ok (Coeff (((- z0) / #6 + z1 / #6) / dx)%num
              (z0 / #2)%num
              ((y1 - y0) / dx + dx * ((- z0) / #3 - z1 / #6))%num
              y0)).

(** spline.go:50-75 *)
Definition spline_init (sp : spline) (xs ys : list F) : res spline :=
  if negb (zlen xs =? zlen (sp_xs sp)) || negb (zlen ys =? zlen (sp_ys sp)) then Panic
  else
    x0 <- get xs 0 ;;
    x1 <- get xs 1 ;;
    let incr := (x0 <? x1)%num in
    _ <- check_sorted xs incr ;;
    xl <- get xs (zlen xs - 1) ;;
    let dx := ((xl - x0) / #(zlen xs - 1))%num in
    y2s <- calc_y2s xs ys (sp_y2s sp) ;;
    cs <- calc_coeffs xs ys y2s (zlen (sp_coeffs sp)) ;;
    Ok (Spline xs ys y2s cs incr dx).

(** spline.go:28-45 *)
Definition new_spline (xs ys : list F) : res spline :=
  if negb (zlen xs =? zlen ys) then Panic
  else if zlen xs <=? 1 then Panic
  else
    let z := (#0)%num in
    spline_init (Spline xs ys (repeat z (length xs))
                   (repeat (Coeff z z z z) (length xs - 1)) false z) xs ys.

(** spline.go:166-192 *)
Definition sp_bsearch (sp : spline) (x : F) : res Z :=
  x0 <- get (sp_xs sp) 0 ;;
  let guess := ntrunc ((x - x0) / sp_dx sp)%num in
  ok <- guess_ok (sp_xs sp) (sp_incr sp) x guess ;;
  if ok : bool then Ok guess
  else
    lo <- bin_search (S (length (sp_xs sp))) (sp_xs sp) (sp_incr sp) x (zlen (sp_xs sp) - 1) ;;
    if lo =? zlen (sp_xs sp) - 1 then Panic else Ok lo.

(** spline.go:80-93 *)
Definition spline_eval (sp : spline) (x : F) : res F :=
  x0 <- get (sp_xs sp) 0 ;;
  xl <- get (sp_xs sp) (zlen (sp_xs sp) - 1) ;;
  if Bool.eqb (x <=? x0)%num (sp_incr sp) || Bool.eqb (x >=? xl)%num (sp_incr sp) then
    if (x =? x0)%num then get (sp_ys sp) 0
    else if (x =? xl)%num then get (sp_ys sp) (zlen (sp_ys sp) - 1)
    else Panic
  else
    i <- sp_bsearch sp x ;;
    xi <- get (sp_xs sp) i ;;
    k <- get (sp_coeffs sp) i ;;
    let dx := (x - xi)%num in
    Ok (ca k * dx * dx * dx + cb k * dx * dx + cc k * dx + cd k)%num.

(** spline.go:112, 137, 140: the out-of-bounds test of Deriv and Integrate. *)
Definition sp_outside (sp : spline) (x : F) : res bool :=
  x0 <- get (sp_xs sp) 0 ;;
  xl <- get (sp_xs sp) (zlen (sp_xs sp) - 1) ;;
  Ok (Bool.eqb (x <? x0)%num (sp_incr sp) || Bool.eqb (x >? xl)%num (sp_incr sp)).

(** spline.go:111-132 *)
Definition spline_deriv (sp : spline) (x : F) (order : Z) : res F :=
  out <- sp_outside sp x ;;
  if out : bool then Panic
  else
    i <- sp_bsearch sp x ;;
    xi <- get (sp_xs sp) i ;;
    k <- get (sp_coeffs sp) i ;;
    let dx := (x - xi)%num in
    Ok (match order with
        | 0 => ca k * dx * dx * dx + cb k * dx * dx + cc k * dx + cd k
        | 1 => #3 * ca k * dx * dx + #2 * cb k * dx + cc k
        | 2 => #6 * ca k * dx + #2 * cb k
        | 3 => #6 * ca k
        | _ => #0
        end)%num.

(** spline.go:158-162 *)
Definition integ_term (k : coeff) (lo hi : F) : F :=
  let dx := (hi - lo)%num in
  (ca k * dx * dx * dx * dx / #4 + cb k * dx * dx * dx / #3 + cc k * dx * dx / #2 + cd k * dx)%num.

(** spline.go:137-155: the case lo <= hi. *)
Definition integ_ordered (sp : spline) (lo hi : F) : res F :=
  o1 <- sp_outside sp lo ;;
  if o1 : bool then Panic
  else
    o2 <- sp_outside sp hi ;;
    if o2 : bool then Panic
    else
      iLo <- sp_bsearch sp lo ;;
      iHi <- sp_bsearch sp hi ;;
      if iLo =? iHi then
        k <- get (sp_coeffs sp) iLo ;; Ok (integ_term k lo hi)
      else
        kl <- get (sp_coeffs sp) iLo ;;
        xl <- get (sp_xs sp) (iLo + 1) ;;
        kh <- get (sp_coeffs sp) iHi ;;
        xh <- get (sp_xs sp) iHi ;;
        for_ (iLo + 1) iHi (fun i sum =>
          k <- get (sp_coeffs sp) i ;;
          x0 <- get (sp_xs sp) i ;;
          x1 <- get (sp_xs sp) (i + 1) ;;
          Ok (sum + integ_term k x0 x1)%num)
          (integ_term kl lo xl + integ_term kh xh hi)%num.

(** spline.go:135-156; the recursive call has its arguments in order. *)
Definition spline_integrate (sp : spline) (lo hi : F) : res F :=
  if (lo >? hi)%num then v <- integ_ordered sp hi lo ;; Ok (- v)%num
  else integ_ordered sp lo hi.

(** ** cubic_interpolators.go *)

(** cubic_interpolators.go:11-20 *)
Record bicubic := BiCubic {
  bc_xs : list F; bc_ys : list F; bc_vals : list F; bc_nx : Z;
  bc_lastY : F; bc_ySplines : list spline; bc_xVals : list F; bc_xSpline : spline }.

(** cubic_interpolators.go:81-83, 91-93, 232-234, 258-260: evaluate every spline at one point. *)
Definition eval_all_splines (n : Z) (sps : list spline) (y : F) : res (list F) :=
  tabulate n (fun i => sp <- get sps i ;; spline_eval sp y).

(** cubic_interpolators.go:22-39 with initSplines, 67-86 *)
Definition new_bicubic (xs ys vals : list F) : res bicubic :=
  if negb (zlen xs * zlen ys =? zlen vals) then Panic
  else
    let nx := zlen xs in
    sps <- tabulate (zlen xs) (fun xi =>
      yv <- tabulate (zlen ys) (fun yi => get vals (nx * yi + xi)) ;;
      new_spline ys yv) ;;
    lastY <- get ys 0 ;;
    xv <- eval_all_splines (zlen xs) sps lastY ;;
    xsp <- new_spline xs xv ;;
    Ok (BiCubic xs ys vals nx lastY sps xv xsp).

(** cubic_interpolators.go:41-65 *)
Definition new_uniform_bicubic (x0 dx : F) (nx : Z) (y0 dy : F) (ny : Z) (vals : list F) : res bicubic :=
  if negb (nx * ny =? zlen vals) then Panic
  else
    xs <- tabulate nx (fun i => Ok (x0 + #i * dx)%num) ;;
    ys <- tabulate ny (fun i => Ok (y0 + #i * dy)%num) ;;
    new_bicubic xs ys vals.

(** cubic_interpolators.go:88-99: the value and the updated interpolator. *)
Definition bicubic_eval (b : bicubic) (x y : F) : res (F * bicubic) :=
  b <- (if negb (y =? bc_lastY b)%num then
          xv <- eval_all_splines (zlen (bc_xVals b)) (bc_ySplines b) y ;;
          xsp <- spline_init (bc_xSpline b) (bc_xs b) xv ;;
          Ok (BiCubic (bc_xs b) (bc_ys b) (bc_vals b) (bc_nx b) y (bc_ySplines b) xv xsp)
        else Ok b) ;;
  v <- spline_eval (bc_xSpline b) x ;;
  Ok (v, b).

(** cubic_interpolators.go:130-141 *)
Record tricubic := TriCubic {
  tc_xs : list F; tc_ys : list F; tc_zs : list F; tc_vals : list F; tc_nx : Z; tc_ny : Z;
  tc_lastY : F; tc_lastZ : F;
  tc_zSplines : list spline; tc_ySplines : list spline; tc_xSpline : spline }.

(** cubic_interpolators.go:219-223, 246-250: the values along one line of constant x and z. *)
Definition tc_yvals (nx ny : Z) (zsps : list spline) (xi : Z) (z : F) : res (list F) :=
  tabulate ny (fun yi => sp <- get zsps (yi * nx + xi) ;; spline_eval sp z).

(** cubic_interpolators.go:144-162 with initSplines, 196-237.  The table of
    z-splines is indexed by yi*nx + xi; it is tabulated in that order. *)
Definition new_tricubic (xs ys zs vals : list F) : res tricubic :=
  if negb (zlen xs * zlen ys * zlen zs =? zlen vals) then Panic
  else
    let nx := zlen xs in let ny := zlen ys in
    zsps <- tabulate (nx * ny) (fun c =>
      yi <- quot c nx ;; xi <- rem c nx ;;
      zv <- tabulate (zlen zs) (fun zi => get vals (nx * ny * zi + nx * yi + xi)) ;;
      new_spline zs zv) ;;
    lastZ <- get zs 0 ;;
    ysps <- tabulate nx (fun xi =>
      yv <- tc_yvals nx ny zsps xi lastZ ;; new_spline ys yv) ;;
    lastY <- get ys 0 ;;
    xv <- eval_all_splines nx ysps lastY ;;
    xsp <- new_spline xs xv ;;
    Ok (TriCubic xs ys zs vals nx ny lastY lastZ zsps ysps xsp).

(** cubic_interpolators.go:164-194 *)
Definition new_uniform_tricubic (x0 dx : F) (nx : Z) (y0 dy : F) (ny : Z) (z0 dz : F) (nz : Z)
    (vals : list F) : res tricubic :=
  if negb (nx * ny * nz =? zlen vals) then Panic
  else
    xs <- tabulate nx (fun i => Ok (x0 + #i * dx)%num) ;;
    ys <- tabulate ny (fun i => Ok (y0 + #i * dy)%num) ;;
    zs <- tabulate nz (fun i => Ok (z0 + #i * dz)%num) ;;
    new_tricubic xs ys zs vals.

(** cubic_interpolators.go:239-266 *)
Definition tricubic_eval (t : tricubic) (x y z : F) : res (F * tricubic) :=
  t <- (if negb (y =? tc_lastY t)%num || negb (z =? tc_lastZ t)%num then
          t <- (if negb (z =? tc_lastZ t)%num then
                  ysps <- tabulate (zlen (tc_xs t)) (fun xi =>
                    yv <- tc_yvals (tc_nx t) (zlen (tc_ys t)) (tc_zSplines t) xi z ;;
                    sp <- get (tc_ySplines t) xi ;;
                    spline_init sp (tc_ys t) yv) ;;
                  Ok (TriCubic (tc_xs t) (tc_ys t) (tc_zs t) (tc_vals t) (tc_nx t) (tc_ny t)
                        (tc_lastY t) z (tc_zSplines t) ysps (tc_xSpline t))
                else Ok t) ;;
          xv <- eval_all_splines (zlen (tc_xs t)) (tc_ySplines t) y ;;
          xsp <- spline_init (tc_xSpline t) (tc_xs t) xv ;;
          Ok (TriCubic (tc_xs t) (tc_ys t) (tc_zs t) (tc_vals t) (tc_nx t) (tc_ny t)
                y (tc_lastZ t) (tc_zSplines t) (tc_ySplines t) xsp)
        else Ok t) ;;
  v <- spline_eval (tc_xSpline t) x ;;
  Ok (v, t).

End Spline.
Arguments coeff F : clear implicits.
Arguments spline F : clear implicits.
Arguments bicubic F : clear implicits.
Arguments tricubic F : clear implicits.
