(** Model of /repo/render/scripts/profile.go: the density profiles along random
    lines through a rendered halo.  [D] is float64.  main is in
    Model/ProfileMain.v. *)
From Coq Require Import ZArith List Bool.
From Verif Require Import Base.Res Base.Num Model.Geom Model.GridDeriv Model.Halo.
Import ListNotations.
Open Scope Z_scope.
Open Scope res_scope.

(** profile.go:147-157, the axis is 0, 1 or 2 *)
Definition grid_mult (span : vec3 Z) (axis : Z) : res Z :=
  if axis =? 0 then Ok 1
  else if axis =? 1 then Ok (v0 span)
  else if axis =? 2 then Ok (v0 span * v1 span)
  else Panic.

Section Profile.
Context {D : Type} {ND : Num D}.
Variable fsqrt : D -> D.          (* math.Sqrt *)
Variable isnan : D -> bool.       (* math.IsNaN *)

(** profile.go:127-145.  The arguments are the three values of rand.Float64. *)
Definition random_unit (fx fy fz : D) (axis : Z) : vec3 D :=
  (let x := fx * #2 - #1 in let y := fy * #2 - #1 in let z := fz * #2 - #1 in
   let x := if (axis =? 0)%Z then #0 else x in
   let y := if (axis =? 1)%Z then #0 else y in
   let z := if (axis =? 2)%Z then #0 else z in
   let norm := fsqrt (x * x + y * y + z * z) in
   V3 (x / norm) (y / norm) (z / norm))%num.

(** profile.go:164-166 *)
Definition major_axis (unit : vec3 D) : Z :=
  let axis0 := 0 in
  let axis0 := (if nabs (v1 unit) >? nabs (vget unit axis0) then 1%Z else axis0)%num in
  (if nabs (v2 unit) >? nabs (vget unit axis0) then 2%Z else axis0)%num.

(** profile.go:184-214.  [k] iterations are left; the result is [None] for the
    return in line 207.  smoothStarted is never changed. *)
Fixpoint line_loop (k : nat) (grid : list D) (span mult : vec3 Z) (center slope : vec3 D) (forward : bool) (cw : D)
    (smoothStarted : bool) (j n : Z) (rs rhos : list D) : res (option (Z * list D * list D)) :=
  match k with
  | O => Ok (Some (n, rs, rhos))
  | S k =>
      let dxp0 := nofZ j in
      let dxp0 := if forward then dxp0 else nopp dxp0 in
      let dxp1 := (dxp0 * v1 slope)%num in let dxp2 := (dxp0 * v2 slope)%num in
      let xp0 := (v0 center + dxp0)%num in let xp1 := (v1 center + dxp1)%num in let xp2 := (v2 center + dxp2)%num in
      let i0 := ntrunc xp0 in let i1 := ntrunc xp1 in let i2 := ntrunc xp2 in
      if (i0 <? 0) || (i1 <? 0) || (i2 <? 0) || (i0 + 1 >=? v0 span) || (i1 + 1 >=? v1 span) || (i2 + 1 >=? v2 span)
      then Ok (Some (n, rs, rhos))
      else
        let d1 := (xp1 - #i1)%num in let d2 := (xp2 - #i2)%num in
        let t1 := (#1 - d1)%num in let t2 := (#1 - d2)%num in
        g00 <- get grid (i0 * v0 mult + i1 * v1 mult + i2 * v2 mult) ;;
        g01 <- get grid (i0 * v0 mult + i1 * v1 mult + (i2 + 1) * v2 mult) ;;
        g10 <- get grid (i0 * v0 mult + (i1 + 1) * v1 mult + i2 * v2 mult) ;;
        g11 <- get grid (i0 * v0 mult + (i1 + 1) * v1 mult + (i2 + 1) * v2 mult) ;;
        let rho := (g00 * t1 * t2 + g01 * t1 * d2 + g10 * d1 * t2 + g11 * d1 * d2)%num in
        if isnan rho && smoothStarted then Ok None
        else
          rhos <- set rhos j rho ;;
          rs <- set rs j (fsqrt (dxp0 * dxp0 + dxp1 * dxp1 + dxp2 * dxp2) * cw)%num ;;
          line_loop k grid span mult center slope forward cw smoothStarted (j + 1) (n + 1) rs rhos
  end.

(** profile.go:159-217.  The spans and steps of line_loop are those of axis0,
    axis1 and axis2 in this order; the centers are those of axes 0, 1 and 2, as
    in lines 176-178.  [None] stands for ok = false. *)
Definition extract_line (grid : list D) (span : vec3 Z) (unit : vec3 D) (cw : D) : res (option (list D * list D)) :=
  let axis0 := major_axis unit in
  let axis1 := Z.rem (axis0 + 1) 3 in let axis2 := Z.rem (axis0 + 2) 3 in
  mult0 <- grid_mult span axis0 ;;
  mult1 <- grid_mult span axis1 ;;
  mult2 <- grid_mult span axis2 ;;
  let len := Z.quot (vget span axis0) 2 in
  if len <? 0 then Panic else
  let rs := repeat (nofZ 0) (Z.to_nat len) in
  let c0 := (#(v0 span) / #2)%num in let c1 := (#(v1 span) / #2)%num in let c2 := (#(v2 span) / #2)%num in
  let dx01 := (vget unit axis1 / vget unit axis0)%num in
  let dx02 := (vget unit axis2 / vget unit axis0)%num in
  r <- line_loop (Z.to_nat len) grid (V3 (vget span axis0) (vget span axis1) (vget span axis2)) (V3 mult0 mult1 mult2)
         (V3 c0 c1 c2) (V3 (nofZ 1) dx01 dx02) (negb (vget unit axis0 <? #0)%num) cw false 0 0 rs rs ;;
  match r with
  | None => Ok None
  | Some (n, rs, rhos) => rs <- slice rs 0 n ;; rhos <- slice rhos 0 n ;; Ok (Some (rs, rhos))
  end.

(** profile.go:81-100.  [units k] is the direction drawn in attempt [k]. *)
Fixpoint line_profiles (fuel : nat) (grid : list D) (span : vec3 Z) (profCount : Z) (cw : D) (units : Z -> vec3 D)
    (attempts : Z) (profs : list (vec3 D * list D * list D)) : res (list (vec3 D * list D * list D) * Z) :=
  if zlen profs =? profCount then Ok (profs, attempts) else
  match fuel with
  | O => NoFuel
  | S fuel =>
      let unit := units attempts in
      r <- extract_line grid span unit cw ;;
      match r with
      | None => line_profiles fuel grid span profCount cw units (attempts + 1) profs
      | Some (rs, rhos) => line_profiles fuel grid span profCount cw units (attempts + 1) (profs ++ [(unit, rs, rhos)])
      end
  end.

(** profile.go:112-125: the pairs of numbers in each line of the output. *)
Definition print_profiles (rProfs rhoProfs : list (list D)) : res (list (list (D * D))) :=
  p0 <- get rProfs 0 ;;
  let minLen := fold_left (fun m prof => if m >? zlen prof then zlen prof else m) rProfs (zlen p0) in
  tabulate minLen (fun col => tabulate (zlen rProfs) (fun p =>
    rp <- get rProfs p ;; r <- get rp col ;; rhop <- get rhoProfs p ;; rho <- get rhop col ;; Ok (r, rho))).

(** profile.go:219-225.  Ceil(x) is the floor of x for integers and one more
    otherwise. *)
Definition round (x : D) : Z :=
  (if nabs (#(nfloor x) - x) <? #1 / #2 then nfloor x
   else if #(nfloor x) =? x then nfloor x else (nfloor x + 1)%Z)%num.

(** profile.go:227-254 *)
Definition radii (span : vec3 Z) (cw : D) : res (list D) :=
  let n := v0 span * v1 span * v2 span in
  if n <? 0 then Panic else
  let mid s := ((#s - #1 / #2) * cw / #2)%num in
  '(_, rs) <- for_ 0 (v2 span) (fun z st =>
    let dz := (#z * cw - mid (v2 span))%num in
    for_ 0 (v1 span) (fun y st =>
      let dy := (#y * cw - mid (v1 span))%num in
      for_ 0 (v0 span) (fun x '(idx, rs) =>
        let dx := (#x * cw - mid (v0 span))%num in
        rs <- set rs idx (fsqrt (dx * dx + dy * dy + dz * dz)%num) ;;
        Ok (idx + 1, rs)) st) st) (0, repeat (nofZ 0) (Z.to_nat n)) ;;
  Ok rs.

(** profile.go:257-277; [nan] is math.NaN().  The count n is not used. *)
Definition remove_subhalo (bh bsh : cellbounds) (nan : D) (width : Z) (grid : list D) : res (list D) :=
  let o := origin bh in let s := Geom.width bh in
  let lo := origin bsh in let hi := vmap2 Z.add (origin bsh) (Geom.width bsh) in
  for_ (v2 lo) (v2 hi) (fun z grid =>
    if negb (bounds_inside (v2 o) (v2 s) z width) then Ok grid else
    for_ (v1 lo) (v1 hi) (fun y grid =>
      if negb (bounds_inside (v1 o) (v1 s) y width) then Ok grid else
      for_ (v0 lo) (v0 hi) (fun x grid =>
        if negb (bounds_inside (v0 o) (v0 s) x width) then Ok grid else
        let bx := convert_index (v0 o) x width in
        let by_ := convert_index (v1 o) y width in
        let bz := convert_index (v2 o) z width in
        set grid (bz * v0 s * v1 s + by_ * v0 s + bx) nan) grid) grid) grid.

(** ** binnedMean *)

(** profile.go:279-283; [None] is a nil slice. *)
Record bm_options := BMO { bm_valid : option (list bool); bm_low : D; bm_high : D; bm_log : bool }.

(** profile.go:301-302 and 328: is element [i] left out? *)
Definition bm_masked (opt : bm_options) (i : Z) : res bool :=
  match bm_valid opt with None => Ok false | Some v => b <- get v i ;; Ok (negb b) end.

(** profile.go:300-304 and 311-315, with [better] the comparison. *)
Definition bm_extreme (opt : bm_options) (xs ys : list D) (better : D -> D -> bool) (start : D) : res D :=
  for_ 0 (zlen xs) (fun i m =>
    x <- get xs i ;; out <- bm_masked opt i ;;
    if (out : bool) then Ok m else
    y <- get ys i ;;
    if isnan y then Ok m else Ok (if better x m then x else m)) start.

Variables (flog fexp : D -> D).            (* math.Log, math.Exp *)
Variables (maxFloat smallestFloat : D).    (* math.MaxFloat64, math.SmallestNonzeroFloat64 *)

(** profile.go:297-320.  Both limits depend on lowLim, as in the code. *)
Definition bm_limits (opt : bm_options) (xs ys : list D) : res (D * D) :=
  minX <- (if isnan (bm_low opt) then bm_extreme opt xs ys nltb maxFloat else Ok (bm_low opt)) ;;
  maxX <- (if isnan (bm_low opt) then bm_extreme opt xs ys (fun x m => nltb m x) smallestFloat else Ok (bm_high opt)) ;;
  Ok (if bm_log opt then (flog minX, flog maxX) else (minX, maxX)).

(** profile.go:327-347: counts and sums. *)
Definition bm_fill (opt : bm_options) (xs ys : list D) (binCount : Z) (minX maxX binWidth : D) : res (list Z * list D) :=
  '(_, counts, means) <- for_ 0 (zlen xs) (fun i '(nans, counts, means) =>
    out <- bm_masked opt i ;;
    if (out : bool) then Ok (nans, counts, means) else
    x <- get xs i ;;
    let x := if bm_log opt then flog x else x in
    if ((x <? minX)%num || (x >? maxX)%num) then Ok (nans, counts, means) else
    let idx := ntrunc ((x - minX) / binWidth)%num in
    let idx := if idx =? binCount then idx - 1 else idx in
    y <- get ys i ;;
    if isnan y then c <- get nans idx ;; nans <- set nans idx (c + 1) ;; Ok (nans, counts, means)
    else
      c <- get counts idx ;; counts <- set counts idx (c + 1) ;;
      m <- get means idx ;; means <- set means idx (m + y)%num ;; Ok (nans, counts, means))
    (repeat 0 (Z.to_nat binCount), repeat 0 (Z.to_nat binCount), repeat (nofZ 0) (Z.to_nat binCount)) ;;
  Ok (counts, means).

(** profile.go:292-363.  A nil option is replaced by the caller of the model. *)
Definition binned_mean (xs ys : list D) (binCount : Z) (opt : bm_options) : res (list D * list D) :=
  '(minX, maxX) <- bm_limits opt xs ys ;;
  let binWidth := ((maxX - minX) / #binCount)%num in
  if binCount <? 0 then Panic else
  '(counts, means) <- bm_fill opt xs ys binCount minX maxX binWidth ;;
  '(shiftIdx, vals, means) <- for_ 0 (zlen counts) (fun idx '(shiftIdx, vals, means) =>
    c <- get counts idx ;;
    if c =? 0 then Ok (shiftIdx, vals, means) else
    m <- get means idx ;;
    means <- set means shiftIdx (m / #c)%num ;;
    let v := ((#idx + #1 / #2) * binWidth + minX)%num in
    vals <- set vals shiftIdx (if bm_log opt then fexp v else v) ;;
    Ok (shiftIdx + 1, vals, means)) (0, repeat (nofZ 0) (Z.to_nat binCount), means) ;;
  vals <- slice vals 0 shiftIdx ;; means <- slice means 0 shiftIdx ;; Ok (vals, means).
End Profile.
Arguments bm_options D : clear implicits.
