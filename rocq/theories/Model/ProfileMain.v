(** Model of main in /repo/render/scripts/profile.go: the profiles of a halo
    from the image of it and the table of its subhalos.

    Simplifications: reading text tables (github.com/phil-mansfield/table) is an
    argument, opening and creating files succeed, the output is the numbers
    before they are rounded by %9.4g.  rand.Float64 is the stream [rnd]; the seed
    (line 52) is not modelled. *)
From Coq Require Import ZArith List Bool.
From Verif Require Import Base.Res Base.Num Base.Bytes Model.Geom Model.GridDeriv Model.Halo Model.SheetIO Model.GridIO Model.Profile.
Import ListNotations.
Open Scope Z_scope.
Open Scope res_scope.

Section ProfileMain.
Context {D : Type} {ND : Num D}.
Variable fsqrt : D -> D.          (* math.Sqrt *)
Variable isnan : D -> bool.       (* math.IsNaN *)
Variable nan : D.                 (* math.NaN() *)
Variables of64 of32 : Z -> D.     (* the value of the bits of a float64, a float32 *)

(** profile.go:17-21 *)
Record phalo := PHalo { ph_ih : Z; ph_pos : vec3 D; ph_r : D }.

(** profile.go:365-379 after reading the table; the columns 0 to 4. *)
Definition read_subhalos (cols : list (list D)) : res (phalo * list phalo) :=
  ihs <- get cols 0 ;; xs <- get cols 1 ;; ys <- get cols 2 ;; zs <- get cols 3 ;; rs <- get cols 4 ;;
  let at_ i :=
    ih <- get ihs i ;; x <- get xs i ;; y <- get ys i ;; z <- get zs i ;; r <- get rs i ;;
    Ok (PHalo (ntrunc ih) (V3 x y z) r) in
  h <- at_ 0 ;;
  shs <- tabulate (zlen ihs - 1) (fun i => at_ (i + 1)) ;;
  Ok (h, shs).

(** halo/finder.go:21-30 *)
Definition sphere_bounds (pos : vec3 D) (r cw width : D) : cellbounds :=
  let b i := sphere_bounds1 (vget pos i) r cw width in
  CB (V3 (fst (b 0)) (fst (b 1)) (fst (b 2))) (V3 (snd (b 0)) (snd (b 1)) (snd (b 2))).

(** profile.go:46-49 *)
Fixpoint remove_subhalos (bh : cellbounds) (cw width : D) (totalPixels : Z) (shs : list phalo) (grid : list D) : res (list D) :=
  match shs with
  | [] => Ok grid
  | sh :: shs =>
      grid <- remove_subhalo bh (sphere_bounds (ph_pos sh) (ph_r sh) cw width) nan totalPixels grid ;;
      remove_subhalos bh cw width totalPixels shs grid
  end.

(** profile.go:103-110: the pairs of numbers in each of the three lines. *)
Definition print_vecs (vecs : list (vec3 D)) : list (list (D * D)) :=
  map (fun dim => map (fun v => (vget v dim, nan)) vecs) [0; 1; 2].

(** profile.go:72-79: the lines of numbers in a file. *)
Definition print_data (profs : list (vec3 D * list D * list D)) : res (list (list (D * D))) :=
  let vecs := map (fun p => fst (fst p)) profs in
  rows <- print_profiles (map (fun p => snd (fst p)) profs) (map snd profs) ;;
  Ok (print_vecs vecs ++ rows).

(** profile.go:53-56: the profiles for one axis.  [used] random numbers have
    been drawn before; the second result is the number drawn afterwards. *)
Definition axis_lines (fuel : nat) (grid : list D) (span : vec3 Z) (cw : D) (rnd : Z -> D) (axis used : Z) :
  res (list (vec3 D * list D * list D) * Z) :=
  let units k := random_unit fsqrt (rnd (used + 3 * k)) (rnd (used + 3 * k + 1)) (rnd (used + 3 * k + 2)) axis in
  '(profs, attempts) <- line_profiles fsqrt isnan fuel grid span 1000 cw units 0 [] ;;
  Ok (profs, used + 3 * attempts).

(** profile.go:23-70.  [nargs] is len(os.Args).  The result is the lines of the
    files _lines, _x_lines, _y_lines and _z_lines.  Fuel: the number of
    directions tried for each file. *)
Definition profile_main (fuel : nat) (nargs : Z) (table : outcome (list (list D))) (file : list Z) (rnd : Z -> D) :
  res (list (list (list (D * D)))) :=
  if negb (nargs =? 4) then Fatal else
  match table with
  | Err => Fatal
  | Good cols =>
      '(_, shs) <- read_subhalos cols ;;
      match read_grid_header file with
      | Err => Fatal
      | Good hd =>
          g <- read_grid file ;;
          match g with
          | Err => Fatal
          | Good words =>
              let grid := map of32 words in
              let bh := CB (li_pixelOrigin (gh_loc hd)) (li_pixelSpan (gh_loc hd)) in
              let cw := of64 (li_pixelWidth (gh_loc hd)) in
              let width := of64 (ci_boxWidth (gh_cosmo hd)) in
              let totalPixels := round (width / cw)%num in
              grid <- remove_subhalos bh cw width totalPixels shs grid ;;
              let span := Geom.width bh in
              _ <- radii fsqrt span cw ;;
              '(l, used) <- axis_lines fuel grid span cw rnd (-1) 0 ;;
              '(lx, used) <- axis_lines fuel grid span cw rnd 0 used ;;
              '(ly, used) <- axis_lines fuel grid span cw rnd 1 used ;;
              '(lz, used) <- axis_lines fuel grid span cw rnd 2 used ;;
              o <- print_data l ;; ox <- print_data lx ;; oy <- print_data ly ;; oz <- print_data lz ;;
              Ok [o; ox; oy; oz]
          end
      end
  end.
End ProfileMain.
Arguments phalo D : clear implicits.
