(** Model of /repo/render/hist.go.  [D] is float64, [F] is float32. *)
From Coq Require Import String.
From Coq Require Import ZArith List Bool.
From Verif Require Import Base.Res Base.Stride Base.Num Model.Geom Model.GridDeriv Model.Config Model.Render.
Import ListNotations.
Open Scope Z_scope.
Open Scope res_scope.

Section Hist.
Context {D F : Type} {ND : Num D} {NF : Num F} (up : F -> D) (cvt : D -> F).
Variables log10 pow10 : D -> D.        (* math.Log10 and math.Pow(10, _) *)

(** hist.go:15-19 *)
Record hist_info := HI { hi_min : D; hi_max : D; hi_bins : Z; hi_scale : string }.
(** hist.go:21-26.  The centers are left out. *)
Record hist_box := HB { hb_origin : vec3 D; hb_span : vec3 D; hb_counts : list Z }.
(** The fields of io.SheetHeader that are used here. *)
Record hist_sheet := HS { hs_origin : vec3 F; hs_width : vec3 F; hs_total : D; hs_grid : Z; hs_seg : Z }.
(** The fields of io.GridHeader that are used here (Loc.Origin, Loc.Span,
    Loc.PixelSpan, Loc.PixelWidth, Cosmo.BoxWidth). *)
Record hist_grid := HG { hg_origin : vec3 D; hg_span : vec3 D; hg_pixels : vec3 Z; hg_pixelWidth : D; hg_box : D }.

Definition all3 (f : Z -> bool) : bool := f 0 && f 1 && f 2.

(** hist.go:146 and 418 *)
Definition is_log (info : hist_info) : bool := String.eqb (to_lower (hi_scale info)) "log".

(** hist.go:143-158 *)
Definition hist_centers (info : hist_info) : res (list D) :=
  let '(mn, mx) := if is_log info then (log10 (hi_min info), log10 (hi_max info)) else (hi_min info, hi_max info) in
  let dx := ((mx - mn) / #(hi_bins info))%num in
  tabulate (hi_bins info) (fun i =>
    let c := (mn + dx * (#i + #1 / #2))%num in
    Ok (if is_log info then pow10 c else c)).

(** hist.go:413-442 *)
Definition histogram (x : list D) (ok : list bool) (info : hist_info) (counts : list Z) : res (list Z) :=
  let '(mn, mx) := if is_log info then (log10 (hi_min info), log10 (hi_max info)) else (hi_min info, hi_max info) in
  let fBins := (#(hi_bins info))%num in
  let dx := ((mx - mn) / fBins)%num in
  for_ 0 (zlen x) (fun i counts =>
    o <- get ok i ;;
    if negb o then Ok counts else
    v <- get x i ;;
    let idx := (((if is_log info then log10 v else v) - mn) / dx)%num in
    if (idx <? #0)%num || (idx >=? fBins)%num then Ok counts else
    n <- get counts (ntrunc idx) ;;
    set counts (ntrunc idx) (n + 1)) counts.

(** hist.go:218-222 *)
Definition contains1D (a aSpan b L : D) : bool :=
  let b := (if b >=? L then b - L else b)%num in
  (((b >? a) && (a + aSpan >? b)) || ((b <? a) && (a + aSpan - L >? b)))%num.

(** hist.go:208-213 *)
Definition intersect1D (a aSpan b bSpan L : D) : bool :=
  contains1D a aSpan b L || contains1D a aSpan (b + bSpan)%num L ||
  contains1D b bSpan a L || contains1D b bSpan (a + aSpan)%num L.

(** hist.go:38-45 *)
Definition box_contains (box : hist_box) (v : vec3 F) (L : D) : bool :=
  all3 (fun k => contains1D (vget (hb_origin box) k) (vget (hb_span box) k) (up (vget v k)) L).

(** hist.go:193-203 *)
Definition hist_intersect (hd : hist_sheet) (box : hist_box) : bool :=
  all3 (fun k => intersect1D (up (vget (hs_origin hd) k)) (up (vget (hs_width hd) k))
                             (vget (hb_origin box) k) (vget (hb_span box) k) (hs_total hd)).

(** hist.go:310-323: one component of one corner. *)
Definition bound_step (L : F) (vec : F) (s : F * F) : F * F :=
  let '(origin, span) := s in
  (let delta := vec - origin in
   let delta := if delta >? L / #2 then delta - L else if delta <? nopp L / #2 then delta + L else delta in
   if (delta >? #0) && (delta >? span) then (origin, delta)
   else if delta <? #0 then
     let origin := origin - delta in
     (if origin <? #0 then origin + L else origin, span + delta)
   else (origin, span))%num.

(** hist.go:294-329 *)
Definition cube_bounding_box (hd : hist_sheet) (skip : Z) (xs : list (vec3 F)) (ix iy iz : Z) : res (vec3 F * vec3 F) :=
  let w := hs_grid hd in
  let L := cvt (hs_total hd) in
  o <- get xs (ix + iy * w + iz * w * w) ;;
  stride 0 skip skip (fun dz s => stride 0 skip skip (fun dy s => stride 0 skip skip (fun dx s =>
    let '(origin, span) := s in
    vec <- get xs (ix + dx + (iy + dy) * w + (iz + dz) * w * w) ;;
    let r k := bound_step L (vget vec k) (vget origin k, vget span k) in
    Ok (V3 (fst (r 0)) (fst (r 1)) (fst (r 2)), V3 (snd (r 0)) (snd (r 1)) (snd (r 2)))) s) s)
    (o, V3 (#0)%num (#0)%num (#0)%num).

(** hist.go:267-292 *)
Definition cube_intersects (hd : hist_sheet) (skip : Z) (xs : list (vec3 F)) (idx : Z) : res bool :=
  let w := hs_grid hd in
  ix <- rem idx w ;;
  q <- quot idx w ;;
  iy <- rem q w ;;
  iz <- quot idx (w * w) ;;
  if (ix <? 0) || (skip + ix >=? w) || (iy <? 0) || (skip + iy >=? w) || (iz <? 0) || (skip + iz >=? w) then Panic else
  b <- cube_bounding_box hd skip xs ix iy iz ;;
  Ok (all3 (fun k => intersect1D (up (vget (hs_origin hd) k)) (up (vget (hs_width hd) k))
                                 (up (vget (fst b) k)) (up (vget (snd b) k)) (hs_total hd))).

(** hist.go:386-401 *)
Definition grid_index_axis (g : hist_grid) (vec : vec3 F) (k : Z) : option Z :=
  (let delta := up (vget vec k) - vget (hg_origin g) k in
   let delta := if delta <? #0 then delta + hg_box g else delta in
   let delta := if delta >=? vget (hg_span g) k then delta - hg_box g else delta in
   if (delta <? #0) || (delta >=? vget (hg_span g) k) then None
   else Some (ntrunc (delta / hg_pixelWidth g)))%num.
Definition grid_index (g : hist_grid) (vec : vec3 F) : Z :=
  match grid_index_axis g vec 0, grid_index_axis g vec 1, grid_index_axis g vec 2 with
  | Some i, Some j, Some k => i + j * v0 (hg_pixels g) + k * (v0 (hg_pixels g) * v1 (hg_pixels g))
  | _, _, _ => -1
  end.

(** hist.go:361-365: one coordinate. *)
Definition wrap_sample (L x : F) : F :=
  (let x := if x >=? L then x - L else x in if x <? #0 then x + L else x)%num.

(** hist.go:360-383: one sample. *)
Definition sample_density (hd : hist_sheet) (box : hist_box) (g : hist_grid) (grid : list D) (p : vec3 F) : res (D * bool) :=
  let p := vmap (wrap_sample (cvt (hs_total hd))) p in
  if negb (box_contains box p (hs_total hd)) then Ok ((nopp #1)%num, false) else
  let idx := grid_index g p in
  if idx >=? 0 then (d <- get grid idx ;; Ok (d, true)) else Ok ((nopp #1)%num, false).

(** hist.go:335-384.  [draw] is the value of rand.Int63n.  The float32 copies of
    the box are not used in the code.  The result is densities and inBox, which
    have one entry per point of a unit buffer. *)
Definition get_densities (hd : hist_sheet) (skip : Z) (xs : list (vec3 F)) (box : hist_box) (g : hist_grid) (grid : list D)
    (units : list (list (vec3 F))) (draw i dir : Z) : res (list D * list bool) :=
  t <- tetra_idxs i (hs_grid hd) skip dir ;;
  a <- get xs (i0 t) ;; b <- get xs (i1 t) ;; c <- get xs (i2 t) ;; d <- get xs (i3 t) ;;
  let tet := tetra_init tetra_zero a b c d in
  unit <- get units draw ;;
  let pts := fst (distribute_tetra tet unit) in
  r <- tabulate (zlen pts) (fun j => p <- get pts j ;; sample_density hd box g grid p) ;;
  Ok (map fst r, map snd r).

(** hist.go:242-257: the loops over the cubes of a segment, for any action on
    the chosen cubes. *)
Definition cube_loop {S} (segWidth gridWidth skip workers worker : Z) (visit : Z -> S -> res S) (s : S) : res S :=
  stride 0 segWidth skip (fun z s => stride 0 segWidth skip (fun y s => stride 0 segWidth skip (fun x s =>
    let idx := x + y * gridWidth + z * gridWidth * gridWidth in
    r <- rem idx (skip * skip * skip * workers) ;;
    if negb (r =? worker) then Ok s else visit idx s) s) s) s.

(** hist.go:251-255.  The state is the histogram and the number of random
    draws made so far by this worker. *)
Definition cube_visit (hd : hist_sheet) (skip : Z) (xs : list (vec3 F)) (box : hist_box) (info : hist_info) (g : hist_grid) (grid : list D)
    (units : list (list (vec3 F))) (choose : Z -> Z) (idx : Z) (s : list Z * Z) : res (list Z * Z) :=
  ok <- cube_intersects hd skip xs idx ;;
  if negb ok then Ok s else
  for_ 0 6 (fun dir s =>
    let '(hist, n) := s in
    q <- get_densities hd skip xs box g grid units (choose n) idx dir ;;
    h <- histogram (fst q) (snd q) info hist ;;
    Ok (h, n + 1)) s.

(** hist.go:227-263: the histogram left in hists[worker]. *)
Definition chan_histogram (hd : hist_sheet) (skip : Z) (xs : list (vec3 F)) (box : hist_box) (info : hist_info) (g : hist_grid) (grid : list D)
    (units : list (list (vec3 F))) (quantity : string) (workers worker : Z) (choose : Z -> Z) : res (list Z) :=
  let hist := map (fun _ => 0) (repeat 0 (Z.to_nat (hi_bins info))) in
  if negb (String.eqb (to_lower quantity) (to_lower "Density")) then Panic else
  s <- cube_loop (hs_seg hd) (hs_grid hd) skip workers worker
         (cube_visit hd skip xs box info g grid units choose) (hist, 0) ;;
  Ok (fst s).

(** hist.go:403-411.  Not called anywhere. *)
Definition periodize_corner (L : F) (v : vec3 F) : vec3 F :=
  (* Corners[i][0] is read again for every k and so may have been moved. *)
  let step v k :=
    (let delta := vget v k - vget v 0 in
     let v := if delta >? L / #2 then vset v k (vget v k - L) else v in
     if delta <? nopp L / #2 then vset v k (vget v k + L) else v)%num in
  step (step (step v 0) 1) 2.

(** hist.go:177-181: adding the histogram of a worker to Counts. *)
Definition add_counts (bins : Z) (h : list Z) (counts : list Z) : res (list Z) :=
  for_ 0 bins (fun j counts => a <- get counts j ;; b <- get h j ;; set counts j (a + b)) counts.
End Hist.
Arguments hist_info D : clear implicits. Arguments hist_box D : clear implicits.
Arguments hist_sheet D F : clear implicits. Arguments hist_grid D : clear implicits.

(** ** Goroutines of HistFromFile, hist.go:165-182.  The main goroutine starts
    all [n] workers and then receives [n] numbers from a channel with room for
    [n].  Worker phases are those of Model/Render.v. *)
Section HistWorkers.
Variables B G : Type.
Variable add : B -> G -> res G.       (* hist.go:179-181 *)
Variable n : nat.                     (* man.workers *)
Variable prog : nat -> list (B -> B). (* atomic updates worker id makes to hists[id] *)

Inductive hmain := HSpawn (k : nat) | HRecv (k : nat).
Record hstate := HSt { h_ph : nat -> wphase B; h_bufs : nat -> B; h_chan : list nat; h_main : hmain; h_counts : G }.

Inductive hstep : hstate -> hstate -> Prop :=
| h_spawn f b c g k : (k < n)%nat ->
    hstep (HSt f b c (HSpawn k) g) (HSt (at_ f k (Running (prog k))) b c (HSpawn (k + 1)) g)
| h_spawned f b c g :
    hstep (HSt f b c (HSpawn n) g) (HSt f b c (HRecv 0) g)
| h_work f b c m g i u rest : f i = Running (u :: rest) ->
    hstep (HSt f b c m g) (HSt (at_ f i (Running rest)) (at_ b i (u (b i))) c m g)
| h_send f b c m g i : f i = Running [] -> (length c < n)%nat ->
    hstep (HSt f b c m g) (HSt (at_ f i Finished) b (c ++ [i]) m g)
| h_recv f b c k g g' i : (k < n)%nat -> add (b i) g = Ok g' ->
    hstep (HSt f b (i :: c) (HRecv k) g) (HSt f b c (HRecv (k + 1)) g').

Definition hinit (b : nat -> B) (g : G) : hstate := HSt (fun _ => NotStarted) b [] (HSpawn 0) g.
Definition hfinal (s : hstate) : Prop := h_main s = HRecv n.

Inductive hreach (b : nat -> B) (g : G) : hstate -> Prop :=
| hr_init : hreach b g (hinit b g)
| hr_step s s' : hreach b g s -> hstep s s' -> hreach b g s'.
End HistWorkers.
Arguments HSt {B G}. Arguments h_ph {B G}. Arguments h_bufs {B G}. Arguments h_chan {B G}. Arguments h_main {B G}. Arguments h_counts {B G}.
