(** Model of /repo/render/density/interpolator.go and of the parts of
    /repo/render/render.go that split the work over goroutines.  [D] is
    float64, [F] is float32. *)
From Coq Require Import ZArith List Bool.
From Verif Require Import Base.Res Base.Stride Base.Num Model.Geom Model.GridDeriv Model.Density Model.Box.
Import ListNotations.
Open Scope Z_scope.
Open Scope res_scope.

(** ** interpolator.go *)

(** interpolator.go:196-198 *)
Definition index (x y z cells : Z) : Z := x + y * cells + z * cells * cells.

(** interpolator.go:200-205 *)
Definition coords (idx cells : Z) : res (vec3 Z) :=
  x <- rem idx cells ;;
  r <- rem idx (cells * cells) ;;
  y <- quot r cells ;;
  z <- quot idx (cells * cells) ;;
  Ok (V3 x y z).

(** interpolator.go:207-212 *)
Definition cb_subtr (a b : cellbounds) : vec3 Z := vmap2 Z.sub (origin a) (origin b).

Definition v3_eqb (a b : vec3 Z) : bool := (v0 a =? v0 b) && (v1 a =? v1 b) && (v2 a =? v2 b).
Definition cb_eqb (a b : cellbounds) : bool := v3_eqb (origin a) (origin b) && v3_eqb (width a) (width b).

Section MonteCarlo.
Context {D F : Type} {ND : Num D} {NF : Num F} (up : F -> D).

(** interpolator.go:26-42.  The random generator is an arbitrary stream of
    buffer numbers: choice number n is [mc_choose n].  The scratch buffers are
    left out. *)
Record mcarlo := MC {
  mc_sub : overlap; mc_seg : Z; mc_points : Z; mc_cells : Z; mc_skip : Z;
  mc_unit : list (list (vec3 F)); mc_choose : Z -> Z }.

(** interpolator.go:183-188 *)
Definition coord_neg (t : tetra F) (j : Z) : bool :=
  (vget (c0 t) j <? #0)%num || (vget (c1 t) j <? #0)%num || (vget (c2 t) j <? #0)%num || (vget (c3 t) j <? #0)%num.

(** interpolator.go:190-194 *)
Definition mod_coord (pts : list (vec3 F)) (j : Z) (width : F) : list (vec3 F) :=
  map (fun p => if (vget p j <? #0)%num then vset p j (vget p j + width)%num else p) pts.

(** interpolator.go:84-88 *)
Definition scaled_val (mc : mcarlo) (reqVel : bool) (ptVal : D) : D :=
  if reqVel then ptVal
  else (ptVal / #(mc_points mc) / #6 * #(mc_skip mc * mc_skip mc * mc_skip mc))%num.

(** interpolator.go:92-95 *)
Definition rel_cb (mc : mcarlo) : cellbounds :=
  CB (cb_subtr (domCb (mc_sub mc)) (bufCb (mc_sub mc))) (width (domCb (mc_sub mc))).

(** interpolator.go:102-106 *)
Definition never_mod (mc : mcarlo) : bool :=
  let w := width (rel_cb mc) in
  let half := Z.quot (ocells (mc_sub mc)) 2 in
  negb (cb_eqb (domCb (mc_sub mc)) (bufCb (mc_sub mc))) || ((half >? v0 w) && (half >? v1 w) && (half >? v2 w)).

(** interpolator.go:147-153: the points of one tetrahedron. *)
Definition wrap_points (mc : mcarlo) (t : tetra F) (pts : list (vec3 F)) : list (vec3 F) :=
  if never_mod mc then pts else
  fold_left (fun pts j => if coord_neg t j then mod_coord pts j (#(ocells (mc_sub mc)))%num else pts) [0; 1; 2] pts.

(** The state of the loops: the buffer, the number of random choices made, and
    the two reused Tetra structs. *)
Record mcstate := MS { ms_buf : contents D; ms_n : Z; ms_tet : tetra F; ms_vtet : tetra F }.

(** interpolator.go:113-179: one tetrahedron of one lattice cell. *)
Definition mc_tetra (mc : mcarlo) (reqVel : bool) (xs vs : list (vec3 F)) (ptVal : D) (gridIdx dir : Z) (s : mcstate) : res mcstate :=
  i <- tetra_idxs gridIdx (mc_seg mc + 1) (mc_skip mc) dir ;;
  a <- get xs (i0 i) ;; b <- get xs (i1 i) ;; c <- get xs (i2 i) ;; d <- get xs (i3 i) ;;
  let tet := tetra_init (ms_tet s) a b c d in
  vtet <- (if reqVel then
    a <- get vs (i0 i) ;; b <- get vs (i1 i) ;; c <- get vs (i2 i) ;; d <- get vs (i3 i) ;;
    Ok (tetra_init (ms_vtet s) a b c d) else Ok (ms_vtet s)) ;;
  if negb (cb_intersect (tetra_cell_bounds tet (#1)%num) (rel_cb mc) (mc_cells mc))
  then Ok (MS (ms_buf s) (ms_n s) tet vtet)
  else
    unit <- get (mc_unit mc) (mc_choose mc (ms_n s)) ;;
    let '(pts, tet) := distribute_tetra tet unit in
    let pts := wrap_points mc tet pts in
    let '(w, vtet) :=
      if reqVel then let '(ws, vtet) := distribute_tetra vtet unit in (WVector (map (vmap up) ws), vtet)
      else (WScalar [], vtet) in
    buf <- interpolate (mc_sub mc) (ms_buf s) pts ptVal w 0 (mc_points mc) 1 ;;
    Ok (MS buf (ms_n s + 1) tet vtet).

(** interpolator.go:110-113: one lattice cell, given by its running number. *)
Definition mc_cell (mc : mcarlo) (reqVel : bool) (xs vs : list (vec3 F)) (ptVal : D) (idx : Z) (s : mcstate) : res mcstate :=
  idxWidth <- quot (mc_seg mc) (mc_skip mc) ;;
  p <- coords idx idxWidth ;;
  let gridIdx := index (v0 p * mc_skip mc) (v1 p * mc_skip mc) (v2 p * mc_skip mc) (mc_seg mc + 1) in
  for_ 0 6 (fun dir s => mc_tetra mc reqVel xs vs ptVal gridIdx dir s) s.

(** interpolator.go:72-181.  [maxWidth] is computed there but not used. *)
Definition mc_interpolate (mc : mcarlo) (reqVel : bool) (b : contents D) (xs vs : list (vec3 F)) (ptVal : D)
    (low high jump : Z) : res (contents D) :=
  _ <- quot (mc_seg mc) (mc_skip mc) ;;
  let ptVal := scaled_val mc reqVel ptVal in
  s <- stride low high jump (fun idx s => mc_cell mc reqVel xs vs ptVal idx s) (MS b 0 tetra_zero tetra_zero) ;;
  Ok (ms_buf s).

(** ** render.go *)

(** render.go:182-189 *)
Definition pt_val (reqVel : bool) (cells countWidth : Z) : D :=
  if reqVel then (#1)%num
  else let frac := (#cells / #countWidth)%num in (frac * frac * frac)%num.

(** render.go:192-193: the number of lattice cells of a segment. *)
Definition seg_len (segWidth skip : Z) : res Z :=
  f <- quot segWidth skip ;; Ok (f * f * f).

(** render.go:305-323 with initWorkspaces (210-211): what worker [id] computes
    in its buffer. *)
Definition worker_run (mc : mcarlo) (reqVel : bool) (countWidth workers id : Z) (b : contents D) (xs vs : list (vec3 F)) : res (contents D) :=
  high <- seg_len (mc_seg mc) (mc_skip mc) ;;
  mc_interpolate mc reqVel b xs vs (pt_val reqVel (mc_cells mc) countWidth) id high workers.

End MonteCarlo.
Arguments mcarlo F : clear implicits.
Arguments mcstate D F : clear implicits.

(** render.go:225-228.  The loop runs at most as often as [x] has binary digits. *)
Fixpoint is_pow_two_loop (fuel : nat) (x : Z) : res bool :=
  match fuel with
  | O => NoFuel
  | Datatypes.S f =>
      if (Z.land x 1 =? 0) && (x >? 0) then is_pow_two_loop f (Z.shiftr x 1) else Ok (x =? 1)
  end.
Definition is_pow_two (x : Z) : res bool := is_pow_two_loop (Datatypes.S (Z.to_nat (Z.log2_up x))) x.

(** render.go:217-223 and hist.go:103-109: the skip stored in the manager before
    and after. *)
Definition subsample (skip subsampleLength : Z) : res Z :=
  ok <- is_pow_two skip ;;
  if negb ok then Fatal else Ok subsampleLength.
Definition manager_skip0 : Z := 1.  (* render.go:70 *)

(** render.go:92-115: the largest buffer size over the sheets that intersect a
    box.  [over b hd] is boxes[i].Overlap(&man.hd), [meets] the Intersect test. *)
Definition max_buf_size {B H} (boxes : list B) (hds : list H) (meets : B -> H -> bool) (over : B -> H -> overlap) : Z :=
  fold_left (fun m h => fold_left (fun m b =>
    if meets b h then (if buffer_size (over b h) >? m then buffer_size (over b h) else m) else m) boxes m) hds 0.

(** render.go:206-208 (SetGridLocation left out): a worker's buffer before a file. *)
Definition prepare {D} {ND : Num D} (b : buffer D) (n : Z) : res (buffer D) :=
  b <- buf_slice b 0 n ;; buf_clear b.

(** ** Goroutines of RenderDensityFromFile, render.go:255-277 *)
Section Workers.
Variables B G : Type.
Variable add : B -> G -> res G.       (* r.over.Add *)
Variable n : nat.                     (* man.workers *)
Variable prog : nat -> list (B -> B). (* atomic updates worker id makes to its own buffer *)

Inductive wphase := NotStarted | Running (rest : list (B -> B)) | Finished.

(** The main goroutine starts workers 0, ..., n - 2, runs worker n - 1 itself
    and then receives n worker numbers. *)
Inductive mphase := Spawning (k : nat) | Self | Receiving (k : nat).

Record pstate := PS { ph : nat -> wphase; bufs : nat -> B; chan : list nat; mainp : mphase; grd : G }.

Definition at_ {A} (f : nat -> A) (i : nat) (a : A) (j : nat) : A := if Nat.eqb j i then a else f j.

Inductive pstep : pstate -> pstate -> Prop :=
| p_spawn f b c g k : (k + 1 < n)%nat ->
    pstep (PS f b c (Spawning k) g) (PS (at_ f k (Running (prog k))) b c (Spawning (k + 1)) g)
| p_self f b c g k : (k + 1 = n)%nat ->
    pstep (PS f b c (Spawning k) g) (PS (at_ f k (Running (prog k))) b c Self g)
| p_work f b c m g i u rest : f i = Running (u :: rest) ->
    pstep (PS f b c m g) (PS (at_ f i (Running rest)) (at_ b i (u (b i))) c m g)
| p_send f b c m g i : f i = Running [] -> (i + 1 <> n)%nat -> (length c < n)%nat ->
    pstep (PS f b c m g) (PS (at_ f i Finished) b (c ++ [i]) m g)
| p_send_self f b c g i : f i = Running [] -> (i + 1 = n)%nat -> (length c < n)%nat ->
    pstep (PS f b c Self g) (PS (at_ f i Finished) b (c ++ [i]) (Receiving 0) g)
| p_recv f b c k g g' i : (k < n)%nat -> add (b i) g = Ok g' ->
    pstep (PS f b (i :: c) (Receiving k) g) (PS f b c (Receiving (k + 1)) g').

Definition pinit (b : nat -> B) (g : G) : pstate := PS (fun _ => NotStarted) b [] (Spawning 0) g.
Definition pfinal (s : pstate) : Prop := mainp s = Receiving n.

Inductive preach (b : nat -> B) (g : G) : pstate -> Prop :=
| r_init : preach b g (pinit b g)
| r_step s s' : preach b g s -> pstep s s' -> preach b g s'.
End Workers.
Arguments PS {B G}. Arguments NotStarted {B}. Arguments Running {B}. Arguments Finished {B}.
Arguments ph {B G}. Arguments bufs {B G}. Arguments chan {B G}. Arguments mainp {B G}. Arguments grd {B G}.
