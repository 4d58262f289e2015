(** Model of /repo/render/halo/grid.go and finder.go.  [D] is float64. *)
From Coq Require Import ZArith List Bool.
From Verif Require Import Base.Res Base.Num.
Import ListNotations.
Open Scope Z_scope.
Open Scope res_scope.

(** ** grid.go *)

(** grid.go:3-5 *)
Definition tail : Z := -1.

(** grid.go:31-39 for the lists in [next].  The fuel is the number of links
    plus one; a list that is longer has a cycle, and then the loop of the code
    does not end either. *)
Fixpoint length_loop (fuel : nat) (nexts : list Z) (next n : Z) : res Z :=
  match fuel with
  | O => NoFuel
  | S f => if next =? tail then Ok n else next' <- get nexts next ;; length_loop f nexts next' (n + 1)
  end.

(** grid.go:91-95; [buf] is the slice with its full capacity. *)
Fixpoint read_loop (fuel : nat) (nexts : list Z) (next n : Z) (buf : list Z) : res (list Z * Z) :=
  match fuel with
  | O => NoFuel
  | S f =>
      if next =? tail then Ok (buf, n)
      else buf <- set buf n next ;; next' <- get nexts next ;; read_loop f nexts next' (n + 1) buf
  end.

Section Grid.
Context {D : Type} {ND : Num D}.

(** grid.go:7-15 *)
Record hgrid := HGr { gr_cells : Z; gr_cw : D; gr_width : D; gr_heads : list Z; gr_next : list Z }.

(** grid.go:17-29 *)
Definition new_grid (cells : Z) (width : D) (dataLen : Z) : res hgrid :=
  if (cells * cells * cells <? 0) || (dataLen <? 0) then Panic else
  Ok (HGr cells (width / #cells)%num width (repeat tail (Z.to_nat (cells * cells * cells))) (repeat 0 (Z.to_nat dataLen))).

Definition grid_fuel (g : hgrid) : nat := S (List.length (gr_next g)).

(** grid.go:31-39 *)
Definition grid_length (g : hgrid) (idx : Z) : res Z :=
  next <- get (gr_heads g) idx ;; length_loop (grid_fuel g) (gr_next g) next 0.

(** grid.go:44-58: one coordinate. *)
Definition insert_wrap (w x : D) : D :=
  (if x >? w then x - w else if x <? #0 then x + w else x)%num.

(** grid.go:43-66 *)
Definition insert1 (xs ys zs : list D) (i : Z) (g : hgrid) : res hgrid :=
  x <- get xs i ;; y <- get ys i ;; z <- get zs i ;;
  let c t := ntrunc (insert_wrap (gr_width g) t / gr_cw g)%num in
  let idx := c x + c y * gr_cells g + c z * gr_cells g * gr_cells g in
  h <- get (gr_heads g) idx ;;
  next <- set (gr_next g) i h ;;
  heads <- set (gr_heads g) idx i ;;
  Ok (HGr (gr_cells g) (gr_cw g) (gr_width g) heads next).

(** grid.go:41-67 *)
Definition insert (g : hgrid) (xs ys zs : list D) : res hgrid :=
  for_ 0 (zlen xs) (insert1 xs ys zs) g.

(** grid.go:69-71 *)
Definition total_cells (g : hgrid) : Z := zlen (gr_heads g).

(** grid.go:73-80 *)
Definition max_length (g : hgrid) : res Z :=
  for_ 0 (total_cells g) (fun i max => l <- grid_length g i ;; Ok (if l >? max then l else max)) 0.

(** grid.go:82-84 *)
Definition average_length (g : hgrid) : res Z := quot (zlen (gr_next g)) (total_cells g).

(** grid.go:86-98: the array behind the slice, and the length of the slice that
    is returned. *)
Definition read_indexes (g : hgrid) (idx : Z) (buf : list Z) : res (list Z * Z) :=
  next <- get (gr_heads g) idx ;; read_loop (grid_fuel g) (gr_next g) next 0 buf.

(** ** finder.go *)

(** finder.go:22-28: origin and span along one axis. *)
Definition sphere_bounds1 (pos r cw width : D) : Z * Z :=
  (let min := pos - r in let max := pos + r in
   let min := if min <? #0 then min + width else min in
   let max := if min >? max then max + width else max in
   let minCell := ntrunc (min / cw) in let maxCell := ntrunc (max / cw) in
   (minCell, (maxCell - minCell + 1)%Z))%num.
End Grid.
Arguments hgrid D : clear implicits.

(** finder.go:33-41: one coordinate. *)
Definition convert_index (origin x width : Z) : Z :=
  let b := x - origin in if b <? 0 then b + width else b.

(** finder.go:45-53 *)
Definition bounds_inside (origin span val width : Z) : bool :=
  let lo := origin in let hi := origin + span in
  let val := if val >=? hi then val - width else if val <? lo then val + width else val in
  (val <? hi) && (val >=? lo).

(** finder.go:9-12 without the grid. *)
Record finder := SF { sf_starts : list Z; sf_subs : list Z }.

(** finder.go:57-65.  The capacity of subhalos does not matter. *)
Definition new_finder (n : Z) : finder := SF (repeat 0 (Z.to_nat n)) [].

(** finder.go:113-119 *)
Definition start_end (sf : finder) (ih : Z) : res (Z * Z) :=
  s <- get (sf_starts sf) ih ;;
  if ih =? zlen (sf_starts sf) - 1 then Ok (s, zlen (sf_subs sf))
  else e <- get (sf_starts sf) (ih + 1) ;; Ok (s, e).

(** finder.go:138-141 *)
Definition intersects (sf : finder) (ih : Z) : res (list Z) :=
  '(s, e) <- start_end sf ih ;; slice (sf_subs sf) s e.

(** finder.go:121-124 *)
Definition intersect_count (sf : finder) (ih : Z) : res Z :=
  '(s, e) <- start_end sf ih ;; Ok (e - s).

(** finder.go:128-131 *)
Fixpoint host_count_loop (ih i : Z) (is : list Z) : Z :=
  match is with [] => i | sh :: is => if sh >? ih then i else host_count_loop ih (i + 1) is end.
(** finder.go:126-132 *)
Definition host_count (sf : finder) (ih : Z) : res Z :=
  is <- intersects sf ih ;; Ok (host_count_loop ih 0 is).
(** finder.go:134-136 *)
Definition subhalo_count (sf : finder) (ih : Z) : res Z :=
  a <- intersect_count sf ih ;; b <- host_count sf ih ;; Ok (a - b).
(** finder.go:143-145 *)
Definition hosts (sf : finder) (ih : Z) : res (list Z) :=
  is <- intersects sf ih ;; n <- host_count sf ih ;; slice is 0 n.
(** finder.go:147-149 *)
Definition subhalos (sf : finder) (ih : Z) : res (list Z) :=
  is <- intersects sf ih ;; n <- host_count sf ih ;; slice is n (zlen is).

(** sort.Sort for a slice of ints: the ascending arrangement, here computed by
    insertion. *)
Fixpoint sort_insert (x : Z) (l : list Z) : list Z :=
  match l with [] => [x] | y :: t => if x <=? y then x :: l else y :: sort_insert x t end.
Definition sort_ints (l : list Z) : list Z := fold_right sort_insert [] l.

(** finder.go:204-207: sort one part of the slice in place. *)
Definition sort_part (starts : list Z) (i : Z) (subs : list Z) : res (list Z) :=
  '(s, e) <- start_end (SF starts subs) i ;;
  l <- slice subs s e ;;
  Ok (firstn (Z.to_nat s) subs ++ sort_ints l ++ skipn (Z.to_nat e) subs).

(** finder.go:154-161: counts. *)
Definition cm_counts (sf : finder) : res (list Z) :=
  let n := zlen (sf_starts sf) in
  for_ 0 n (fun ih c =>
    '(s, e) <- start_end sf ih ;;
    for_ s e (fun ish c => sh <- get (sf_subs sf) ish ;; v <- get c sh ;; set c sh (v + 1)) c)
    (repeat 0 (Z.to_nat n)).

(** finder.go:163-166: hostStarts. *)
Definition cm_starts (counts : list Z) : res (list Z) :=
  for_ 1 (zlen counts) (fun i h => a <- get h (i - 1) ;; b <- get counts (i - 1) ;; set h i (a + b))
    (repeat 0 (Z.to_nat (zlen counts))).

(** finder.go:168-176: hosts and the moved hostStarts. *)
Definition cm_hosts (sf : finder) (hostStarts : list Z) : res (list Z * list Z) :=
  for_ 0 (zlen (sf_starts sf)) (fun ih s =>
    '(st, e) <- start_end sf ih ;;
    for_ st e (fun ish s =>
      let '(hs, starts) := s in
      sh <- get (sf_subs sf) ish ;;
      p <- get starts sh ;;
      hs <- set hs p ih ;;
      starts <- set starts sh (p + 1) ;;
      Ok (hs, starts)) s)
    (repeat 0 (Z.to_nat (zlen (sf_subs sf))), hostStarts).

(** finder.go:178 *)
Definition cm_back (counts hostStarts : list Z) : res (list Z) :=
  for_ 0 (zlen counts) (fun i h => a <- get h i ;; c <- get counts i ;; set h i (a - c)) hostStarts.

(** newSubhalos[j] = src[ish]; j++ for ish in [s, e) *)
Definition cm_copy (src : list Z) (s e : Z) (st : list Z * Z) : res (list Z * Z) :=
  for_ s e (fun ish st => let '(out, j) := st in v <- get src ish ;; out <- set out j v ;; Ok (out, j + 1)) st.

(** finder.go:180-199: newSubhalos and newStarts.  While hostStarts is installed
    in the finder its list of subhalos is still the old one. *)
Definition cm_merge (sf : finder) (n : Z) (hostStarts hs : list Z) : res (list Z * list Z) :=
  '(out, starts, _) <- for_ 0 n (fun ih st =>
    let '(out, starts, j) := st in
    starts <- set starts ih j ;;
    '(s, e) <- start_end (SF hostStarts (sf_subs sf)) ih ;;
    '(out, j) <- cm_copy hs s e (out, j) ;;
    '(s, e) <- start_end sf ih ;;
    '(out, j) <- cm_copy (sf_subs sf) s e (out, j) ;;
    Ok (out, starts, j))
    (repeat 0 (Z.to_nat (zlen hs + zlen (sf_subs sf))), repeat 0 (Z.to_nat (zlen (sf_starts sf))), 0) ;;
  Ok (out, starts).

(** finder.go:153-208 *)
Definition cross_match (sf : finder) : res finder :=
  counts <- cm_counts sf ;;
  hostStarts <- cm_starts counts ;;
  '(hs, moved) <- cm_hosts sf hostStarts ;;
  hostStarts <- cm_back counts moved ;;
  '(out, starts) <- cm_merge sf (zlen counts) hostStarts hs ;;
  out <- for_ 0 (zlen starts) (sort_part starts) out ;;
  Ok (SF starts out).

Section Finder.
Context {D : Type} {ND : Num D}.

(** finder.go:214-226; the slice idxs holds the first [n] elements of [buf]. *)
Definition mark_subhalos (ih : Z) (buf : list Z) (n : Z) (xs ys zs rs : list D) (subs : list Z) : res (list Z) :=
  hx <- get xs ih ;; hy <- get ys ih ;; hz <- get zs ih ;; hr <- get rs ih ;;
  for_ 0 n (fun k subs =>
    j <- get buf k ;;
    if j <=? ih then Ok subs else
    sx <- get xs j ;; sy <- get ys j ;; sz <- get zs j ;; sr <- get rs j ;;
    let dx := (hx - sx)%num in let dy := (hy - sy)%num in let dz := (hz - sz)%num in let dr := (hr + sr)%num in
    Ok (if (dr * dr >=? dx * dx + dy * dy + dz * dz)%num then subs ++ [j] else subs)) subs.

(** finder.go:228-237 *)
Definition cumulative_max (xs : list D) : res (list D) :=
  max <- get xs (zlen xs - 1) ;;
  '(ms, _) <- for_down (zlen xs - 1) 0 (fun i s =>
    let '(ms, max) := s in
    x <- get xs i ;;
    let max := if (x >? max)%num then x else max in
    ms <- set ms i max ;;
    Ok (ms, max)) (repeat (#0)%num (List.length xs), max) ;;
  Ok ms.

(** finder.go:82-106: the search for one halo.  [vol] is not used. *)
Definition search (g : hgrid D) (xs ys zs rs cMax : list D) (ih : Z) (s : list Z * list Z) : res (list Z * list Z) :=
  let c := gr_cells g in
  rh <- get rs ih ;;
  maxSR <- get cMax ih ;;
  x <- get xs ih ;; y <- get ys ih ;; z <- get zs ih ;;
  let b p := sphere_bounds1 p (rh + maxSR)%num (gr_cw g) (gr_width g) in
  let cell o d := let t := o + d in if t >=? c then t - c else t in
  for_ 0 (snd (b z)) (fun dz s => for_ 0 (snd (b y)) (fun dy s => for_ 0 (snd (b x)) (fun dx s =>
    let '(subs, buf) := s in
    let idx := cell (fst (b z)) dz * c * c + cell (fst (b y)) dy * c + cell (fst (b x)) dx in
    '(buf, n) <- read_indexes g idx buf ;;
    subs <- mark_subhalos ih buf n xs ys zs rs subs ;;
    Ok (subs, buf)) s) s) s.

(** finder.go:68-111: the finder and the radii afterwards. *)
Definition find_subhalos (g : hgrid D) (sf : finder) (xs ys zs rs : list D) (mult : D) : res (finder * list D) :=
  ml <- max_length g ;;
  let rs := map (fun r => (r * mult)%num) rs in
  cMax <- cumulative_max rs ;;
  '(starts, subs, _) <- for_ 0 (zlen rs) (fun ih s =>
    let '(starts, subs, buf) := s in
    starts <- set starts ih (zlen subs) ;;
    '(subs, buf) <- search g xs ys zs rs cMax ih (subs, buf) ;;
    Ok (starts, subs, buf)) (sf_starts sf, sf_subs sf, repeat 0 (Z.to_nat ml)) ;;
  sf <- cross_match (SF starts subs) ;;
  Ok (sf, map (fun r => (r / mult)%num) rs).
End Finder.
