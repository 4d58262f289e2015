(** Model of /repo/render/density/quantity.go and buffer.go. *)
From Coq Require Import ZArith List Bool String.
From Verif Require Import Base.Res Base.Num Model.Geom Model.GridDeriv.
Import ListNotations.
Open Scope Z_scope.
Open Scope res_scope.

(** ** quantity.go *)

(** quantity.go:8-15: a Quantity is an int64; these are the named values. *)
Definition Density : Z := 0.
Definition DensityGradient : Z := 1.
Definition Velocity : Z := 2.
Definition VelocityDivergence : Z := 3.
Definition VelocityCurl : Z := 4.
Definition EndQuantity : Z := 5.

(** quantity.go:17-36 *)
Definition quantity_string (q : Z) : res string :=
  if (q <=? 0) || (q >=? EndQuantity) then Panic
  else if q =? Density then Ok "Density"%string
  else if q =? DensityGradient then Ok "DensityGradient"%string
  else if q =? Velocity then Ok "Velocity"%string
  else if q =? VelocityDivergence then Ok "VelocityDivergence"%string
  else if q =? VelocityCurl then Ok "VelocityCurl"%string
  else Panic.

(** quantity.go:38-52 *)
Definition quantity_from_string (s : string) : Z * bool :=
  if String.eqb s "Density" then (Density, true)
  else if String.eqb s "DensityGradient" then (DensityGradient, true)
  else if String.eqb s "Velocity" then (Velocity, true)
  else if String.eqb s "VelocityDivergence" then (VelocityDivergence, true)
  else if String.eqb s "VelocityCurl" then (VelocityCurl, true)
  else (0, false).

(** quantity.go:54-62 *)
Definition requires_velocity (q : Z) : res bool :=
  if (q =? Density) || (q =? DensityGradient) then Ok false
  else if (q =? Velocity) || (q =? VelocityDivergence) || (q =? VelocityCurl) then Ok true
  else Panic.

(** quantity.go:64-77 *)
Definition can_project (q : Z) : res bool :=
  if (q <? 0) || (q >=? EndQuantity) then Panic
  else if (q =? Density) || (q =? Velocity) then Ok true
  else if (q =? DensityGradient) || (q =? VelocityCurl) || (q =? VelocityDivergence) then Ok false
  else Panic.

(** ** Slices with capacity *)

(** A Go slice: the backing array from the slice's first element on, and the
    length.  The capacity is the length of the backing array. *)
Record gslice (A : Type) := GS { back : list A; vis : Z }.
Arguments GS {A} back vis.
Arguments back {A} g.
Arguments vis {A} g.

(** The elements 0, ..., len - 1. *)
Definition visible {A} (s : gslice A) : list A := firstn (Z.to_nat (vis s)) (back s).

(** make([]T, n) *)
Definition gmake {A} (zero : A) (n : Z) : res (gslice A) :=
  if n <? 0 then Panic else Ok (GS (repeat zero (Z.to_nat n)) n).

(** s[low:high]: the bounds are checked against the capacity. *)
Definition reslice {A} (s : gslice A) (low high : Z) : res (gslice A) :=
  if (low <? 0) || (high <? low) || (zlen (back s) <? high) then Panic
  else Ok (GS (skipn (Z.to_nat low) (back s)) (high - low)).

(** Assignment to element i. *)
Definition gset {A} (s : gslice A) (i : Z) (v : A) : res (gslice A) :=
  if (i <? 0) || (vis s <=? i) then Panic
  else b <- set (back s) i v ;; Ok (GS b (vis s)).

(** ** buffer.go *)
Section Buffers.
Context {D F : Type} {ND : Num D} {NF : Num F} (cvt : D -> F).

(** The five buffer types, buffer.go:74, 129, 194, 214-217, 257-261, 312-317,
    378-383: scalar values, or vectors with a number of points per cell.  The
    field [weights] of the vector buffers is a scratch slice, passed separately
    to the interpolation here. *)
Inductive buffer :=
| SBuf (q : Z) (vals : gslice D)
| VBuf (q : Z) (vecs : gslice (vec3 D)) (num : gslice Z).

Definition zero3 : vec3 D := V3 (#0)%num (#0)%num (#0)%num.

(** buffer.go:30-65 (without [weights]) *)
Definition new_buffer (q len : Z) : res buffer :=
  if (q =? Density) || (q =? DensityGradient) then
    v <- gmake (#0)%num len ;; Ok (SBuf q v)
  else if (q =? Velocity) || (q =? VelocityDivergence) || (q =? VelocityCurl) then
    v <- gmake zero3 len ;; n <- gmake 0 len ;; Ok (VBuf q v n)
  else Panic.

(** buffer.go:78-80, 133-135, 265-268, 321-324, 387-390 *)
Definition buf_slice (b : buffer) (low high : Z) : res buffer :=
  match b with
  | SBuf q vals => v <- reslice vals low high ;; Ok (SBuf q v)
  | VBuf q vecs num => v <- reslice vecs low high ;; n <- reslice num low high ;; Ok (VBuf q v n)
  end.

(** buffer.go:82-84, 137-139 *)
Definition buf_length (b : buffer) : Z :=
  match b with SBuf _ vals => vis vals | VBuf _ vecs _ => vis vecs end.

(** buffer.go:86-88, 270-275, 326-331, 392-397 *)
Definition buf_clear (b : buffer) : res buffer :=
  match b with
  | SBuf q vals =>
      v <- for_ 0 (vis vals) (fun i v => gset v i (#0)%num) vals ;; Ok (SBuf q v)
  | VBuf q vecs num =>
      '(v, n) <- for_ 0 (vis vecs) (fun i s =>
        let '(v, n) := s in v <- gset v i zero3 ;; n <- gset n i 0 ;; Ok (v, n)) (vecs, num) ;;
      Ok (VBuf q v n)
  end.

(** buffer.go:115-119 *)
Definition finalized_scalar (vals : list D) : list F := map cvt vals.

(** buffer.go:293-306: FinalizedVectorBuffer of a velocity buffer.  Line 298
    prints some cells; only its division matters here. *)
Definition finalized_velocity (vecs : list (vec3 D)) (num : list Z) : res (vec3 (list F)) :=
  let n := zlen vecs in
  let z := repeat (#0)%num (List.length vecs) in
  for_ 0 n (fun i out =>
    vec <- get vecs i ;;
    q <- quot n 30 ;;
    r <- rem i q ;;
    _ <- (if r =? 0 then get num i else Ok 0) ;;
    c <- get num i ;;
    if c =? 0 then Ok out else
    xs <- set (v0 out) i (cvt (v0 vec) / #c)%num ;;
    ys <- set (v1 out) i (cvt (v1 vec) / #c)%num ;;
    zs <- set (v2 out) i (cvt (v2 vec) / #c)%num ;;
    Ok (V3 xs ys zs)) (V3 z z z).

(** buffer.go:345-364: the three fields whose divergence is taken. *)
Definition divergence_fields (vecs : list (vec3 D)) (num : list Z) : res (vec3 (list F)) :=
  let z := repeat (#0)%num (List.length vecs) in
  for_ 0 (zlen vecs) (fun i out =>
    vec <- get vecs i ;;
    c <- get num i ;;
    if c =? 0 then Ok out else
    xs <- set (v0 out) i (cvt (v0 vec) / #c)%num ;;
    ys <- set (v1 out) i (cvt (v0 vec) / #c)%num ;;
    zs <- set (v2 out) i (cvt (v2 vec) / #c)%num ;;
    Ok (V3 xs ys zs)) (V3 z z z).

(** buffer.go:345-364 *)
Definition finalized_divergence (g : grid_location D) (vecs : list (vec3 D)) (num : list Z) : res (list F) :=
  f <- divergence_fields vecs num ;;
  let opts := OM options_default (DO true OpNone 4) in
  '(out, _) <- divergence cvt g f (repeat (#0)%num (List.length vecs)) PUser opts ;; Ok out.

(** buffer.go:415-429: the three fields whose curl is taken. *)
Definition curl_fields (vecs : list (vec3 D)) (num : list Z) : res (vec3 (list F)) :=
  let z := repeat (#0)%num (List.length vecs) in
  for_ 0 (zlen vecs) (fun i out =>
    vec <- get vecs i ;;
    c <- get num i ;;
    if c =? 0 then Ok out else
    xs <- set (v0 out) i (cvt (v0 vec) / #c)%num ;;
    ys <- set (v1 out) i (cvt (v1 vec) / #c)%num ;;
    zs <- set (v2 out) i (cvt (v2 vec) / #c)%num ;;
    Ok (V3 xs ys zs)) (V3 z z z).

(** buffer.go:415-429 *)
Definition finalized_curl (g : grid_location D) (vecs : list (vec3 D)) (num : list Z) : res (vec3 (list F)) :=
  f <- curl_fields vecs num ;;
  let opts := OM options_default (DO true OpNone 4) in
  let z := repeat (#0)%num (List.length vecs) in
  '(out, _) <- curl cvt g f (V3 z z z) PUser opts ;; Ok out.

(** buffer.go:239-250 *)
Definition finalized_gradient (g : grid_location D) (vals : list D) : res (vec3 (list F)) :=
  let z := repeat (#0)%num (List.length vals) in
  let opts := OM options_default (DO true OpNone 4) in
  '(out, _) <- gradient cvt g (map cvt vals) (V3 z z z) PUser opts ;; Ok out.

End Buffers.
Arguments buffer D : clear implicits.
