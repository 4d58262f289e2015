(** What the program profile writes, independently of the code. *)
From Coq Require Import ZArith List Reals.
From Verif Require Import Model.Geom Spec.Lines Spec.Regions Spec.Work.
Import ListNotations.
Open Scope R_scope.

(** Along one periodic axis of length [L]: pixel [i] of width [cw] has a point at
    distance at most [r] from [p] or an image of it. *)
Definition pixel_near (L cw p r : R) (i : Z) : Prop :=
  exists x k, IZR i * cw <= x < IZR (i + 1) * cw /\ Rabs (x - p + IZR k * L) <= r.

(** A subhalo is a position and a radius.  Pixel [c] of the image that starts at
    pixel [o] meets the cube around it. *)
Definition meets_cube (L cw : R) (o : vec3 Z) (sub : vec3 R * R) (c : vec3 Z) : Prop :=
  pixel_near L cw (v0 (fst sub)) (snd sub) (v0 o + v0 c) /\
  pixel_near L cw (v1 (fst sub)) (snd sub) (v1 o + v1 c) /\
  pixel_near L cw (v2 (fst sub)) (snd sub) (v2 o + v2 c).

(** A subhalo of the box, smaller than half of it, that does not reach the pixel
    [o + n], the image of the first pixel of the image. *)
Definition apart (L cw : R) (n o : Z) (p r : R) : Prop :=
  inside_period L p /\ 0 <= r /\ 2 * r < L /\ forall e, lower_end L p r e -> e + 2 * r < IZR (o + n) * cw.
Definition apart3 (L cw : R) (n : Z) (o : vec3 Z) (sub : vec3 R * R) : Prop :=
  apart L cw n (v0 o) (v0 (fst sub)) (snd sub) /\ apart L cw n (v1 o) (v1 (fst sub)) (snd sub) /\
  apart L cw n (v2 o) (v2 (fst sub)) (snd sub).

(** The columns of the table of halos: number, position and radius. *)
Definition columns (rows : list (R * (vec3 R * R))) : list (list R) :=
  [map fst rows; map (fun h => v0 (fst (snd h))) rows; map (fun h => v1 (fst (snd h))) rows;
   map (fun h => v2 (fst (snd h))) rows; map (fun h => snd (snd h)) rows].

(** The image [g] of [s] x [s] x [s] pixels is [g0] with the pixels that meet a
    subhalo replaced by [nan]. *)
Definition cut_out (L cw : R) (s : Z) (o : vec3 Z) (subs : list (vec3 R * R)) (nan : R) (g0 g : list R) : Prop :=
  length g = length g0 /\
  forall a b c, (0 <= a < s)%Z -> (0 <= b < s)%Z -> (0 <= c < s)%Z ->
    let i := Z.to_nat (a + s * (b + s * c)) in
    ((exists sub, In sub subs /\ meets_cube L cw o sub (V3 a b c)) -> nth i g 0 = nan) /\
    (~ (exists sub, In sub subs /\ meets_cube L cw o sub (V3 a b c)) -> nth i g 0 = nth i g0 0).

(** The lines of numbers in one file: three with the directions and one for each
    distance from the center, with a pair of columns for each of the 1000
    directions.  [draw] are the random numbers for this file. *)
Definition profile_lines (s : Z) (g : list R) (cw nan : R) (draw : Z -> R) (axis : Z) (lines : list (list (R * R))) : Prop :=
  exists (u : Z -> Z -> R) (m : Z -> Z) rows,
    lines = map (fun i => map (fun p => (u p i, nan)) (zseq 1000)) [0; 1; 2]%Z ++ rows /\
    (forall p, (0 <= p < 1000)%Z -> length2 (u p) = 1 /\ longest (u p) (m p) /\
       exists k, 0 < k /\ forall i, (0 <= i < 3)%Z -> u p i = k * cube_point (fun i => draw (3 * p + i)%Z) axis i) /\
    (s / 2 - 1 <= Z.of_nat (length rows) <= s / 2)%Z /\ (Z.odd s = true -> Z.of_nat (length rows) = (s / 2)%Z) /\
    forall j row, nth_error rows j = Some row ->
      row = map (fun p => let t := INR j / Rabs (u p (m p)) in (t * cw, line_density (fun _ => s) g (u p) (m p) t)) (zseq 1000).
