(** Histograms, periodic intervals and pixels, independently of the code. *)
From Coq Require Import ZArith Reals List Bool.
From Flocq Require Import Core.Raux.
From Verif Require Import Base.Res.
Import ListNotations.
Open Scope R_scope.

Definition log10R (x : R) : R := ln x / ln 10.
Definition pow10R (x : R) : R := Rpower 10 x.

(** Lower edge of bin [j]: the bins have equal widths, or equal ratios on a
    logarithmic axis. *)
Definition bin_edge (lg : bool) (mn mx : R) (bins j : Z) : R :=
  if lg then mn * Rpower (mx / mn) (IZR j / IZR bins) else mn + (mx - mn) * (IZR j / IZR bins).
Definition in_bin (lg : bool) (mn mx : R) (bins j : Z) (x : R) : Prop :=
  bin_edge lg mn mx bins j <= x < bin_edge lg mn mx bins (j + 1).
Definition in_binb (lg : bool) (mn mx : R) (bins j : Z) (x : R) : bool :=
  Rle_bool (bin_edge lg mn mx bins j) x && Rlt_bool x (bin_edge lg mn mx bins (j + 1)).
(** Number of flagged samples in bin [j]. *)
Definition bin_count (lg : bool) (mn mx : R) (bins j : Z) (samples : list (R * bool)) : Z :=
  zlen (filter (fun s => snd s && in_binb lg mn mx bins j (fst s)) samples).
(** The middle of bin [j]: arithmetic, or geometric on a logarithmic axis. *)
Definition bin_middle (lg : bool) (mn mx : R) (bins j : Z) : R :=
  let a := bin_edge lg mn mx bins j in let b := bin_edge lg mn mx bins (j + 1) in
  if lg then sqrt (a * b) else (a + b) / 2.

(** [x] lies strictly inside the interval of width [span] starting at [a], in a
    periodic box of width [L]. *)
Definition strictly_in (L a span x : R) : Prop := exists k : Z, a < x + IZR k * L < a + span.
(** Two periodic intervals share a point that is interior to both. *)
Definition arcs_overlap (L a aSpan b bSpan : R) : Prop :=
  exists x, strictly_in L a aSpan x /\ strictly_in L b bSpan x.

(** Pixel number [i] of a row of pixels starting at [origin] holds the periodic
    position [x]. *)
Definition pixel_holds (L origin pw x : R) (i : Z) : Prop :=
  exists k : Z, origin + IZR i * pw <= x + IZR k * L < origin + (IZR i + 1) * pw.
