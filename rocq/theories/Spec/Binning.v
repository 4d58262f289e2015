(** What the means of binned data are. *)
From Coq Require Import ZArith List Bool Reals.
From Flocq Require Import Core.Raux.
From Verif Require Import Base.Res Spec.Work.
Import ListNotations.
Open Scope R_scope.

Section Binning.
Variables (pos y : Z -> R) (good : Z -> bool) (n B : Z) (lo hi : R).

(** Edges of the [B] equal bins between [lo] and [hi]. *)
Definition bin_edge (b : Z) : R := lo + (hi - lo) * (IZR b / IZR B).
Definition bin_middle (b : Z) : R := (bin_edge b + bin_edge (b + 1)) / 2.

(** Is element [i] counted in bin [b]?  Bins contain their lower edges; the last
    one also contains the upper edge. *)
Definition in_bin (b i : Z) : bool :=
  good i && Rle_bool (bin_edge b) (pos i) &&
  (Rlt_bool (pos i) (bin_edge (b + 1)) || ((b =? B - 1)%Z && Req_bool (pos i) hi)).

Definition members (b : Z) : list Z := filter (in_bin b) (zseq n).
Definition total (l : list Z) : R := fold_right Rplus 0 (map y l).
Definition mean (b : Z) : R := total (members b) / IZR (zlen (members b)).

(** The bins that are not empty, in order. *)
Definition bins : list Z := filter (fun b => negb (zlen (members b) =? 0)%Z) (zseq B).

(** [v] is the best of the positions of counted elements. *)
Definition best (le : R -> R -> Prop) (v : R) : Prop :=
  (exists i, (0 <= i < n)%Z /\ good i = true /\ pos i = v) /\ forall i, (0 <= i < n)%Z -> good i = true -> le v (pos i).
End Binning.
