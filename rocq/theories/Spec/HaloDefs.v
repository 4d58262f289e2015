(** Whole runs of the halo grid and finder, for examples. *)
From Coq Require Import ZArith List.
From Verif Require Import Base.Res Base.Num Base.IEEE Model.Halo.
Import ListNotations.
Open Scope Z_scope.

Definition fz (l : list Z) : list f64 := map nofZ l.

(** The lists of the halos after one search. *)
Definition found_lists (cells width : Z) (xs ys zs rs : list Z) : res (list (list Z)) :=
  bind (new_grid cells (nofZ width : f64) (zlen xs)) (fun g =>
  bind (insert g (fz xs) (fz ys) (fz zs)) (fun g =>
  bind (find_subhalos g (new_finder (zlen xs)) (fz xs) (fz ys) (fz zs) (fz rs) (nofZ 1)) (fun p =>
  tabulate (zlen xs) (intersects (fst p))))).
(** ... and after a second search with the same finder. *)
Definition found_again (cells width : Z) (xs ys zs rs : list Z) : res (list (list Z)) :=
  bind (new_grid cells (nofZ width : f64) (zlen xs)) (fun g =>
  bind (insert g (fz xs) (fz ys) (fz zs)) (fun g =>
  bind (find_subhalos g (new_finder (zlen xs)) (fz xs) (fz ys) (fz zs) (fz rs) (nofZ 1)) (fun p =>
  bind (find_subhalos g (fst p) (fz xs) (fz ys) (fz zs) (fz rs) (nofZ 1)) (fun p =>
  tabulate (zlen xs) (intersects (fst p)))))).
