(** What interpolation means, independently of the code.  Tables are lists of
    points, exact real arithmetic. *)
From Coq Require Import ZArith List Reals.
Import ListNotations.
Open Scope R_scope.

(** [y] is the height at [x] of the segment from [p] to [q]. *)
Definition on_segment (p q : R * R) (x y : R) : Prop :=
  exists t, 0 <= t <= 1 /\
    x = fst p + t * (fst q - fst p) /\ y = snd p + t * (snd q - snd p).

(** [y] is the height at [x] of the polyline through the points. *)
Definition on_polyline (pts : list (R * R)) (x y : R) : Prop :=
  exists l p q r, pts = l ++ p :: q :: r /\ on_segment p q x y.

(** Interpolating linearly in x along every row, then in y along the results. *)
Definition on_bilinear (xs ys : list R) (rows : list (list R)) (x y v : R) : Prop :=
  exists ws, Forall2 (fun row w => on_polyline (combine xs row) x w) rows ws /\
    on_polyline (combine ys ws) y v.

(** And then in z along the results for the planes. *)
Definition on_trilinear (xs ys zs : list R) (planes : list (list (list R))) (x y z v : R) : Prop :=
  exists ws, Forall2 (fun rows w => on_bilinear xs ys rows x y w) planes ws /\
    on_polyline (combine zs ws) z v.

Fixpoint increasing (xs : list R) : Prop :=
  match xs with
  | a :: (b :: _) as t => a < b /\ increasing t
  | _ => True
  end.

Fixpoint decreasing (xs : list R) : Prop :=
  match xs with
  | a :: (b :: _) as t => b < a /\ decreasing t
  | _ => True
  end.

(** [x] lies in the closed range of an increasing table. *)
Definition in_range_of (xs : list R) (x : R) : Prop := hd 0 xs <= x <= last xs 0.

(** The abscissae x0, x0 + dx, x0 + 2 dx, ... *)
Definition unif_xs (x0 dx : R) (n : nat) : list R := map (fun i => x0 + INR i * dx) (seq 0 n).

(** Tables given as rows of one length, and as planes of such rows. *)
Definition rows_of {A} (nx : nat) (rows : list (list A)) := Forall (fun r => length r = nx) rows.
Definition planes_of {A} (nx ny : nat) (planes : list (list (list A))) :=
  Forall (fun rows => length rows = ny /\ rows_of nx rows) planes.
