(** Segments of a periodic particle lattice. *)
From Coq Require Import ZArith List Bool Reals String.
From Verif Require Import Base.Res Base.ResFacts Model.Geom Model.Config Model.Main.
Import ListNotations.
Local Open Scope string_scope.
Open Scope Z_scope.

(** Index of a point of a periodic lattice of width [n]. *)
Definition periodic_index (n x y z : Z) : Z := x mod n + n * (y mod n) + n * n * (z mod n).
(** Index of a point of a cube of width [n]. *)
Definition cube_index (n a b c : Z) : Z := a + n * b + n * n * c.

(** [seg] holds the points of the cube with corner (x, y, z) * s and side s + 1
    of the lattice [all] of width [n]. *)
Definition holds_cube {A} (d : A) (n s x y z : Z) (all seg : list A) : Prop :=
  zlen seg = (s + 1) * (s + 1) * (s + 1) /\
  forall a b c, 0 <= a <= s -> 0 <= b <= s -> 0 <= c <= s ->
    zn d seg (cube_index (s + 1) a b c) = zn d all (periodic_index n (s * x + a) (s * y + b) (s * z + c)).

(** The unit cube at (p, q, r) lies in segment (x, y, z). *)
Definition cube_in_segment (s x y z p q r : Z) : Prop :=
  s * x <= p < s * x + s /\ s * y <= q < s * y + s /\ s * z <= r < s * z + s.

Open Scope R_scope.
(** All values, shifted by periods, lie in an interval shorter than [L / 2]. *)
Definition within_half (L : R) (l : list R) : Prop :=
  exists lo len, 0 <= len < L / 2 /\ forall p, In p l -> exists k : Z, lo <= p + IZR k * L <= lo + len.
(** The periodic interval from [o] of length [w] contains [p]. *)
Definition periodic_in (L o w p : R) : Prop := exists k : Z, o <= p + IZR k * L <= o + w.
(** ... and is the smallest. *)
Definition touches (L o w : R) (l : list R) : Prop :=
  (exists p, In p l /\ exists k : Z, p + IZR k * L = o) /\ (exists p, In p l /\ exists k : Z, p + IZR k * L = o + w).
Definition bounds_axis (L o w : R) (l : list R) : Prop :=
  0 <= o < L /\ 0 <= w < L / 2 /\ (forall p, In p l -> periodic_in L o w p) /\ touches L o w l.

(** Velocity bounds. *)
Definition in_axis (o w v : R) : Prop := o <= v <= o + w.
Definition tight_axis (o w : R) (l : list R) : Prop := In o l /\ In (o + w) l.
Close Scope R_scope.

(** Exactly one flag is given, that of mode [m]. *)
Definition only_flag (m render convert example hist : string) : Prop :=
  (m = "Render" /\ render <> "" /\ convert = "" /\ example = "" /\ hist = "") \/
  (m = "ConvertSnapshot" /\ render = "" /\ convert <> "" /\ example = "" /\ hist = "") \/
  (m = "ExampleConfig" /\ render = "" /\ convert = "" /\ example <> "" /\ hist = "") \/
  (m = "TetraHist" /\ render = "" /\ convert = "" /\ example = "" /\ hist <> "").

Open Scope R_scope.
(** A box to be rendered inside a simulation box of width [L]. *)
Definition box_fits (L : R) (b : box_config R) : Prop :=
  0 < v0 (bx_w b) <= L /\ 0 < v1 (bx_w b) <= L /\ 0 < v2 (bx_w b) <= L.
(** Pixels along the projection axis. *)
Definition along_axis (b : box_config R) : option R :=
  if String.eqb (bx_axis b) "X" then Some (v0 (bx_w b)) else if String.eqb (bx_axis b) "Y" then Some (v1 (bx_w b))
  else if String.eqb (bx_axis b) "Z" then Some (v2 (bx_w b)) else None.
Definition least_above (n : Z) (x : R) : Prop := IZR n - 1 < x <= IZR n.
