(** Halo catalogues, overdensities and cosmology, independently of the code. *)
From Coq Require Import ZArith Reals String Ascii List Bool Sorted Permutation.
From Verif Require Import Base.Res.
Import ListNotations.
Open Scope R_scope.

(** ** Names up to letter case (ASCII) *)
Definition same_letter (c d : ascii) : Prop :=
  c = d \/ exists k, (k < 26)%nat /\
    ((nat_of_ascii c = 65 + k /\ nat_of_ascii d = 97 + k) \/ (nat_of_ascii c = 97 + k /\ nat_of_ascii d = 65 + k))%nat.
Fixpoint same_name (s t : string) : Prop :=
  match s, t with
  | EmptyString, EmptyString => True
  | String c s, String d t => same_letter c d /\ same_name s t
  | _, _ => False
  end.

(** The accepted names of definition [r]. *)
Definition names_of (r : Z) : list string :=
  match r with 0%Z => ["vir"; "rvir"] | 1%Z => ["200c"; "r200c"] | 2%Z => ["200m"; "r200m"] | 3%Z => ["500c"; "r500c"] | _ => ["2500c"; "r2500c"] end%string.

(** ** Densities in units of MSun/h / (Mpc/h)^3 *)
Definition gravity : R := 667259 / 10 ^ 16.
Definition megaparsec : R := 30856 * 10 ^ 18.
Definition solar_mass : R := 1989 * 10 ^ 27.

(** 3 H^2 / (8 pi G) for H = 100 km/s/Mpc. *)
Definition critical_today : R :=
  3 * (100 * 1000 / megaparsec) ^ 2 / (8 * PI * gravity) * megaparsec ^ 3 / solar_mass.
(** (H(z) / H0)^2 without curvature and radiation. *)
Definition expansion2 (omegaM omegaL z : R) : R := omegaM * (1 + z) ^ 3 + omegaL.

(** Overdensity definitions 0 .. 4: virial, 200c, 200m, 500c, 2500c. *)
Definition contrast (r : Z) : R :=
  match r with 0%Z => 177653 / 1000 | 1%Z | 2%Z => 200 | 3%Z => 500 | _ => 2500 end.
Definition reference (r : Z) (omegaM omegaL z : R) : R :=
  match r with
  | 2%Z => critical_today * expansion2 omegaM omegaL 0 * omegaM * (1 + z) ^ 3
  | _ => critical_today * expansion2 omegaM omegaL z
  end.
(** Mass in a sphere of comoving radius [x] at redshift [z]. *)
Definition sphere_mass (r : Z) (omegaM omegaL z x : R) : R :=
  contrast r * reference r omegaM omegaL z * (4 / 3 * PI * (x / (1 + z)) ^ 3).

(** ** Sorting *)
Definition strict_weak {A} (less : A -> A -> bool) : Prop :=
  (forall a, less a a = false) /\
  (forall a b c, less a b = true -> less b c = true -> less a c = true) /\
  (forall a b c, less a b = false -> less b c = false -> less a c = false).
Definition in_order {A} (less : A -> A -> bool) (l : list A) : Prop :=
  StronglySorted (fun a b => less b a = false) l.
Definition largest_first (l : list R) : Prop := StronglySorted (fun a b => b <= a) l.
(** What package sort promises. *)
Definition sorts (srt : forall A : Type, (A -> A -> bool) -> list A -> list A) : Prop :=
  forall A less l, strict_weak less -> Permutation (srt A less l) l /\ in_order less (srt A less l).

(** [idxs] are the numbers of the [n] largest of [ms], smallest first. *)
Definition largest {A} (less : A -> A -> bool) (d : A) (ms : list A) (n : Z) (idxs : list Z) : Prop :=
  zlen idxs = Z.min n (zlen ms) /\ NoDup idxs /\ (forall i, In i idxs -> (0 <= i < zlen ms)%Z) /\
  in_order less (map (fun i => nth (Z.to_nat i) ms d) idxs) /\
  (forall i j, In i idxs -> (0 <= j < zlen ms)%Z -> ~ In j idxs ->
     less (nth (Z.to_nat i) ms d) (nth (Z.to_nat j) ms d) = false).

(** Example sorter. *)
Fixpoint ins {A} (less : A -> A -> bool) (a : A) (l : list A) : list A :=
  match l with [] => [a] | b :: t => if less b a then b :: ins less a t else a :: l end.
Definition isort : forall A : Type, (A -> A -> bool) -> list A -> list A :=
  fun A less l => fold_right (ins less) [] l.

(** ** Values read from a catalogue with columns [col] *)

(** Column 63 .. 67: radii from the masses in these columns. *)
Definition radius_column (val : Z) : option (Z * Z) :=
  match val with
  | 63%Z => Some (0, 10)%Z | 64%Z => Some (2, 36)%Z | 65%Z => Some (1, 37)%Z | 66%Z => Some (3, 38)%Z | 67%Z => Some (4, 39)%Z
  | _ => None
  end.
(** The column a definition is read from: virial radii, other masses. *)
Definition table_column (r : Z) : Z :=
  match r with 0%Z => 11 | 1%Z => 37 | 2%Z => 36 | 3%Z => 38 | _ => 39 end%Z.
(** Columns in kpc/h: virial radius and the two scale radii. *)
Definition kpc_column (val : Z) : bool := (Z.eqb val 11 || Z.eqb val 12 || Z.eqb val 34)%bool.

(** [out] is what the caller wants for [val], at cosmology [om], [ol], [z]. *)
Definition wanted (om ol z : R) (col : Z -> list R) (val : Z) (out : list R) : Prop :=
  match radius_column val with
  | Some (r, c) => Forall2 (fun m x => 0 < x /\ m = sphere_mass r om ol z x) (col c) out
  | None => if kpc_column val then Forall2 (fun v x => v = 1000 * x) (col val) out else out = col val
  end.

(** The entries of a table of columns, row by row; [z] stands for entries that
    are missing. *)
Definition table_rows {A B} (zi : A) (z : B) (n : Z) (ids : list A) (cols : list (list B)) : list (A * list B) :=
  map (fun i => (nth i ids zi, map (fun c => nth i c z) cols)) (seq 0 (Z.to_nat n)).
