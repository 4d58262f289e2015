(** Finite sums and matrices, independently of the code.  A matrix is a function
    of a row and a column index; only the entries in range matter. *)
From Coq Require Import ZArith List Reals.
Import ListNotations.
Open Scope R_scope.

Fixpoint sum_n (n : nat) (lo : Z) (f : Z -> R) : R :=
  match n with O => 0 | S n => sum_n n lo f + f (lo + Z.of_nat n)%Z end.

(** Sum of [f k] over lo <= k < hi. *)
Definition sum (lo hi : Z) (f : Z -> R) : R := sum_n (Z.to_nat (hi - lo)) lo f.

(** Entry (i, j) of row-major values with rows of length [w]. *)
Definition entry (w : Z) (vals : list R) (i j : Z) : R := nth (Z.to_nat (i * w + j)) vals 0.

(** Row [i] of A times the vector x; entry (i, j) of the product A * B. *)
Definition mat_vec (n : Z) (A : Z -> Z -> R) (x : Z -> R) (i : Z) : R := sum 0 n (fun k => A i k * x k).
Definition mat_mul (n : Z) (A B : Z -> Z -> R) (i j : Z) : R := sum 0 n (fun k => A i k * B k j).

Definition coord (l : list R) (i : Z) : R := nth (Z.to_nat i) l 0.

(** Trivial kernel. *)
Definition nonsingular (n : Z) (A : Z -> Z -> R) : Prop :=
  forall x, (forall i, (0 <= i < n)%Z -> mat_vec n A x i = 0) -> forall j, (0 <= j < n)%Z -> x j = 0.

(** The two triangles of one square array: unit lower, and upper. *)
Definition lower (f : Z -> Z -> R) (i l : Z) : R := if (l <? i)%Z then f i l else if (l =? i)%Z then 1 else 0.
Definition upper (f : Z -> Z -> R) (l j : Z) : R := if (l <=? j)%Z then f l j else 0.

(** Row exchanges: step k exchanges rows k and piv k.  [order piv k i] is the
    original number of the row that is in place [i] after k steps. *)
Definition transp (a b i : Z) : Z := if (i =? a)%Z then b else if (i =? b)%Z then a else i.
Fixpoint order (piv : Z -> Z) (k : nat) (i : Z) : Z :=
  match k with
  | O => i
  | S k => order piv k (transp (Z.of_nat k) (piv (Z.of_nat k)) i)
  end.

(** Largest absolute value in row [r]. *)
Fixpoint max_n (n : nat) (f : Z -> R) : R :=
  match n with O => 0 | S n => Rmax (max_n n f) (f (Z.of_nat n)) end.
Definition row_max (n : Z) (A : Z -> Z -> R) (r : Z) : R := max_n (Z.to_nat n) (fun j => Rabs (A r j)).

(** The determinant, by expansion along the first column. *)
Definition minor (A : Z -> Z -> R) (r : Z) (i j : Z) : R := A (if (i <? r)%Z then i else (i + 1)%Z) (j + 1)%Z.
Fixpoint det (n : nat) (A : Z -> Z -> R) : R :=
  match n with
  | O => 1
  | S m => sum 0 (Z.of_nat (S m)) (fun r => (if Z.even r then 1 else -1) * A r 0%Z * det m (minor A r))
  end.

(** Sign of the row exchanges: -1 for every step that moves a row. *)
Fixpoint exchange_sign (piv : Z -> Z) (k : nat) : R :=
  match k with
  | O => 1
  | S k => exchange_sign piv k * (if (piv (Z.of_nat k) =? Z.of_nat k)%Z then 1 else -1)
  end.

(** Entries of the identity matrix. *)
Definition identity (i j : Z) : R := if (i =? j)%Z then 1 else 0.

(** Writing b(0), b(1), ... to the places piv(0), piv(1), ... of [start]. *)
Fixpoint scatter (piv : Z -> Z) (b start : Z -> R) (k : nat) (i : Z) : R :=
  match k with
  | O => start i
  | S k => if (i =? piv (Z.of_nat k))%Z then b (Z.of_nat k) else scatter piv b start k i
  end.
