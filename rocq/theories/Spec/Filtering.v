(** Smoothing a sequence, independently of the code: sequences extended to all
    integers, weighted sums over a window, polynomials. *)
From Coq Require Import ZArith List Reals.
From Verif Require Import Spec.Matrix.
Import ListNotations.
Open Scope R_scope.

(** A finite sequence extended to all integers by zeros, by its end values,
    periodically, by reflection about its ends (the end values are repeated,
    or not repeated).  The reflections are meant within one length of the ends. *)
Definition ext_zero (l : list R) (k : Z) : R :=
  if ((0 <=? k) && (k <? Z.of_nat (length l)))%Z%bool then coord l k else 0.
Definition ext_ends (l : list R) (k : Z) : R :=
  coord l (Z.max 0 (Z.min k (Z.of_nat (length l) - 1))).
Definition ext_periodic (l : list R) (k : Z) : R := coord l (k mod Z.of_nat (length l)).
Definition ext_mirror_repeat (l : list R) (k : Z) : R :=
  coord l (if (k <? 0)%Z then -1 - k else if (k <? Z.of_nat (length l))%Z then k else 2 * Z.of_nat (length l) - 1 - k)%Z.
Definition ext_mirror (l : list R) (k : Z) : R :=
  coord l (if (k <? 0)%Z then - k else if (k <? Z.of_nat (length l))%Z then k else 2 * (Z.of_nat (length l) - 1) - k)%Z.

(** Value at i of a sequence smoothed with weights whose middle is number c. *)
Definition smoothed (cs : list R) (c : Z) (e : Z -> R) (i : Z) : R :=
  sum 0 (Z.of_nat (length cs)) (fun j => coord cs j * e (i + j - c)%Z).

(** Sum of all weights; symmetric weights. *)
Definition total (cs : list R) : R := sum 0 (Z.of_nat (length cs)) (coord cs).
Definition symmetric (cs : list R) : Prop :=
  forall i, (0 <= i < Z.of_nat (length cs))%Z -> coord cs (Z.of_nat (length cs) - 1 - i) = coord cs i.

(** a0 + a1 t + a2 t^2 + ..., and its derivatives. *)
Fixpoint poly (a : list R) (t : R) : R :=
  match a with [] => 0 | a0 :: a => a0 + t * poly a t end.
Fixpoint dcoefs (k : Z) (a : list R) : list R :=
  match a with [] => [] | a0 :: a => IZR k * a0 :: dcoefs (k + 1) a end.
Definition dpoly (a : list R) : list R := dcoefs 1 (tl a).
Fixpoint dpoly_n (d : nat) (a : list R) : list R :=
  match d with O => a | S d => dpoly_n d (dpoly a) end.

(** Sum of k^q over -n <= k <= n. *)
Definition power_sum (n q : Z) : R := sum (- n) (n + 1) (fun k => IZR k ^ Z.to_nat q).

(** x^q for a whole number q; the uniform grid x0, x0 + h, x0 + 2 h, ... *)
Definition rpow (x : R) (q : Z) : R := x ^ Z.to_nat q.
Definition uniform (x0 h : R) (xs : list R) : Prop :=
  forall i, (0 <= i < Z.of_nat (length xs))%Z -> coord xs i = x0 + IZR i * h.
