(** Primitive polynomials over the field of two elements. *)
From Coq Require Import ZArith.
Open Scope Z_scope.

(** The polynomial x^d + ... + 1 over two elements whose inner coefficients are
    the bits of [a], and its powers of x. *)
Definition poly (d a : Z) : Z := 2 ^ d + 2 * a + 1.
Definition times_x (d p v : Z) : Z := if 2 ^ d <=? 2 * v then Z.lxor (2 * v) p else 2 * v.
Definition power_x (d p : Z) (n : nat) : Z := Nat.iter n (times_x d p) (Z.lxor 2 (if d =? 1 then p else 0)).
(** x returns to itself after 2^d - 1 multiplications and not before. *)
Definition primitive (d p : Z) : Prop :=
  power_x d p (Z.to_nat (2 ^ d - 1)) = power_x d p 0 /\
  forall n, (0 < n < Z.to_nat (2 ^ d - 1))%nat -> power_x d p n <> power_x d p 0.
