(** Specification vocabulary for sorting and selection. *)
From Coq Require Import List ZArith Sorted Permutation.
Import ListNotations.

Section Order.
Context {F : Type} (lt : F -> F -> bool).

(** No later element is smaller than an earlier one. *)
Definition ascending (l : list F) : Prop :=
  StronglySorted (fun x y => lt y x = false) l.

(** Number of elements strictly above / not below [r]. *)
Definition above (r : F) (l : list F) : nat := length (filter (fun x => lt r x) l).
Definition at_least (r : F) (l : list F) : nat := length (filter (fun x => negb (lt x r)) l).
Definition below (r : F) (l : list F) : nat := length (filter (fun x => lt x r) l).

(** [r] is an n-th largest element of [l], counting from 1. *)
Definition is_nth_largest (r : F) (n : Z) (l : list F) : Prop :=
  In r l /\ (Z.of_nat (above r l) < n <= Z.of_nat (at_least r l))%Z.

(** [r] is a median of a list of odd length: as many elements strictly below
    as would fit in the lower half at most, and likewise above. *)
Definition is_median (r : F) (l : list F) : Prop :=
  In r l /\ (2 * below r l < length l)%nat /\ (2 * above r l < length l)%nat.
End Order.
