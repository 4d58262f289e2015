(** Repeated draws from a stateful source. *)
From Coq Require Import List.
From Verif Require Import Base.Res.
Import ListNotations.

(** The results of [n] successive calls, in order, and the final state. *)
Fixpoint draws {S A} (next : S -> res (A * S)) (n : nat) (s : S) : res (list A * S) :=
  match n with
  | O => Ok ([], s)
  | Datatypes.S n' =>
      ' (a, s1) <- next s ;;
      ' (l, s2) <- draws next n' s1 ;;
      Ok (a :: l, s2)
  end.

(** Subtraction modulo one on the reals. *)
From Coq Require Import ZArith Reals.
Definition diff_mod1 (v a b : R) : Prop :=
  (0 <= v < 1)%R /\ exists k : Z, v = (a - b + IZR k)%R.

(** The value [m] draws into a stream; negative positions are entries of the
    initial table, read backwards from its start. *)
Definition past {A} (d : A) (table outs : list A) (m : Z) : A :=
  if (m <? 0)%Z then nth (Z.to_nat (- m)) table d else nth (Z.to_nat m) outs d.
