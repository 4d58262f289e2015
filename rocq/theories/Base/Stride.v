(** [for i := lo; i < hi; i += step { ... }].  The loop does not end when
    [step] is not positive and lo < hi; the fuel given by [stride] is enough
    whenever [step] is positive. *)
From Coq Require Import ZArith List Bool.
From Verif Require Import Base.Res.
Import ListNotations.
Open Scope Z_scope.
Open Scope res_scope.

Fixpoint stride_n {S} (fuel : nat) (i hi step : Z) (body : Z -> S -> res S) (s : S) : res S :=
  match fuel with
  | O => NoFuel
  | Datatypes.S f => if i <? hi then s' <- body i s ;; stride_n f (i + step) hi step body s' else Ok s
  end.

Definition stride {S} (lo hi step : Z) (body : Z -> S -> res S) (s : S) : res S :=
  stride_n (Datatypes.S (Z.to_nat (hi - lo))) lo hi step body s.
