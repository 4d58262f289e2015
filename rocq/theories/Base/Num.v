(** The arithmetic operations used by the numeric Go code, and the exact real
    instance.  Model functions are written once over [Num F]. *)
From Coq Require Import ZArith Reals.
From Flocq Require Import Core.Raux.

Class Num (F : Type) : Type := {
  nadd : F -> F -> F;
  nsub : F -> F -> F;
  nmul : F -> F -> F;
  ndiv : F -> F -> F;
  nopp : F -> F;
  nabs : F -> F;
  nltb : F -> F -> bool;
  nleb : F -> F -> bool;
  neqb : F -> F -> bool;
  nofZ : Z -> F;        (* float64(i) *)
  ntrunc : F -> Z;      (* int(x): truncation towards zero *)
  nfloor : F -> Z       (* int(math.Floor(x)) *)
}.

Declare Scope num_scope.
Delimit Scope num_scope with num.
Infix "+" := nadd : num_scope.
Infix "-" := nsub : num_scope.
Infix "*" := nmul : num_scope.
Infix "/" := ndiv : num_scope.
Notation "- x" := (nopp x) : num_scope.
Notation "x <? y" := (nltb x y) : num_scope.
Notation "x <=? y" := (nleb x y) : num_scope.
Notation "x >? y" := (nltb y x) : num_scope.
Notation "x >=? y" := (nleb y x) : num_scope.
Notation "x =? y" := (neqb x y) : num_scope.
Notation "# z" := (nofZ z) (at level 1, format "# z") : num_scope.

(** Exact arithmetic: rounding is not modelled by this instance. *)
#[global] Instance RNum : Num R := {
  nadd := Rplus;
  nsub := Rminus;
  nmul := Rmult;
  ndiv := Rdiv;
  nopp := Ropp;
  nabs := Rabs;
  nltb := Rlt_bool;
  nleb := Rle_bool;
  neqb := Req_bool;
  nofZ := IZR;
  ntrunc := Ztrunc;
  nfloor := Zfloor
}.
