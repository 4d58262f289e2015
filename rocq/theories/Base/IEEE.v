(** IEEE-754 instances of [Num] (Flocq, round to nearest even, single NaN). *)
From Coq Require Import ZArith Reals.
From Flocq Require Import Core BinarySingleNaN.
From Verif Require Import Base.Num.
Open Scope Z_scope.

#[global] Instance p64 : Prec_gt_0 53 := eq_refl.
#[global] Instance m64 : Prec_lt_emax 53 1024 := eq_refl.
#[global] Instance p32 : Prec_gt_0 24 := eq_refl.
#[global] Instance m32 : Prec_lt_emax 24 128 := eq_refl.

Definition f64 := binary_float 53 1024.
Definition f32 := binary_float 24 128.

(** int(math.Floor(x)) for finite x; non-finite values give the amd64
    "integer indefinite" value. *)
Definition bfloor {p e} (x : binary_float p e) : Z :=
  match x with
  | B754_zero _ => 0
  | B754_finite s m ex _ =>
      let v := (if s then Zneg m else Zpos m) in
      if 0 <=? ex then v * 2 ^ ex else v / 2 ^ (- ex)
  | _ => - 2 ^ 63
  end.

Definition btrunc {p e} (x : binary_float p e) : Z :=
  match x with
  | B754_zero _ => 0
  | B754_finite _ _ _ _ => Btrunc x
  | _ => - 2 ^ 63
  end.

#[global] Instance F64Num : Num f64 := {
  nadd := Bplus mode_NE;
  nsub := Bminus mode_NE;
  nmul := Bmult mode_NE;
  ndiv := Bdiv mode_NE;
  nopp := Bopp;
  nabs := Babs;
  nltb := Bltb;
  nleb := Bleb;
  neqb := Beqb;
  nofZ := fun z => binary_normalize 53 1024 _ _ mode_NE z 0 false;
  ntrunc := btrunc;
  nfloor := bfloor
}.

#[global] Instance F32Num : Num f32 := {
  nadd := Bplus mode_NE;
  nsub := Bminus mode_NE;
  nmul := Bmult mode_NE;
  ndiv := Bdiv mode_NE;
  nopp := Bopp;
  nabs := Babs;
  nltb := Bltb;
  nleb := Bleb;
  neqb := Beqb;
  nofZ := fun z => binary_normalize 24 128 _ _ mode_NE z 0 false;
  ntrunc := btrunc;
  nfloor := bfloor
}.

(** A literal [m * 2^e] as a double / single. *)
Definition f64lit (m e : Z) : f64 := binary_normalize 53 1024 _ _ mode_NE m e false.
Definition f32lit (m e : Z) : f32 := binary_normalize 24 128 _ _ mode_NE m e false.

(** Decidable observation of a float: its [spec_float] view. *)
Definition view64 (x : f64) := B2SF x.
Definition view32 (x : f32) := B2SF x.
