(** Model of /repo/cosmo/param.go.  [F] is float64; math.Sqrt and math.Pow are
    arguments. *)
From Coq Require Import ZArith Bool.
From Verif Require Import Base.Num.
Open Scope num_scope.

(** The non-integer constants of cosmo/const.go:3-8, radius.go:59 and math.Pi. *)
Record cosmo_consts (F : Type) := CC { cc_pi : F; cc_G : F; cc_Mpc : F; cc_MSun : F; cc_vir : F }.
Arguments cc_pi {F}. Arguments cc_G {F}. Arguments cc_Mpc {F}. Arguments cc_MSun {F}. Arguments cc_vir {F}.
Arguments CC {F}.

Section Cosmo.
Context {F : Type} {NF : Num F}.
Variables (fsqrt : F -> F) (fpow : F -> F -> F) (k : cosmo_consts F).

(** param.go:11-13 *)
Definition hubble_frac (omegaM omegaL z : F) : F := fsqrt (omegaM * fpow (#1 + z) #3 + omegaL).

(** param.go:16-24 *)
Definition rho_critical_mks (H0 omegaM omegaL z : F) : F :=
  let H0Mks := (H0 * #1000) / cc_Mpc k in
  let H100 := H0 / #100 in
  let H0MksH := H0Mks / H100 in
  let H := hubble_frac omegaM omegaL z * H0MksH in
  #3 * H * H / (#8 * cc_pi k * cc_G k).

(** param.go:30-32 *)
Definition rho_critical (H0 omegaM omegaL z : F) : F :=
  rho_critical_mks H0 omegaM omegaL z * fpow (cc_Mpc k) #3 / cc_MSun k.

(** param.go:36-38 *)
Definition rho_average (H0 omegaM omegaL z : F) : F :=
  rho_critical H0 omegaM omegaL #0 * omegaM * fpow (#1 + z) #3.
End Cosmo.
