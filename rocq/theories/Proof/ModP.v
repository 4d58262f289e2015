(** Vec.Mod in single precision. *)
From Coq Require Import ZArith Reals Lia Lra Bool.
From Flocq Require Import Core BinarySingleNaN Sterbenz.
From Verif Require Import Base.Num Base.IEEE Model.Geom.
Open Scope R_scope.

Notation rnd32 := (round radix2 (SpecFloat.fexp 24 128) (round_mode mode_NE)).
Notation fmt32 := (generic_format radix2 (SpecFloat.fexp 24 128)).

Lemma valid32 : Valid_exp (SpecFloat.fexp 24 128).
Proof. apply (fexp_correct 24 128). reflexivity. Qed.
Lemma mono32 : Monotone_exp (SpecFloat.fexp 24 128).
Proof. apply (fexp_monotone 24 128). Qed.

Lemma fmt_b2r (x : f32) : fmt32 (B2R x).
Proof. apply generic_format_B2R. Qed.

Lemma rnd32_id x : fmt32 x -> rnd32 x = x.
Proof. intros. apply round_generic; auto with typeclass_instances. Qed.
Lemma rnd32_le x y : x <= y -> rnd32 x <= rnd32 y.
Proof. intros. apply round_le; auto. apply valid32. apply valid_rnd_N. Qed.

Lemma between_no_ovf (w : f32) r : 0 <= r <= B2R w -> Rlt_bool (Rabs (rnd32 r)) (bpow radix2 128) = true.
Proof.
  intros [H0 H]. apply Rlt_bool_true.
  assert (A : 0 <= rnd32 r).
  { rewrite <- (rnd32_id 0) by apply generic_format_0. now apply rnd32_le. }
  rewrite Rabs_pos_eq by auto.
  apply Rle_lt_trans with (B2R w).
  - rewrite <- (rnd32_id (B2R w)) by apply fmt_b2r. now apply rnd32_le.
  - apply Rle_lt_trans with (Rabs (B2R w)); [apply Rle_abs|apply (abs_B2R_lt_emax 24 128)].
Qed.

Lemma f32_zero : is_finite (nofZ 0 : f32) = true /\ B2R (nofZ 0 : f32) = 0.
Proof. split; reflexivity. Qed.

Lemma mod1_f32 (w x : f32) : is_finite w = true -> is_finite x = true ->
  0 < B2R w -> - B2R w <= B2R x < 2 * B2R w ->
  is_finite (mod1 w x) = true /\ 0 <= B2R (mod1 w x) <= B2R w /\
  (0 <= B2R x -> B2R (mod1 w x) < B2R w).
Proof.
  intros Fw Fx W X. unfold mod1; cbn [nleb nltb nsub nadd F32Num].
  rewrite (Bleb_correct 24 128) by auto.
  destruct (Rle_bool_spec (B2R w) (B2R x)) as [A|A].
  - pose proof (Bminus_correct 24 128 _ _ mode_NE x w Fx Fw) as C.
    assert (S : fmt32 (B2R x - B2R w)).
    { apply sterbenz; auto using valid32, mono32, fmt_b2r. lra. }
    rewrite (between_no_ovf w) in C by lra. destruct C as (C1 & C2 & _).
    rewrite rnd32_id in C1 by auto. rewrite C1. split; [exact C2|]. split; [lra|]. intro. lra.
  - rewrite (Bltb_correct 24 128) by (auto; apply f32_zero).
    rewrite (proj2 f32_zero).
    destruct (Rlt_bool_spec (B2R x) 0) as [B|B].
    + pose proof (Bplus_correct 24 128 _ _ mode_NE x w Fx Fw) as C.
      rewrite (between_no_ovf w) in C by lra. destruct C as (C1 & C2 & _).
      rewrite C1. split; [exact C2|]. split; [|lra]. split.
      * rewrite <- (rnd32_id 0) at 1 by apply generic_format_0. apply rnd32_le. lra.
      * rewrite <- (rnd32_id (B2R w)) at 2 by apply fmt_b2r. apply rnd32_le. lra.
    + split; [auto|]. split; [lra|]. intro. lra.
Qed.

(** x = -2^-60, width = 1: the sum rounds up to the width. *)
Lemma mod1_f32_bad : exists w x : f32, is_finite w = true /\ is_finite x = true /\
  0 < B2R w /\ - B2R w <= B2R x < 2 * B2R w /\ ~ B2R (mod1 w x) < B2R w.
Proof.
  exists (f32lit 1 0), (f32lit (-1) (-60)).
  assert (W : B2R (f32lit 1 0) = 1).
  { rewrite <- (SF2R_B2SF 24 128). 
    replace (B2SF (f32lit 1 0)) with (SpecFloat.S754_finite false 8388608 (-23)) by (vm_compute; reflexivity).
    unfold SF2R, F2R; simpl; lra. }
  assert (X : B2R (f32lit (-1) (-60)) = - / 2 ^ 60).
  { rewrite <- (SF2R_B2SF 24 128).
    replace (B2SF (f32lit (-1) (-60))) with (SpecFloat.S754_finite true 8388608 (-83)) by (vm_compute; reflexivity).
    unfold SF2R, F2R; simpl; lra. }
  assert (M : B2R (mod1 (f32lit 1 0) (f32lit (-1) (-60))) = 1).
  { rewrite <- (SF2R_B2SF 24 128).
    replace (B2SF (mod1 (f32lit 1 0) (f32lit (-1) (-60)))) with (SpecFloat.S754_finite false 8388608 (-23)) by (vm_compute; reflexivity).
    unfold SF2R, F2R; simpl; lra. }
  split; [vm_compute; reflexivity|]. split; [vm_compute; reflexivity|].
  rewrite W, X, M. assert (/ 2 ^ 60 < 1) by lra. assert (0 < / 2 ^ 60) by lra. lra.
Qed.
