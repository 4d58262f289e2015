(** Real-number meaning of the IEEE operations of [F64Num] in the absence of
    overflow. *)
From Coq Require Import ZArith Reals Lia Lra Bool.
From Flocq Require Import Core BinarySingleNaN Relative.
From Verif Require Import Base.Num Base.IEEE.
Open Scope R_scope.

Notation rnd64 := (round radix2 (FLT_exp (-1074) 53) ZnearestE).
Notation fmt64 := (generic_format radix2 (FLT_exp (-1074) 53)).

(** [den x r]: the double [x] is finite and denotes [r]. *)
Definition den (x : f64) (r : R) : Prop := is_finite x = true /\ B2R x = r.

Lemma den_fmt x r : den x r -> fmt64 r.
Proof. intros [_ <-]. apply (generic_format_B2R 53 1024). Qed.

Lemma fmt64_mk (m e : Z) : (Z.abs m < 2 ^ 53)%Z -> (-1074 <= e)%Z ->
  fmt64 (IZR m * bpow radix2 e).
Proof.
  intros Hm He. apply generic_format_FLT. exists (Float radix2 m e); auto.
Qed.

Lemma fmt64_int z : (Z.abs z <= 2 ^ 53)%Z -> fmt64 (IZR z).
Proof.
  intros H. destruct (Z.eq_dec (Z.abs z) (2 ^ 53)) as [E|N].
  - assert (fmt64 (IZR (2 ^ 53))) as F.
    { replace (IZR (2 ^ 53)) with (IZR 1 * bpow radix2 53) by (simpl; lra).
      apply fmt64_mk; lia. }
    destruct (Z.abs_spec z) as [[_ A]|[_ A]]; rewrite A in E.
    + now rewrite E.
    + replace z with (- 2 ^ 53)%Z by lia. rewrite opp_IZR. now apply generic_format_opp.
  - replace (IZR z) with (IZR z * bpow radix2 0) by (simpl; lra). apply fmt64_mk; lia.
Qed.

Lemma rnd64_id x : fmt64 x -> rnd64 x = x.
Proof. intros. apply round_generic; auto with typeclass_instances. Qed.

Lemma rnd64_le x y : x <= y -> rnd64 x <= rnd64 y.
Proof. intros. apply round_le; auto. apply FLT_exp_valid. reflexivity. apply valid_rnd_N. Qed.

Lemma rnd64_ge_fmt x y : fmt64 x -> x <= y -> x <= rnd64 y.
Proof. intros F H. rewrite <- (rnd64_id x F). now apply rnd64_le. Qed.

Lemma rnd64_le_fmt x y : fmt64 y -> x <= y -> rnd64 x <= y.
Proof. intros F H. rewrite <- (rnd64_id y F). now apply rnd64_le. Qed.

Lemma big_bpow : IZR (2 ^ 53) < bpow radix2 1024.
Proof. change (IZR (2 ^ 53)) with (bpow radix2 53). apply bpow_lt. lia. Qed.

(** Every result here is bounded by 2^53 in absolute value, hence no overflow. *)
Lemma no_ovf x : Rabs x <= IZR (2 ^ 53) ->
  Rlt_bool (Rabs (rnd64 x)) (bpow radix2 1024) = true.
Proof.
  intros H. apply Rlt_bool_true. apply Rle_lt_trans with (2 := big_bpow).
  apply Rabs_le_inv in H. apply Rabs_le. split.
  - apply rnd64_ge_fmt; [|lra]. apply generic_format_opp. apply fmt64_int. lia.
  - apply rnd64_le_fmt; [|lra]. apply fmt64_int. lia.
Qed.

Lemma den_lit m e : Rabs (IZR m * bpow radix2 e) <= IZR (2 ^ 53) ->
  den (f64lit m e) (rnd64 (IZR m * bpow radix2 e)).
Proof.
  intros H. unfold den, f64lit.
  pose proof (binary_normalize_correct 53 1024 _ _ mode_NE m e false) as C. cbv zeta in C.
  change (round radix2 (SpecFloat.fexp 53 1024) (round_mode mode_NE)
                (F2R {| Fnum := m; Fexp := e |})) with (rnd64 (IZR m * bpow radix2 e)) in C.
  rewrite no_ovf in C by auto. tauto.
Qed.

Lemma den_int z : (Z.abs z <= 2 ^ 53)%Z -> den (nofZ z) (IZR z).
Proof.
  intros H. replace (IZR z) with (rnd64 (IZR z * bpow radix2 0)).
  - apply (den_lit z 0). simpl bpow. rewrite Rmult_1_r, <- abs_IZR. now apply IZR_le.
  - simpl bpow. rewrite Rmult_1_r. apply rnd64_id. now apply fmt64_int.
Qed.

Lemma den_add x y a b : den x a -> den y b -> Rabs (a + b) <= IZR (2 ^ 53) ->
  den (nadd x y) (rnd64 (a + b)).
Proof.
  intros [Fx <-] [Fy <-] H. pose proof (Bplus_correct 53 1024 _ _ mode_NE x y Fx Fy) as C.
  change (round radix2 (SpecFloat.fexp 53 1024) (round_mode mode_NE)
                (B2R x + B2R y)) with (rnd64 (B2R x + B2R y)) in C.
  rewrite no_ovf in C by auto. split; apply C.
Qed.

Lemma den_sub x y a b : den x a -> den y b -> Rabs (a - b) <= IZR (2 ^ 53) ->
  den (nsub x y) (rnd64 (a - b)).
Proof.
  intros [Fx <-] [Fy <-] H. pose proof (Bminus_correct 53 1024 _ _ mode_NE x y Fx Fy) as C.
  change (round radix2 (SpecFloat.fexp 53 1024) (round_mode mode_NE)
                (B2R x - B2R y)) with (rnd64 (B2R x - B2R y)) in C.
  rewrite no_ovf in C by auto. split; apply C.
Qed.

Lemma den_mul x y a b : den x a -> den y b -> Rabs (a * b) <= IZR (2 ^ 53) ->
  den (nmul x y) (rnd64 (a * b)).
Proof.
  intros [Fx <-] [Fy <-] H. pose proof (Bmult_correct 53 1024 _ _ mode_NE x y) as C.
  change (round radix2 (SpecFloat.fexp 53 1024) (round_mode mode_NE)
                (B2R x * B2R y)) with (rnd64 (B2R x * B2R y)) in C.
  rewrite no_ovf in C by auto. rewrite Fx, Fy in C. split; apply C.
Qed.

Lemma den_div x y a b : den x a -> den y b -> b <> 0 -> Rabs (a / b) <= IZR (2 ^ 53) ->
  den (ndiv x y) (rnd64 (a / b)).
Proof.
  intros [Fx <-] [Fy <-] N H. pose proof (Bdiv_correct 53 1024 _ _ mode_NE x y N) as C.
  change (round radix2 (SpecFloat.fexp 53 1024) (round_mode mode_NE)
                (B2R x / B2R y)) with (rnd64 (B2R x / B2R y)) in C.
  rewrite no_ovf in C by auto. rewrite Fx in C. split; apply C.
Qed.

Lemma den_eqb x y a b : den x a -> den y b -> neqb x y = Req_bool a b.
Proof. intros [Fx <-] [Fy <-]. now apply Beqb_correct. Qed.

Lemma den_ltb x y a b : den x a -> den y b -> nltb x y = Rlt_bool a b.
Proof. intros [Fx <-] [Fy <-]. now apply Bltb_correct. Qed.

Lemma den_floor x a : den x a -> nfloor x = Zfloor a.
Proof.
  intros [Fx <-]. cbn [nfloor F64Num]. destruct x as [s|s| |s m e H]; try discriminate.
  - simpl. symmetry. apply (Zfloor_IZR 0).
  - unfold bfloor, B2R, F2R, Fnum, Fexp, cond_Zopp.
    set (v := if s then Z.neg m else Z.pos m).
    replace (if s then (- Z.pos m)%Z else Z.pos m) with v by (subst v; now destruct s).
    destruct (Z.leb_spec 0 e).
    + replace (IZR v * bpow radix2 e) with (IZR (v * 2 ^ e)).
      * symmetry. apply Zfloor_IZR.
      * rewrite mult_IZR. f_equal. now rewrite <- (IZR_Zpower radix2).
    + replace e with (- - e)%Z at 2 by lia. rewrite bpow_opp, <- (IZR_Zpower radix2) by lia.
      change (IZR v * / IZR (radix2 ^ - e)) with (IZR v / IZR (2 ^ - e)).
      symmetry. apply Zfloor_div. apply Z.pow_nonzero; lia.
Qed.

(** Relative error of one rounding. *)
Lemma rnd64_rel x : bpow radix2 (-1022) <= Rabs x ->
  Rabs (rnd64 x - x) <= bpow radix2 (-53) * Rabs x.
Proof.
  intros H. pose proof (relative_error_N_FLT radix2 (-1074) 53 eq_refl (fun x => negb (Z.even x)) x H) as E.
  eapply Rle_trans; [apply E|]. apply Rmult_le_compat_r; [apply Rabs_pos|].
  simpl bpow. lra.
Qed.
