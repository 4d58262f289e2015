(** The ranges of Uniform and UniformInt in floating point. *)
From Coq Require Import ZArith Reals List Lia Lra Bool.
From Coq Require Import ZifyBool ZifyNat.
From Flocq Require Import Core BinarySingleNaN Relative.
From Verif Require Import Base.Res Base.ResFacts Base.Num Base.IEEE Base.IEEER Model.Rand Model.RandGen
  Base.Convert Spec.Streams Spec.Generators Proof.XorshiftP Proof.TausP Proof.RandG.
Import ListNotations.
Open Scope R_scope.

Notation half := (bpow radix2 1023).

Lemma fmt_half : fmt64 half.
Proof. apply generic_format_bpow. vm_compute. discriminate. Qed.

Lemma no_ovf_big x : Rabs x <= half -> Rlt_bool (Rabs (rnd64 x)) (bpow radix2 1024) = true.
Proof.
  intros H. apply Rlt_bool_true. apply Rle_lt_trans with half; [|apply bpow_lt; lia].
  apply Rabs_le_inv in H. apply Rabs_le. split.
  - apply rnd64_ge_fmt; [|lra]. apply generic_format_opp. apply fmt_half.
  - apply rnd64_le_fmt; [|lra]. apply fmt_half.
Qed.

Lemma big_add x y a b : den x a -> den y b -> Rabs (a + b) <= half -> den (nadd x y) (rnd64 (a + b)).
Proof.
  intros [Fx <-] [Fy <-] H. pose proof (Bplus_correct 53 1024 _ _ mode_NE x y Fx Fy) as C.
  change (round radix2 (SpecFloat.fexp 53 1024) (round_mode mode_NE) (B2R x + B2R y)) with (rnd64 (B2R x + B2R y)) in C.
  rewrite no_ovf_big in C by auto. split; apply C.
Qed.
Lemma big_sub x y a b : den x a -> den y b -> Rabs (a - b) <= half -> den (nsub x y) (rnd64 (a - b)).
Proof.
  intros [Fx <-] [Fy <-] H. pose proof (Bminus_correct 53 1024 _ _ mode_NE x y Fx Fy) as C.
  change (round radix2 (SpecFloat.fexp 53 1024) (round_mode mode_NE) (B2R x - B2R y)) with (rnd64 (B2R x - B2R y)) in C.
  rewrite no_ovf_big in C by auto. split; apply C.
Qed.
Lemma big_mul x y a b : den x a -> den y b -> Rabs (a * b) <= half -> den (nmul x y) (rnd64 (a * b)).
Proof.
  intros [Fx <-] [Fy <-] H. pose proof (Bmult_correct 53 1024 _ _ mode_NE x y) as C.
  change (round radix2 (SpecFloat.fexp 53 1024) (round_mode mode_NE) (B2R x * B2R y)) with (rnd64 (B2R x * B2R y)) in C.
  rewrite no_ovf_big in C by auto. rewrite Fx, Fy in C. split; apply C.
Qed.

(** Differences of doubles below 2^-1021 are exact. *)
Lemma small_exact l h : fmt64 l -> fmt64 h -> Rabs (h - l) < bpow radix2 (-1021) -> fmt64 (h - l).
Proof.
  intros L H B. apply generic_format_FIX_FLT, FIX_format_generic in L. apply generic_format_FIX_FLT, FIX_format_generic in H.
  destruct L as [[m1 e1] -> E1]. destruct H as [[m2 e2] -> E2]. cbn in E1, E2. subst e1 e2.
  unfold F2R in *. cbn [Fnum Fexp] in *. replace (IZR m2 * bpow radix2 (-1074) - IZR m1 * bpow radix2 (-1074)) with (IZR (m2 - m1) * bpow radix2 (-1074)) in * by (rewrite minus_IZR; ring).
  apply fmt64_mk; [|lia].
  rewrite Rabs_mult, <- abs_IZR, (Rabs_pos_eq (bpow _ _)) in B by apply bpow_ge_0.
  apply lt_IZR. change (IZR (2 ^ 53)) with (bpow radix2 53).
  apply Rmult_lt_reg_r with (bpow radix2 (-1074)); [apply bpow_gt_0|]. rewrite <- bpow_plus. exact B.
Qed.

(** The largest double below 1. *)
Definition top : R := 1 - bpow radix2 (-53).

Lemma unit_top v : unit64 v -> B2R v <= top.
Proof.
  intros [Fv [_ H]]. assert (F : fmt64 (B2R v)) by apply (generic_format_B2R 53 1024).
  assert (F1 : fmt64 1) by (change 1 with (bpow radix2 0); apply generic_format_bpow; vm_compute; discriminate).
  assert (VE : Valid_exp (FLT_exp (-1074) 53)) by (apply FLT_exp_valid; reflexivity).
  pose proof (pred_ge_gt radix2 (FLT_exp (-1074) 53) (B2R v) 1 F F1 H) as P.
  change 1 with (bpow radix2 0) in P at 1. rewrite pred_bpow in P. unfold top. exact P.
Qed.

(** Rounding a number that is smaller by a factor below one. *)
Lemma shrink f d : fmt64 d -> bpow radix2 (-1021) <= d -> 0 <= f <= top -> rnd64 (f * d) <= pred radix2 (FLT_exp (-1074) 53) d.
Proof.
  intros Fd Hd Hf. assert (VE : Valid_exp (FLT_exp (-1074) 53)) by (apply FLT_exp_valid; reflexivity).
  assert (D0 : 0 < d) by (eapply Rlt_le_trans; [apply bpow_gt_0|exact Hd]).
  assert (Fp : fmt64 (pred radix2 (FLT_exp (-1074) 53) d)) by (apply generic_format_pred; auto).
  assert (FD : f * d <= d - bpow radix2 (-53) * d).
  { replace (d - bpow radix2 (-53) * d) with (top * d) by (unfold top; ring). apply Rmult_le_compat_r; lra. }
  assert (M : (-1021 + 1 <= mag radix2 d)%Z).
  { apply mag_ge_bpow. rewrite Rabs_pos_eq by lra. replace (-1021 + 1 - 1)%Z with (-1021)%Z by lia. exact Hd. }
  pose proof (pred_eq_pos radix2 (FLT_exp (-1074) 53) d (Rlt_le _ _ D0)) as P. unfold pred_pos in P.
  set (e := (mag radix2 d - 1)%Z) in *.
  destruct (Req_bool_spec d (bpow radix2 e)) as [E|N].
  - apply rnd64_le_fmt; [exact Fp|]. rewrite P. unfold FLT_exp. rewrite Z.max_l by (unfold e; lia).
    replace (e - 53)%Z with (-53 + e)%Z by lia. rewrite bpow_plus, <- E. exact FD.
  - apply round_N_le_midp; [exact VE|exact Fp|]. rewrite succ_pred by auto. rewrite P.
    rewrite ulp_neq_0 by lra. unfold cexp, FLT_exp. rewrite Z.max_l by lia.
    replace (mag radix2 d - 53)%Z with (-53 + e + 1)%Z by (unfold e; lia). rewrite !bpow_plus. change (bpow radix2 1) with 2.
    assert (L : bpow radix2 e < d).
    { destruct (bpow_mag_le radix2 d ltac:(lra)) as [G|G].
      - rewrite Rabs_pos_eq in G by lra. exact G.
      - rewrite Rabs_pos_eq in G by lra. exfalso. apply N. symmetry. exact G. }
    assert (0 < bpow radix2 (-53)) by apply bpow_gt_0. nra.
Qed.

(** The core of Uniform. *)
Lemma affine_range (l h v : f64) a b : den l a -> den h b -> a <= b -> Rabs a <= bpow radix2 1022 -> Rabs b <= bpow radix2 1022 -> unit64 v ->
  exists r, den (nadd (nmul v (nsub h l)) l) r /\ a <= r <= b.
Proof.
  intros Dl Dh AB A B U. pose proof (den_fmt _ _ Dl) as Fa. pose proof (den_fmt _ _ Dh) as Fb.
  assert (VE : Valid_exp (FLT_exp (-1074) 53)) by (apply FLT_exp_valid; reflexivity).
  pose proof (unit_top v U) as T. destruct U as [Fv [V0 V1]].
  set (f := B2R v) in *.
  assert (E2 : half = bpow radix2 1022 + bpow radix2 1022).
  { replace 1023%Z with (1022 + 1)%Z by lia. rewrite bpow_plus. change (bpow radix2 1) with 2. ring. }
  apply Rabs_le_inv in A. apply Rabs_le_inv in B.
  assert (S1 : Rabs (b - a) <= half) by (rewrite Rabs_pos_eq; lra).
  pose proof (big_sub h l b a Dh Dl S1) as D1. set (d := rnd64 (b - a)) in *.
  assert (F0 : fmt64 0) by apply generic_format_0.
  assert (d0 : 0 <= d) by (apply rnd64_ge_fmt; [exact F0|lra]).
  assert (dh : d <= half) by (apply rnd64_le_fmt; [apply fmt_half|lra]).
  assert (Fd : fmt64 d) by (apply (den_fmt _ _ D1)).
  assert (fd : 0 <= f * d <= d) by nra.
  assert (S2 : Rabs (f * d) <= half) by (rewrite Rabs_pos_eq; lra).
  pose proof (big_mul v (nsub h l) f d (conj Fv eq_refl) D1 S2) as D2. set (p := rnd64 (f * d)) in *.
  assert (p0 : 0 <= p) by (apply rnd64_ge_fmt; [exact F0|lra]).
  assert (P : p <= b - a).
  { destruct (Rlt_or_le (b - a) (bpow radix2 (-1021))) as [S|G].
    - assert (Q : fmt64 (b - a)) by (apply small_exact; auto; rewrite Rabs_pos_eq; lra).
      apply rnd64_le_fmt; [exact Q|]. unfold d in fd. rewrite (rnd64_id (b - a) Q) in fd. unfold d. rewrite (rnd64_id _ Q). lra.
    - assert (Gd : bpow radix2 (-1021) <= d) by (apply rnd64_ge_fmt; [apply generic_format_bpow; vm_compute; discriminate|exact G]).
      pose proof (shrink f d Fd Gd (conj V0 T)) as SH. fold p in SH.
      destruct (Rle_or_lt (pred radix2 (FLT_exp (-1074) 53) d) (b - a)) as [K|K]; [lra|].
      exfalso. assert (d <= pred radix2 (FLT_exp (-1074) 53) d).
      { unfold d at 1. apply rnd64_le_fmt; [apply generic_format_pred; auto|lra]. }
      assert (0 < bpow radix2 (-1021)) by apply bpow_gt_0.
      pose proof (pred_lt_id radix2 (FLT_exp (-1074) 53) d ltac:(lra)). lra. }
  assert (S3 : Rabs (p + a) <= half).
  { assert (0 < bpow radix2 1022) by apply bpow_gt_0. apply Rabs_le. lra. }
  exists (rnd64 (p + a)). split; [apply big_add; auto|].
  split; [apply rnd64_ge_fmt; [exact Fa|lra]|apply rnd64_le_fmt; [exact Fb|lra]].
Qed.

Lemma scale_range (l h v : f64) a b : den l a -> den h b -> a <= b -> Rabs a <= bpow radix2 1022 -> Rabs b <= bpow radix2 1022 -> unit64 v ->
  exists r, den (scale l h v) r /\ a <= r <= b.
Proof.
  intros Dl Dh AB A B U. unfold scale. destruct (neqb l (nofZ 0) && neqb h (nofZ 1)) eqn:E; [|now apply affine_range].
  apply andb_prop in E. destruct E as [E0 E1].
  rewrite (den_eqb _ _ _ _ Dl (den_int 0 ltac:(lia))) in E0. rewrite (den_eqb _ _ _ _ Dh (den_int 1 ltac:(lia))) in E1.
  revert E0. case Req_bool_spec; [intros E0 _|discriminate]. revert E1. case Req_bool_spec; [intros E1 _|discriminate].
  destruct U as [Fv V]. exists (B2R v). split; [split; auto|]. subst. lra.
Qed.

(** A backend whose next draw is below one. *)
Definition draws_unit (b : backend) : Prop := exists v b', gen_next b = Ok (v, b') /\ unit64 v.

Theorem uniform_range b l h : draws_unit b -> is_finite l = true -> is_finite h = true -> B2R l <= B2R h ->
  Rabs (B2R l) <= bpow radix2 1022 -> Rabs (B2R h) <= bpow radix2 1022 ->
  exists r b', gen_uniform b l h = Ok (r, b') /\ is_finite r = true /\ B2R l <= B2R r <= B2R h.
Proof.
  intros (v & b' & E & U) Fl Fh LH A B. destruct (scale_range l h v _ _ (conj Fl eq_refl) (conj Fh eq_refl) LH A B U) as (r & [D1 D2] & R).
  exists (scale l h v), b'. unfold gen_uniform. rewrite E. cbn [bind]. rewrite D2. auto.
Qed.

Open Scope Z_scope.
Theorem uniform_int_zero b n : draws_unit b -> 1 <= n <= 2 ^ 53 ->
  exists r b', gen_uniform_int b 0 n = Ok (r, b') /\ 0 <= r < n.
Proof.
  intros (v & b' & E & U) N. exists (nfloor (nadd (nmul (nofZ (n - 0)) v) (nofZ 0))), b'. unfold gen_uniform_int. rewrite E. cbn [bind].
  split; [reflexivity|]. rewrite Z.sub_0_r.
  pose proof (unit_top v U) as T. destruct U as [Fv [V0 V1]]. set (f := B2R v) in *.
  assert (NR : (1 <= IZR n <= IZR (2 ^ 53))%R) by (split; apply IZR_le; lia). 
  assert (P : (0 <= IZR n * f <= IZR n)%R) by nra.
  pose proof (den_mul (nofZ n) v (IZR n) f (den_int n ltac:(lia)) (conj Fv eq_refl) ltac:(rewrite Rabs_pos_eq; lra)) as D1.
  set (p := rnd64 (IZR n * f)) in *.
  assert (p0 : (0 <= p)%R) by (apply rnd64_ge_fmt; [apply generic_format_0|lra]).
  assert (Fn : fmt64 (IZR n)) by (apply fmt64_int; lia).
  assert (pn : (p < IZR n)%R).
  { eapply Rle_lt_trans; [|apply (pred_lt_id radix2 (FLT_exp (-1074) 53) (IZR n)); lra].
    unfold p. rewrite Rmult_comm. apply shrink; [exact Fn| |lra]. apply Rle_trans with 1%R; [|lra]. change 1%R with (bpow radix2 0). apply bpow_le. lia. }
  pose proof (den_add _ (nofZ 0) p 0%R D1 (den_int 0 ltac:(lia)) ltac:(rewrite Rplus_0_r, Rabs_pos_eq; lra)) as D2.
  rewrite Rplus_0_r, (rnd64_id p (den_fmt _ _ D1)) in D2. rewrite (den_floor _ _ D2). split.
  - apply Zfloor_lub. exact p0.
  - apply lt_IZR. eapply Rle_lt_trans; [apply Zfloor_lb|exact pn].
Qed.

Theorem uniform_int_xor s low high : xor_ok s -> ~ xor_zero s -> - 2 ^ 19 <= low < high -> high <= 2 ^ 19 ->
  exists r b', gen_uniform_int (BXor s) low high = Ok (r, b') /\ low <= r < high.
Proof.
  intros OK NZ L H. destruct (xor_next_ok s OK NZ) as (v & s' & E & [Fv [V0 V1]] & TV & _).
  exists (nfloor (nadd (nmul (nofZ (high - low)) v) (nofZ low))), (BXor s'). unfold gen_uniform_int. cbn [gen_next]. rewrite E. cbn [bind].
  split; [reflexivity|]. set (n := high - low). set (f := B2R v) in *.
  change (bpow radix2 (-33)) with (/ 8589934592)%R in TV.
  assert (NR : (1 <= IZR n <= 1048576)%R) by (split; apply IZR_le; unfold n; lia).
  assert (LR : (- 524288 <= IZR low <= 524288)%R) by (split; apply IZR_le; lia).
  assert (HR : (- 524288 <= IZR high <= 524288)%R) by (split; apply IZR_le; lia).
  assert (EN : (IZR n = IZR high - IZR low)%R) by (unfold n; rewrite minus_IZR; reflexivity).
  assert (P : (0 <= IZR n * f <= IZR n - / 8589934592)%R) by nra.
  pose proof T53 as T.
  pose proof (den_mul (nofZ n) v (IZR n) f (den_int n ltac:(unfold n; lia)) (conj Fv eq_refl) ltac:(rewrite T, Rabs_pos_eq; lra)) as D1.
  set (p := rnd64 (IZR n * f)) in *.
  assert (FM : forall z, - 2 ^ 20 < z <= 2 ^ 20 -> fmt64 (IZR z - / 8589934592)).
  { intros z Hz. replace (IZR z - / 8589934592)%R with (IZR (z * 2 ^ 33 - 1) * bpow radix2 (-33))%R.
    - apply fmt64_mk; [|lia]. revert Hz. clear. lia.
    - change (bpow radix2 (-33)) with (/ 8589934592)%R. rewrite minus_IZR, mult_IZR. change (IZR (2 ^ 33)) with 8589934592%R. lra. }
  assert (p0 : (0 <= p)%R) by (apply rnd64_ge_fmt; [apply generic_format_0|lra]).
  assert (pn : (p <= IZR n - / 8589934592)%R) by (apply rnd64_le_fmt; [apply FM; unfold n; lia|lra]).
  pose proof (den_add _ (nofZ low) p (IZR low) D1 (den_int low ltac:(lia)) ltac:(rewrite T; apply Rabs_le; lra)) as D2.
  rewrite (den_floor _ _ D2). split.
  - apply Zfloor_lub. apply rnd64_ge_fmt; [apply fmt64_int; lia|lra].
  - apply lt_IZR. eapply Rle_lt_trans; [apply Zfloor_lb|]. apply Rle_lt_trans with (IZR high - / 8589934592)%R; [|lra].
    apply rnd64_le_fmt; [apply FM; lia|lra].
Qed.

(** ** Witnesses *)
Definition top64 : f64 := f64lit (2 ^ 53 - 1) (-53).
Lemma top64_ok : unit64 top64.
Proof.
  assert (EB : (IZR (2 ^ 53 - 1) * bpow radix2 (-53) = 1 - / 9007199254740992)%R).
  { change (bpow radix2 (-53)) with (/ 9007199254740992)%R. rewrite minus_IZR, T53. field. }
  assert (S : (Rabs (IZR (2 ^ 53 - 1) * bpow radix2 (-53)) <= IZR (2 ^ 53))%R).
  { rewrite EB, T53, Rabs_pos_eq; lra. }
  destruct (den_lit (2 ^ 53 - 1) (-53) S) as [A B]. split; [exact A|]. fold top64 in B. rewrite B, rnd64_id by (apply fmt64_mk; lia).
  rewrite EB. lra.
Qed.

Theorem go_int_high : (forall s k, unit64 ((fun _ _ : Z => top64) s k)) /\
  exists b b', gen_new (fun _ _ => top64) 1 0 = Ok b /\ gen_uniform_int b 1 2 = Ok (2, b').
Proof.
  split; [intros; apply top64_ok|]. eexists _, _. split; [reflexivity|]. unfold gen_uniform_int. cbn [gen_next bind].
  assert (E : nfloor (nadd (nmul (nofZ (2 - 1)) top64) (nofZ 1)) = 2) by (vm_compute; reflexivity). rewrite E. reflexivity.
Qed.

Definition next1 : f64 := f64lit (2 ^ 52 + 1) (-52).
Theorem go_uniform_high : exists b r b', gen_new (fun _ _ => top64) 1 0 = Ok b /\ nltb (nofZ 1) next1 = true /\
  gen_uniform b (nofZ 1) next1 = Ok (r, b') /\ neqb r next1 = true.
Proof.
  eexists _, _, _. split; [reflexivity|]. split; [vm_compute; reflexivity|]. split; [reflexivity|]. vm_compute. reflexivity.
Qed.

Theorem taus_uniform_above : exists (table : list f64) r b', zlen table = taus_len /\ Forall unit64 table /\
  gen_uniform (BTaus (taus_init table)) (nofZ (-1)) (f64lit 3 (-54)) = Ok (r, b') /\ nltb (f64lit 3 (-54)) r = true.
Proof.
  destruct taus_one as (table & v & g & L & F & E & Fv & V). exists table, (scale (nofZ (-1)) (f64lit 3 (-54)) v), (BTaus g).
  split; [exact L|]. split; [exact F|]. unfold gen_uniform. cbn [gen_next]. rewrite E. cbn [bind]. split; [reflexivity|].
  assert (v = nofZ 1) as ->.
  { destruct (den_int 1 ltac:(lia)) as [A B]. apply B2R_inj.
    - destruct v; try discriminate; try reflexivity. cbn in V. lra.
    - vm_compute. reflexivity.
    - rewrite V, B. reflexivity. }
  vm_compute. reflexivity.
Qed.

(** A double below one that is one as a float32. *)
Theorem f32_one : unit64 top64 /\ neqb (to_f32 top64) (nofZ 1) = true.
Proof. split; [apply top64_ok|vm_compute; reflexivity]. Qed.

Lemma made_unit_draws go gt b : go_stream go -> gt <> 2 -> made go gt b -> draws_unit b.
Proof. exact (made_unit go gt b). Qed.

Theorem made_uniform go gt b l h : go_stream go -> gt <> 2 -> made go gt b -> is_finite l = true -> is_finite h = true ->
  (B2R l <= B2R h)%R -> (Rabs (B2R l) <= bpow radix2 1022)%R -> (Rabs (B2R h) <= bpow radix2 1022)%R ->
  exists r b', gen_uniform b l h = Ok (r, b') /\ is_finite r = true /\ (B2R l <= B2R r <= B2R h)%R.
Proof. intros H G M. apply uniform_range. eapply made_unit_draws; eauto. Qed.

Theorem made_uniform_int go gt b n : go_stream go -> gt <> 2 -> made go gt b -> 1 <= n <= 2 ^ 53 ->
  exists r b', gen_uniform_int b 0 n = Ok (r, b') /\ 0 <= r < n.
Proof. intros H G M. apply uniform_int_zero. eapply made_unit_draws; eauto. Qed.

Theorem made_uniform_xor go b low high : go_stream go -> made go 0 b -> - 2 ^ 19 <= low < high -> high <= 2 ^ 19 ->
  exists r b', gen_uniform_int b low high = Ok (r, b') /\ low <= r < high.
Proof.
  intros H M. destruct (made_draws go 0 b H M) as [G _]. destruct M as (seed & b0 & k & l & E & D).
  cbn in E. injection E as <-. rewrite (draws_embed xor_next gen_next BXor (fun s => eq_refl)) in D.
  destruct (draws xor_next k (xor_init seed)) as [[l' s]| | |]; try discriminate D. cbn [bind] in D. injection D as <- <-.
  destruct G as [A B]. intros. now apply uniform_int_xor.
Qed.

Theorem new_made go gt seed : go_stream go ->
  (0 <= gt <= 2 -> exists b, gen_new go gt seed = Ok b /\ made go gt b) /\ (~ 0 <= gt <= 2 -> gen_new go gt seed = Panic).
Proof.
  intros H. destruct (new_ok go gt seed H) as [A B]. split; [|exact B]. intros G. destruct (A G) as (b & E & _). exists b. split; [exact E|].
  exists seed, b, O, []. auto.
Qed.
Theorem made_draws_n go gt b n : go_stream go -> made go gt b ->
  exists vs b', draws gen_next n b = Ok (vs, b') /\ length vs = n /\ Forall closed_float vs /\ (gt <> 2 -> Forall unit_float vs) /\ made go gt b'.
Proof. intros H M. apply (made_draws go gt b H M). Qed.
Theorem made_uniform_at go gt b low high target : go_stream go -> made go gt b ->
  exists fuel0, forall fuel, (fuel0 <= fuel)%nat ->
    gen_uniform_at fuel b low high target = draws (fun b => gen_uniform b low high) (length target) b.
Proof. intros H M. apply uniform_at_draws. apply (made_draws go gt b H M). Qed.

Theorem int_high : exists go b b', go_stream go /\ gen_new go 1 0 = Ok b /\ gen_uniform_int b 1 2 = Ok (2, b').
Proof. destruct go_int_high as (H & b & b' & A & B). exists (fun _ _ => top64), b, b'. split; [exact H|auto]. Qed.
Theorem uniform_high : exists go b l h r b', go_stream go /\ gen_new go 1 0 = Ok b /\ nltb l h = true /\
  gen_uniform b l h = Ok (r, b') /\ neqb r h = true.
Proof. destruct go_uniform_high as (b & r & b' & A & B & C & D). exists (fun _ _ => top64), b, (nofZ 1), next1, r, b'. split; [intros s k; apply top64_ok|auto]. Qed.
Theorem uniform_above : exists (table : list f64) l h r b', zlen table = 9689 /\ Forall unit_float table /\
  nltb l h = true /\ gen_uniform (BTaus (taus_init table)) l h = Ok (r, b') /\ nltb h r = true.
Proof.
  destruct taus_uniform_above as (table & r & b' & L & F & E & K). exists table, (nofZ (-1)), (f64lit 3 (-54)), r, b'.
  split; [exact L|]. split; [exact F|]. split; [vm_compute; reflexivity|auto].
Qed.
