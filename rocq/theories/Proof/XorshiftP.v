From Coq Require Import ZArith List Lia Lra Bool Reals Znumtheory.
From Coq Require Import ZifyBool ZifyNat.
From Flocq Require Import Core BinarySingleNaN.
From Verif Require Import Base.Res Base.ResFacts Base.Num Base.IEEE Base.IEEER Model.Rand Spec.Streams.
Import ListNotations.
Open Scope Z_scope.

Definition u32ok (z : Z) : Prop := 0 <= z < 2 ^ 32.
Definition xor_ok (s : xorst) : Prop :=
  u32ok (xx s) /\ u32ok (xy s) /\ u32ok (xz s) /\ u32ok (xw s).
Definition xor_zero (s : xorst) : Prop := xx s = 0 /\ xy s = 0 /\ xz s = 0 /\ xw s = 0.

Lemma lxor_u32 a b : u32ok a -> u32ok b -> u32ok (Z.lxor a b).
Proof.
  unfold u32ok. intros Ha Hb. assert (0 <= Z.lxor a b) as P by (apply Z.lxor_nonneg; lia).
  split; auto. destruct (Z.eq_dec (Z.lxor a b) 0) as [->|N]; [lia|].
  assert (LA : forall z, 0 <= z < 2 ^ 32 -> Z.log2 z < 32).
  { intros z Hz. destruct (Z.eq_dec z 0) as [->|]; [reflexivity|]. apply Z.log2_lt_pow2; lia. }
  apply Z.log2_lt_pow2; [lia|].
  pose proof (Z.log2_lxor a b ltac:(lia) ltac:(lia)).
  pose proof (LA a Ha). pose proof (LA b Hb). lia.
Qed.

Lemma shr_u32 a k : 0 <= k -> u32ok a -> u32ok (Z.shiftr a k).
Proof.
  unfold u32ok. intros Hk Ha. rewrite Z.shiftr_div_pow2 by auto. split.
  - apply Z.div_pos; lia.
  - apply Z.le_lt_trans with a; [|lia]. apply Z.div_le_upper_bound; nia.
Qed.

Lemma shl_u32 a k : u32ok (shl32 a k).
Proof. unfold u32ok, shl32. apply Z.mod_pos_bound. lia. Qed.

Lemma xor_step_ok s : xor_ok s -> xor_ok (xor_step s).
Proof.
  intros (X & Y & Z_ & W). unfold xor_step, xor_ok; simpl.
  repeat split; try apply Y; try apply Z_; try apply W;
  repeat first [apply lxor_u32 | apply shr_u32 | apply shl_u32 | assumption | lia].
Qed.

Lemma xor_init_ok seed : xor_ok (xor_init seed).
Proof.
  unfold xor_init, xor_ok, u32ok; simpl. repeat split; try lia; apply Z.mod_pos_bound; lia.
Qed.

Lemma xor_init_nz seed : ~ xor_zero (xor_init seed).
Proof. unfold xor_zero; simpl. lia. Qed.

Lemma shift_self t : 0 <= t -> Z.lxor t (Z.shiftr t 8) = 0 -> t = 0.
Proof.
  intros H E. apply Z.lxor_eq in E. rewrite Z.shiftr_div_pow2 in E by lia.
  change (2 ^ 8) with 256 in E. pose proof (Z.div_mod t 256 ltac:(lia)).
  pose proof (Z.mod_pos_bound t 256 ltac:(lia)). lia.
Qed.

Lemma shl_self x : u32ok x -> Z.lxor x (shl32 x 11) = 0 -> x = 0.
Proof.
  unfold u32ok, shl32. intros H E. apply Z.lxor_eq in E. rewrite Z.shiftl_mul_pow2 in E by lia.
  change (2 ^ 11) with 2048 in E.
  assert (D : (2 ^ 32 | 2047 * x)).
  { exists ((x * 2048) / 2 ^ 32). pose proof (Z.div_mod (x * 2048) (2 ^ 32) ltac:(lia)). lia. }
  apply Gauss in D.
  - destruct D as [q Hq]. nia.
  - apply Zgcd_1_rel_prime. reflexivity.
Qed.

Lemma xor_step_nz s : xor_ok s -> ~ xor_zero s -> ~ xor_zero (xor_step s).
Proof.
  intros OK N (X & Y & Z_ & W). simpl in *. apply N.
  rewrite Z_ in W. rewrite Z.shiftr_0_l, !Z.lxor_0_l in W.
  assert (x0 : xx s = 0).
  { apply shl_self; [apply OK|]. apply shift_self; auto.
    apply lxor_u32; [apply OK|apply shl_u32]. }
  repeat split; auto.
Qed.

(** The value is below one unless w = 0. *)
Lemma xor_value_den s : xor_ok s -> exists r, den (xor_value s) r /\ (0 <= r <= 1)%R /\
  (xw s <> 0 -> (r <= 1 - bpow radix2 (-33))%R) /\ (xw s = 0 -> r = 1%R).
Proof.
  intros (_ & _ & _ & W). unfold u32ok in W. unfold xor_value.
  set (a := 2 ^ 32 - 1 - xw s). set (b := 2 ^ 32 - 1).
  assert (IZR b = 4294967295)%R as Eb by (subst b; simpl; lra).
  assert (0 <= IZR a <= IZR b)%R as Ha by (split; apply IZR_le; lia).
  assert (Q : (0 <= IZR a / IZR b <= 1)%R).
  { split.
    - apply Rmult_le_pos; [lra|]. apply Rlt_le, Rinv_0_lt_compat; lra.
    - apply Rmult_le_reg_r with (IZR b); [lra|]. unfold Rdiv. rewrite Rmult_assoc, Rinv_l; lra. }
  exists (rnd64 (IZR a / IZR b)). split; [|split; [|split]].
  - apply den_div.
    + apply den_int. lia.
    + apply den_int. lia.
    + lra.
    + rewrite Rabs_pos_eq by lra. apply Rle_trans with 1%R; [lra|]. apply IZR_le; lia.
  - split.
    + apply rnd64_ge_fmt; [apply (fmt64_int 0); lia|lra].
    + apply rnd64_le_fmt; [apply (fmt64_int 1); lia|lra].
  - intros N. apply rnd64_le_fmt.
    + replace (1 - bpow radix2 (-33))%R with (IZR (2 ^ 33 - 1) * bpow radix2 (-33))%R.
      * apply fmt64_mk; lia.
      * simpl. lra.
    + apply Rmult_le_reg_r with (IZR b); [lra|]. unfold Rdiv. rewrite Rmult_assoc, Rinv_l by lra.
      assert (IZR a <= IZR (b - 1))%R as A by (apply IZR_le; lia).
      rewrite minus_IZR in A. rewrite Eb in *. simpl bpow. lra.
  - intros E. replace a with b by lia. unfold Rdiv. rewrite Rinv_r by lra.
    apply rnd64_id. apply (fmt64_int 1); lia.
Qed.

Lemma xor_retry s : xor_ok s -> neqb (xor_value s) (nofZ 1) = (xw s =? 0).
Proof.
  intros OK. destruct (xor_value_den s OK) as (r & D & R1 & NZ & Z0).
  rewrite (den_eqb _ _ _ _ D (den_int 1 ltac:(lia))).
  destruct (Z.eqb_spec (xw s) 0) as [E|N].
  - apply Req_bool_true; auto.
  - apply Req_bool_false. specialize (NZ N). simpl in NZ. lra.
Qed.

(** After at most four steps w is non-zero. *)
Fixpoint steps (n : nat) (s : xorst) : xorst :=
  match n with O => s | S n' => xor_step (steps n' s) end.

Lemma steps_comm n s : steps n (xor_step s) = xor_step (steps n s).
Proof. induction n; simpl; congruence. Qed.

Lemma steps_ok n s : xor_ok s -> xor_ok (steps n s).
Proof. induction n; simpl; auto using xor_step_ok. Qed.

Lemma steps_nz n s : xor_ok s -> ~ xor_zero s -> ~ xor_zero (steps n s).
Proof. induction n; simpl; auto using xor_step_nz, steps_ok. Qed.

Lemma some_nonzero s : xor_ok s -> ~ xor_zero s ->
  exists k, (1 <= k <= 4)%nat /\ xw (steps k s) <> 0 /\
            forall j, (1 <= j < k)%nat -> xw (steps j s) = 0.
Proof.
  intros OK N.
  destruct (Z.eq_dec (xw (steps 1 s)) 0) as [E1|N1];
    [|exists 1%nat; repeat split; auto; lia].
  destruct (Z.eq_dec (xw (steps 2 s)) 0) as [E2|N2];
    [|exists 2%nat; repeat split; auto; intros j Hj; now replace j with 1%nat by lia].
  destruct (Z.eq_dec (xw (steps 3 s)) 0) as [E3|N3].
  2:{ exists 3%nat; repeat split; auto. intros j Hj.
      assert (j = 1 \/ j = 2)%nat as [-> | ->] by lia; auto. }
  destruct (Z.eq_dec (xw (steps 4 s)) 0) as [E4|N4].
  2:{ exists 4%nat; repeat split; auto. intros j Hj.
      assert (j = 1 \/ j = 2 \/ j = 3)%nat as [-> | [-> | ->]] by lia; auto. }
  exfalso. apply (steps_nz 4 s OK N). repeat split; auto.
Qed.

Lemma xor_next_fuel_char k : forall s fuel, xor_ok s ->
  (1 <= k)%nat -> xw (steps k s) <> 0 -> (forall j, (1 <= j < k)%nat -> xw (steps j s) = 0) ->
  (k <= fuel)%nat -> xor_next_fuel fuel s = Ok (xor_value (steps k s), steps k s).
Proof.
  induction k as [|k IH]; intros s fuel OK Hk NZ Zj Hf; [lia|].
  destruct fuel as [|fuel]; [lia|]. cbn [xor_next_fuel].
  rewrite xor_retry by now apply xor_step_ok.
  destruct (Z.eqb_spec (xw (xor_step s)) 0) as [E|N].
  - destruct k as [|k]; [now elim NZ|].
    rewrite (IH (xor_step s)).
    + now rewrite steps_comm.
    + now apply xor_step_ok.
    + lia.
    + now rewrite steps_comm.
    + intros j Hj. rewrite steps_comm. apply (Zj (S j)). lia.
    + lia.
  - destruct k as [|k]; [reflexivity|]. elim N. apply (Zj 1%nat). lia.
Qed.

Lemma xor_next_char s : xor_ok s -> ~ xor_zero s ->
  exists k, (1 <= k <= 4)%nat /\ xw (steps k s) <> 0 /\
    (forall j, (1 <= j < k)%nat -> xw (steps j s) = 0) /\
    xor_next s = Ok (xor_value (steps k s), steps k s).
Proof.
  intros OK N. destruct (some_nonzero s OK N) as (k & Hk & NZ & Zj).
  exists k. repeat split; auto; try lia. apply xor_next_fuel_char; auto; lia.
Qed.

Definition unit_value (v : f64) : Prop := is_finite v = true /\ (0 <= B2R v < 1)%R.

Lemma xor_next_ok s : xor_ok s -> ~ xor_zero s ->
  exists v s', xor_next s = Ok (v, s') /\ unit_value v /\
    (B2R v <= 1 - bpow radix2 (-33))%R /\ xor_ok s' /\ ~ xor_zero s'.
Proof.
  intros OK N. destruct (xor_next_char s OK N) as (k & Hk & NZ & _ & E).
  exists (xor_value (steps k s)), (steps k s). split; auto.
  destruct (xor_value_den (steps k s) (steps_ok k s OK)) as (r & D & R1 & U & _).
  specialize (U NZ). destruct D as [Fi Br].
  unfold unit_value. rewrite Br.
  assert (0 < bpow radix2 (-33))%R by apply bpow_gt_0.
  split; [split; [auto|lra]|]. split; [lra|].
  split; [now apply steps_ok | now apply steps_nz].
Qed.

Lemma xor_draws_ok n : forall s, xor_ok s -> ~ xor_zero s ->
  exists vs s', draws xor_next n s = Ok (vs, s') /\ length vs = n /\ Forall unit_value vs /\
    xor_ok s' /\ ~ xor_zero s'.
Proof.
  induction n as [|n IH]; intros s OK N; cbn [draws].
  - exists [], s. auto.
  - destruct (xor_next_ok s OK N) as (v & s1 & E & U & _ & OK1 & N1).
    destruct (IH s1 OK1 N1) as (vs & s2 & E2 & L & F & OK2 & N2).
    exists (v :: vs), s2. rewrite E; cbn [bind]. rewrite E2; cbn [bind].
    split; auto. split; [simpl; congruence|]. auto.
Qed.

Lemma xor_stream_ok seed n :
  exists vs s', draws xor_next n (xor_init seed) = Ok (vs, s') /\ length vs = n /\
    Forall unit_value vs.
Proof.
  destruct (xor_draws_ok n _ (xor_init_ok seed) (xor_init_nz seed)) as (vs & s' & E & L & F & _).
  eauto 6.
Qed.

(** ** Batch draws *)

Definition seq_body (st : Z * list f64 * xorst) : res ((Z * list f64 * xorst) + (list f64 * xorst)) :=
  let '(i, tg, s) := st in
  if i <? zlen tg then
    let s' := xor_step s in
    tg' <- set tg i (xor_value s') ;;
    v <- get tg' i ;;
    let i' := if neqb v (nofZ 1) then i - 1 else i in
    Ok (inl (i' + 1, tg', s'))
  else Ok (inr (tg, s)).

Lemma seq_body_step i tg s : 0 <= i < zlen tg -> xor_ok s ->
  seq_body (i, tg, s) =
  Ok (inl (if xw (xor_step s) =? 0 then i else i + 1,
           upd tg (Z.to_nat i) (xor_value (xor_step s)), xor_step s)).
Proof.
  intros H OK. unfold seq_body. destruct (Z.ltb_spec i (zlen tg)); [|lia].
  cbv zeta. rewrite set_ok by auto. cbn [bind].
  rewrite (get_ok (nofZ 0)) by (rewrite zlen_upd; lia). cbn [bind].
  rewrite zn_upd_eq by auto. rewrite xor_retry by now apply xor_step_ok.
  repeat f_equal. destruct (xw (xor_step s) =? 0); lia.
Qed.

(** One slot: [k] iterations move on to the next index. *)
Lemma seq_slot k : forall fuel i tg s, 0 <= i < zlen tg -> xor_ok s ->
  (1 <= k)%nat -> xw (steps k s) <> 0 -> (forall j, (1 <= j < k)%nat -> xw (steps j s) = 0) ->
  loop (k + fuel) seq_body (i, tg, s) =
  loop fuel seq_body (i + 1, upd tg (Z.to_nat i) (xor_value (steps k s)), steps k s).
Proof.
  induction k as [|k IH]; intros fuel i tg s H OK Hk NZ Zj; [lia|].
  cbn [loop Nat.add]. rewrite seq_body_step by auto. cbn [bind].
  destruct (Z.eqb_spec (xw (xor_step s)) 0) as [E|N].
  - destruct k as [|k]; [now elim NZ|].
    rewrite (IH fuel i _ (xor_step s)).
    + f_equal. f_equal; [f_equal|].
      * rewrite steps_comm. clear. generalize (Z.to_nat i). intro n. simpl.
        revert n; induction tg; intros [|n]; simpl; auto; try now rewrite IHtg.
      * now rewrite steps_comm.
    + rewrite zlen_upd; lia.
    + now apply xor_step_ok.
    + lia.
    + now rewrite steps_comm.
    + intros j Hj. rewrite steps_comm. apply (Zj (S j)). lia.
  - destruct k as [|k]; [reflexivity|]. elim N. apply (Zj 1%nat). lia.
Qed.

Lemma seq_from : forall rest done_ s fuel, xor_ok s -> ~ xor_zero s ->
  (4 * length rest + 1 <= fuel)%nat ->
  loop fuel seq_body (zlen done_, done_ ++ rest, s) =
  bind (draws xor_next (length rest) s) (fun '(vs, s') => Ok (done_ ++ vs, s')).
Proof.
  induction rest as [|x rest IH]; intros dn s fuel OK N Hf.
  - destruct fuel as [|fuel]; [lia|]. cbn [loop draws length bind]. unfold seq_body.
    rewrite zlen_app, zlen_nil. replace (zlen dn <? zlen dn + 0) with false by lia. reflexivity.
  - destruct (xor_next_char s OK N) as (k & Hk & NZ & Zj & E).
    cbn [length] in Hf |- *. cbn [draws]. rewrite E. cbn [bind].
    replace fuel with (k + (fuel - k))%nat by lia.
    rewrite (seq_slot k); auto; try lia.
    2:{ rewrite zlen_app, zlen_cons. pose proof (zlen_nonneg dn). pose proof (zlen_nonneg rest). lia. }
    assert (U : upd (dn ++ x :: rest) (Z.to_nat (zlen dn)) (xor_value (steps k s)) =
                (dn ++ [xor_value (steps k s)]) ++ rest).
    { unfold zlen. rewrite Nat2Z.id. clear. induction dn; simpl; auto. now rewrite IHdn. }
    rewrite U.
    replace (zlen dn + 1) with (zlen (dn ++ [xor_value (steps k s)]))
      by (rewrite zlen_app, zlen_cons, zlen_nil; lia).
    rewrite IH.
    + destruct (draws xor_next (length rest) (steps k s)) as [[vs s2]| | |]; cbn [bind]; auto.
      now rewrite <- app_assoc.
    + now apply steps_ok.
    + now apply steps_nz.
    + lia.
Qed.

Lemma xor_batch s target fuel : xor_ok s -> ~ xor_zero s ->
  (4 * length target + 1 <= fuel)%nat ->
  xor_next_sequence fuel s target = draws xor_next (length target) s.
Proof.
  intros OK N H. unfold xor_next_sequence. fold seq_body.
  change (0, target, s) with (zlen (@nil f64), [] ++ target, s).
  change (loop fuel seq_body (zlen (@nil f64), [] ++ target, s) = draws xor_next (length target) s).
  rewrite seq_from by auto.
  destruct (draws xor_next (length target) s) as [[vs s2]| | |]; reflexivity.
Qed.

Lemma xor_batch_full s target : xor_ok s -> ~ xor_zero s ->
  exists vs s', draws xor_next (length target) s = Ok (vs, s') /\
  exists fuel0, forall fuel, (fuel0 <= fuel)%nat -> xor_next_sequence fuel s target = Ok (vs, s').
Proof.
  intros OK N. destruct (xor_draws_ok (length target) s OK N) as (vs & s' & E & _).
  exists vs, s'. split; auto. exists (4 * length target + 1)%nat. intros fuel H.
  now rewrite xor_batch.
Qed.

(** ** Bounded integers *)

Lemma uniform_int_ok s n : xor_ok s -> ~ xor_zero s -> 1 <= n <= 2 ^ 31 ->
  exists r s', uniform_int s 0 n = Ok (r, s') /\ 0 <= r < n /\ xor_ok s' /\ ~ xor_zero s'.
Proof.
  intros OK N Hn. destruct (xor_next_ok s OK N) as (v & s' & E & [Fv Uv] & Bv & OK' & N').
  unfold uniform_int. rewrite E. cbn [bind].
  eexists _, s'. split; [reflexivity|]. split; [|auto].
  rewrite Z.sub_0_r.
  assert (Dv : den v (B2R v)) by (split; auto).
  set (r := B2R v) in *.
  assert (1 <= IZR n <= 2147483648)%R as Rn by (split; apply IZR_le; lia).
  assert (P : (0 <= IZR n * r <= IZR n * (1 - bpow radix2 (-33)))%R).
  { split; [apply Rmult_le_pos; lra|]. apply Rmult_le_compat_l; lra. }
  assert (b33 : (bpow radix2 (-33) = / 8589934592)%R) by (simpl; reflexivity).
  assert (b53 : (bpow radix2 (-53) = / 9007199254740992)%R) by (simpl; reflexivity).
  assert (T53 : (IZR (2 ^ 53) = 9007199254740992)%R) by (simpl; reflexivity).
  assert (Q : (0 <= rnd64 (IZR n * r) < IZR n)%R).
  { split. apply rnd64_ge_fmt; [apply (fmt64_int 0); lia|lra].
    eapply Rle_lt_trans; [apply rnd64_le; apply P|].
    set (y := (IZR n * (1 - bpow radix2 (-33)))%R) in *.
    assert (0 < y)%R by (subst y; rewrite b33; nra).
    assert (E1 : (Rabs (rnd64 y - y) <= bpow radix2 (-53) * Rabs y)%R).
    { apply rnd64_rel. rewrite Rabs_pos_eq by lra.
      apply Rle_trans with (bpow radix2 (-1)); [apply bpow_le; lia|].
      subst y. rewrite b33. simpl. nra. }
    apply Rabs_le_inv in E1. rewrite Rabs_pos_eq in E1 by lra. rewrite b53 in E1.
    assert (y = IZR n * (1 - / 8589934592))%R by (subst y; now rewrite b33). nra. }
  assert (D1 : den (nmul (nofZ n) v) (rnd64 (IZR n * r))).
  { apply den_mul; auto. apply den_int. lia. rewrite Rabs_pos_eq by lra. rewrite T53. nra. }
  assert (D2 : den (nadd (nmul (nofZ n) v) (nofZ 0)) (rnd64 (rnd64 (IZR n * r) + 0))).
  { apply den_add; auto. apply (den_int 0); lia. rewrite Rplus_0_r, Rabs_pos_eq by lra.
    rewrite T53. lra. }
  rewrite Rplus_0_r in D2. rewrite (rnd64_id (rnd64 (IZR n * r))) in D2 by apply (den_fmt _ _ D1).
  rewrite (den_floor _ _ D2). split.
  - apply Zfloor_lub. lra.
  - apply lt_IZR. eapply Rle_lt_trans; [apply Zfloor_lb|]. lra.
Qed.
