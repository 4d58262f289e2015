From Coq Require Import ZArith List Lia Lra Bool Reals.
From Coq Require Import ZifyBool ZifyNat.
From Flocq Require Import Core BinarySingleNaN.
From Verif Require Import Base.Res Base.ResFacts Base.Num Base.IEEE Base.IEEER Model.Rand Spec.Streams.
Import ListNotations.
Open Scope Z_scope.
Ltac Zify.zify_post_hook ::= Z.div_mod_to_equations.

Section Gen.
Context {F : Type} {NF : Num F}.
Variable d : F.

Definition taus_op (a b : F) : F :=
  let x := nsub a b in if nltb x (nofZ 0) then nadd x (nofZ 1) else x.

(** Table position of the value [m] draws in. *)
Definition slot (m : Z) : Z := (- m) mod taus_len.

Record tinv (table outs : list F) (g : taus F) : Prop := {
  ti_len : zlen (tseq g) = taus_len;
  ti_l : leader g = slot (zlen outs);
  ti_1 : follow1 g = slot (zlen outs - taus_first);
  ti_2 : follow2 g = slot (zlen outs - taus_second);
  ti_tab : forall m, - taus_len < m -> zlen outs - taus_len <= m < zlen outs ->
             zn d (tseq g) (slot m) = past d table outs m }.

Lemma slot_range m : 0 <= slot m < taus_len.
Proof. apply Z.mod_pos_bound. reflexivity. Qed.

Lemma slot_dec m : wrap_dec taus_len (slot m) = slot (m + 1).
Proof.
  unfold wrap_dec, slot. pose proof (Z.mod_pos_bound (- m) taus_len eq_refl).
  unfold taus_len in *. destruct (Z.eqb_spec (- m mod 9689) 0); lia.
Qed.

Lemma slot_inj m m' : 0 <= m - m' < taus_len -> slot m = slot m' -> m = m'.
Proof. unfold slot, taus_len. lia. Qed.

Lemma past_app table outs v m : m < zlen outs ->
  past d table (outs ++ [v]) m = past d table outs m.
Proof.
  intros H. unfold past. destruct (Z.ltb_spec m 0); auto. apply app_nth1. unfold zlen in H. lia.
Qed.

Lemma past_last table outs v : past d table (outs ++ [v]) (zlen outs) = v.
Proof.
  unfold past. pose proof (zlen_nonneg outs). destruct (Z.ltb_spec (zlen outs) 0); [lia|].
  unfold zlen. rewrite Nat2Z.id. rewrite app_nth2 by lia. now rewrite Nat.sub_diag.
Qed.

Lemma tinv_init table : zlen table = taus_len -> tinv table [] (taus_init table).
Proof.
  intros L. constructor; simpl; auto.
  intros m H1 H2. rewrite zlen_nil in H2. unfold past, slot, zn.
  destruct (Z.ltb_spec m 0); [|lia]. f_equal. f_equal. unfold taus_len in *. lia.
Qed.

Lemma taus_step table outs g : tinv table outs g ->
  exists v g', taus_next g = Ok (v, g') /\ tinv table (outs ++ [v]) g' /\
    v = taus_op (past d table outs (zlen outs - taus_first))
                (past d table outs (zlen outs - taus_second)).
Proof.
  intros [L I0 I1 I2 T]. unfold taus_next. rewrite I0, I1, I2.
  pose proof (slot_range (zlen outs)) as R0.
  pose proof (slot_range (zlen outs - taus_first)) as R1.
  pose proof (slot_range (zlen outs - taus_second)) as R2.
  pose proof (zlen_nonneg outs) as P.
  rewrite !(get_ok d) by lia. cbn [bind]. rewrite set_ok by lia. cbn [bind].
  rewrite zlen_upd, L, !slot_dec.
  rewrite !T by (unfold taus_first, taus_second, taus_len; lia).
  fold (taus_op (past d table outs (zlen outs - taus_first))
                (past d table outs (zlen outs - taus_second))).
  eexists _, _. split; [reflexivity|]. split; [|reflexivity].
  set (v := taus_op _ _).
  constructor; cbn [tseq leader follow1 follow2].
  - now rewrite zlen_upd.
  - now rewrite zlen_app, zlen_cons, zlen_nil.
  - rewrite zlen_app, zlen_cons, zlen_nil. f_equal. lia.
  - rewrite zlen_app, zlen_cons, zlen_nil. f_equal. lia.
  - intros m M1 M2. rewrite zlen_app, zlen_cons, zlen_nil in M2.
    pose proof (slot_range m).
    rewrite zn_upd by lia. destruct (Z.eqb_spec (slot m) (slot (zlen outs))) as [E|N].
    + assert (zlen outs = m) by (apply slot_inj; [lia|auto]). subst m. symmetry. apply past_last.
    + assert (m <> zlen outs) by congruence.
      rewrite past_app by lia. apply T; lia.
Qed.

(** [n] draws from a state with history [outs]. *)
Lemma taus_draws table n : forall outs g, tinv table outs g ->
  exists vs g', draws taus_next n g = Ok (vs, g') /\ length vs = n /\
    tinv table (outs ++ vs) g' /\
    forall m, zlen outs <= m < zlen outs + Z.of_nat n ->
      past d table (outs ++ vs) m =
      taus_op (past d table (outs ++ vs) (m - taus_first))
              (past d table (outs ++ vs) (m - taus_second)).
Proof.
  induction n as [|n IH]; intros outs g I.
  - exists [], g. rewrite app_nil_r. cbn [draws length]. repeat split; auto; try apply I. lia.
  - destruct (taus_step table outs g I) as (v & g1 & E & I1 & Ev).
    destruct (IH (outs ++ [v]) g1 I1) as (vs & g2 & E2 & L & I2 & R).
    exists (v :: vs), g2. cbn [draws]. rewrite E; cbn [bind]. rewrite E2; cbn [bind].
    split; [reflexivity|]. split; [simpl; congruence|].
    rewrite <- app_assoc in I2, R. cbn [app] in I2, R. split; auto.
    intros m Hm. rewrite zlen_app, zlen_cons, zlen_nil in R.
    destruct (Z.eq_dec m (zlen outs)) as [->|N]; [|apply R; lia].
    assert (AP : forall k, k < zlen outs -> past d table (outs ++ v :: vs) k = past d table outs k).
    { intros k Hk. unfold past. destruct (Z.ltb_spec k 0); auto. apply app_nth1. unfold zlen in Hk. lia. }
    rewrite (AP (zlen outs - taus_first)), (AP (zlen outs - taus_second)) by (unfold taus_first, taus_second; lia).
    rewrite <- Ev.
    unfold past. pose proof (zlen_nonneg outs). destruct (Z.ltb_spec (zlen outs) 0); [lia|].
    unfold zlen. rewrite Nat2Z.id. rewrite app_nth2 by lia. now rewrite Nat.sub_diag.
Qed.

(** Values stay in any set closed under the update. *)
Lemma past_closed (P : F -> Prop) table outs n :
  zlen table = taus_len -> Forall P table ->
  (forall a b, P a -> P b -> P (taus_op a b)) ->
  (forall m, 0 <= m < n -> past d table outs m =
      taus_op (past d table outs (m - taus_first)) (past d table outs (m - taus_second))) ->
  forall m, - taus_len < m < n -> P (past d table outs m).
Proof.
  intros L FP C R. 
  assert (forall k, 0 <= k -> forall m, - taus_len < m < n -> m < k -> P (past d table outs m)) as H.
  { intros k Hk. pattern k. apply natlike_ind; auto.
    - intros m H1 H2. unfold past. destruct (Z.ltb_spec m 0); [|lia].
      rewrite Forall_forall in FP. apply FP. apply nth_In. unfold zlen in L. lia.
    - intros k' K IH m H1 H2. destruct (Z.ltb_spec m 0); [apply IH; lia|].
      rewrite R by lia. apply C; apply IH; unfold taus_first, taus_second, taus_len in *; lia. }
  intros m Hm. destruct (Z.ltb_spec m 0).
  - apply (H 0); lia.
  - apply (H (m + 1)); lia.
Qed.

(** ** NextSequence is repeated Next *)
Lemma taus_batch_from : forall rest dn g,
  for_n (length rest) (zlen dn)
    (fun i (st : list F * taus F) =>
       let '(tg, g) := st in
       a <- get (tseq g) (follow1 g) ;;
       b <- get (tseq g) (follow2 g) ;;
       let x := nsub a b in
       let next := if nltb x (nofZ 0) then nadd x (nofZ 1) else x in
       seq' <- set (tseq g) (leader g) next ;;
       let n := zlen seq' in
       tg' <- set tg i next ;;
       Ok (tg', Taus seq' (wrap_dec n (leader g)) (wrap_dec n (follow1 g))
                     (wrap_dec n (follow2 g)))) (dn ++ rest, g)
  = bind (draws taus_next (length rest) g) (fun '(vs, g') => Ok (dn ++ vs, g')).
Proof.
  induction rest as [|x rest IH]; intros dn g; cbn [for_n length draws].
  - reflexivity.
  - unfold taus_next at 1.
    destruct (get (tseq g) (follow1 g)) as [a| | |]; cbn [bind]; auto.
    destruct (get (tseq g) (follow2 g)) as [b| | |]; cbn [bind]; auto.
    cbv zeta. fold (taus_op a b).
    destruct (set (tseq g) (leader g) (taus_op a b)) as [s'| | |]; cbn [bind]; auto.
    rewrite set_ok.
    2:{ rewrite zlen_app, zlen_cons. pose proof (zlen_nonneg dn). pose proof (zlen_nonneg rest). lia. }
    cbn [bind].
    assert (U : upd (dn ++ x :: rest) (Z.to_nat (zlen dn)) (taus_op a b) = (dn ++ [taus_op a b]) ++ rest).
    { unfold zlen. rewrite Nat2Z.id. clear. induction dn; simpl; auto. now rewrite IHdn. }
    rewrite U.
    replace (zlen dn + 1) with (zlen (dn ++ [taus_op a b]))
      by (rewrite zlen_app, zlen_cons, zlen_nil; lia).
    rewrite IH.
    match goal with |- bind (draws _ _ ?g1) _ = _ =>
      destruct (draws taus_next (length rest) g1) as [[vs g2]| | |]; cbn [bind]; auto end.
    now rewrite <- app_assoc.
Qed.

Lemma taus_batch g target :
  taus_next_sequence g target = draws taus_next (length target) g.
Proof.
  unfold taus_next_sequence, for_. rewrite Z.sub_0_r. unfold zlen at 1. rewrite Nat2Z.id.
  etransitivity; [apply (taus_batch_from target [] g)|].
  destruct (draws taus_next (length target) g) as [[vs g2]| | |]; reflexivity.
Qed.
End Gen.

(** ** Exact arithmetic *)
Lemma taus_op_R (a b : R) : (0 <= a < 1)%R -> (0 <= b < 1)%R -> diff_mod1 (taus_op a b) a b.
Proof.
  intros A B. unfold taus_op, diff_mod1; cbn. destruct (Rlt_bool_spec (a - b) 0); split; try lra.
  - exists 1. lra.
  - exists 0. lra.
Qed.

Lemma taus_R (table : list R) n :
  zlen table = taus_len -> Forall (fun x => 0 <= x < 1)%R table ->
  exists outs g, draws taus_next n (taus_init table) = Ok (outs, g) /\ length outs = n /\
    Forall (fun x => 0 <= x < 1)%R outs /\
    forall m, 0 <= m < Z.of_nat n ->
      diff_mod1 (past 0%R table outs m) (past 0%R table outs (m - 2444)) (past 0%R table outs (m - 4187)).
Proof.
  intros L FP. destruct (taus_draws 0%R table n [] _ (tinv_init 0%R table L)) as (vs & g & E & Lv & I & R).
  cbn [app] in *. rewrite zlen_nil in R. 
  exists vs, g. split; auto. split; auto.
  assert (C : forall m, - taus_len < m < Z.of_nat n -> (0 <= past 0%R table vs m < 1)%R).
  { apply (past_closed 0%R (fun x => 0 <= x < 1)%R); [exact L|exact FP| |].
    - intros a b A B. apply (taus_op_R a b A B).
    - intros m Hm. apply R. lia. }
  split.
  - apply Forall_forall. intros x Hx. apply (In_zn 0%R) in Hx. destruct Hx as (i & Hi & <-).
    specialize (C i). unfold zlen in Hi. rewrite Lv in Hi.
    unfold past in C. destruct (Z.ltb_spec i 0); [lia|]. apply C. unfold taus_len. lia.
  - intros m Hm. rewrite R by lia. apply taus_op_R; apply C; unfold taus_len, taus_first, taus_second; lia.
Qed.

(** ** IEEE doubles *)
Definition closed01 (v : f64) : Prop := is_finite v = true /\ (0 <= B2R v <= 1)%R.

Lemma taus_op_f64 (a b : f64) : closed01 a -> closed01 b -> closed01 (taus_op a b).
Proof.
  intros [Fa Ra] [Fb Rb]. unfold taus_op. cbv zeta.
  assert (T53 : (IZR (2 ^ 53) = 9007199254740992)%R) by (simpl; reflexivity).
  assert (D : den (nsub a b) (rnd64 (B2R a - B2R b))).
  { apply den_sub; try (split; auto; fail). rewrite T53. apply Rabs_le; lra. }
  assert (Q : (-1 <= rnd64 (B2R a - B2R b) <= 1)%R).
  { split.
    - apply rnd64_ge_fmt; [apply (fmt64_int (-1)); lia|lra].
    - apply rnd64_le_fmt; [apply (fmt64_int 1); lia|lra]. }
  rewrite (den_ltb _ _ _ _ D (den_int 0 ltac:(lia))).
  destruct (Rlt_bool_spec (rnd64 (B2R a - B2R b)) 0) as [H|H].
  - assert (D2 : den (nadd (nsub a b) (nofZ 1)) (rnd64 (rnd64 (B2R a - B2R b) + 1))).
    { apply den_add; auto. apply (den_int 1); lia. rewrite T53. apply Rabs_le; lra. }
    destruct D2 as [F2 R2]. split; auto. rewrite R2. split.
    + apply rnd64_ge_fmt; [apply (fmt64_int 0); lia|lra].
    + apply rnd64_le_fmt; [apply (fmt64_int 1); lia|lra].
  - destruct D as [F2 R2]. split; auto. rewrite R2. lra.
Qed.

Lemma taus_f64 (table : list f64) n :
  zlen table = taus_len -> Forall closed01 table ->
  exists outs g, draws taus_next n (taus_init table) = Ok (outs, g) /\ length outs = n /\
    Forall closed01 outs.
Proof.
  intros L FP. set (d := nofZ 0 : f64).
  destruct (taus_draws d table n [] _ (tinv_init d table L)) as (vs & g & E & Lv & I & R).
  cbn [app] in *. rewrite zlen_nil in R.
  exists vs, g. split; auto. split; auto.
  apply Forall_forall. intros x Hx. apply (In_zn d) in Hx. destruct Hx as (i & Hi & <-).
  assert (closed01 (past d table vs i)) as C.
  { apply (past_closed d closed01 table vs (Z.of_nat n)); [exact L|exact FP| | |].
    - apply taus_op_f64.
    - intros m Hm. apply R. lia.
    - unfold zlen in Hi. rewrite Lv in Hi. unfold taus_len. lia. }
  unfold past in C. destruct (Z.ltb_spec i 0); [lia|]. exact C.
Qed.

(** Counterexample: 0 - 2^-60 + 1 rounds to 1. *)
Definition bad_table : list f64 :=
  upd (repeat (nofZ 0) (Z.to_nat 9689)) (Z.to_nat 4187) (f64lit 1 (-60)).

Definition unit64 (v : f64) : Prop := is_finite v = true /\ (0 <= B2R v < 1)%R.

Lemma In_upd_repeat {A} (a b x : A) n k : In x (upd (repeat a n) k b) -> x = a \/ x = b.
Proof.
  revert k; induction n; intros [|k]; simpl; try tauto.
  - intros [H|H]; auto. apply repeat_spec in H. auto.
  - intros [H|H]; auto. eauto.
Qed.

Lemma bad_table_ok : Forall unit64 bad_table.
Proof.
  apply Forall_forall. intros x Hx.
  assert (U0 : unit64 (nofZ 0)).
  { destruct (den_int 0 ltac:(lia)) as [A B]. split; auto. rewrite B. lra. }
  assert (U1 : unit64 (f64lit 1 (-60))).
  { assert (S : (Rabs (IZR 1 * bpow radix2 (-60)) <= IZR (2 ^ 53))%R).
    { rewrite Rmult_1_l. rewrite Rabs_pos_eq by apply bpow_ge_0.
      apply (bpow_le radix2 (-60) 53). lia. }
    destruct (den_lit 1 (-60) S) as [A B].
    split; auto. rewrite B. rewrite Rmult_1_l, rnd64_id.
      + split; [apply bpow_ge_0|]. apply (bpow_lt radix2 (-60) 0). lia.
      + rewrite <- (Rmult_1_l (bpow radix2 (-60))). apply (fmt64_mk 1); lia. }
  destruct (In_upd_repeat _ _ _ _ _ Hx) as [-> | ->]; assumption.
Qed.

Lemma bad_table_len : zlen bad_table = taus_len.
Proof. unfold bad_table. rewrite zlen_upd, zlen_repeat. reflexivity. Qed.

Lemma taus_one : exists (table : list f64) v g,
  zlen table = taus_len /\ Forall unit64 table /\
  taus_next (taus_init table) = Ok (v, g) /\ is_finite v = true /\ B2R v = 1%R.
Proof.
  destruct (taus_next (taus_init bad_table)) as [[v g]| | |] eqn:E.
  2,3,4: exfalso; pose proof (taus_step (nofZ 0) bad_table [] _ (tinv_init _ _ bad_table_len))
         as (v & g & E2 & _); rewrite E in E2; discriminate.
  exists bad_table, v, g. split; [apply bad_table_len|]. split; [apply bad_table_ok|].
  split; auto.
  assert (V : match taus_next (taus_init bad_table) with Ok (v, _) => B2SF v | _ => B2SF (B754_nan : f64) end
              = B2SF (nofZ 1 : f64)) by (vm_compute; reflexivity).
  rewrite E in V. apply B2SF_inj in V. subst v. apply (den_int 1). lia.
Qed.
