(** The generators of math/rand behind their common interface. *)
From Coq Require Import ZArith Reals List Lia Lra Bool.
From Coq Require Import ZifyBool ZifyNat.
From Flocq Require Import Core BinarySingleNaN Relative.
From Verif Require Import Base.Res Base.ResFacts Base.Num Base.Bytes Base.IEEE Base.IEEER Base.Convert Model.Rand Model.Geom Model.RandGen
  Spec.Streams Spec.Geometry Spec.GeomDefs Spec.Generators Spec.Work Proof.XorshiftP Proof.TausP Proof.GeomR Proof.WorkP.
Import ListNotations.
Open Scope Z_scope.
Open Scope res_scope.

(** ** Draws *)
Lemma draws_map {S A B} (next : S -> res (A * S)) (f : A -> B) : forall n s,
  draws (fun s => '(a, s) <- next s ;; Ok (f a, s)) n s = ('(l, s) <- draws next n s ;; Ok (map f l, s)).
Proof.
  induction n as [|n IH]; intros s; cbn [draws]; [reflexivity|].
  destruct (next s) as [[a s1]| | |]; cbn [bind]; try reflexivity. rewrite IH.
  destruct (draws next n s1) as [[l s2]| | |]; reflexivity.
Qed.

Lemma draws_embed {S T A} (next : S -> res (A * S)) (next' : T -> res (A * T)) (e : S -> T) :
  (forall s, next' (e s) = ('(a, s) <- next s ;; Ok (a, e s))) ->
  forall n s, draws next' n (e s) = ('(l, s) <- draws next n s ;; Ok (l, e s)).
Proof.
  intros H. induction n as [|n IH]; intros s; cbn [draws]; [reflexivity|]. rewrite H.
  destruct (next s) as [[a s1]| | |]; cbn [bind]; try reflexivity. rewrite IH.
  destruct (draws next n s1) as [[l s2]| | |]; reflexivity.
Qed.

(** What New makes: a state of its own kind. *)
Definition gen_ok (b : backend) : Prop :=
  match b with BXor s => xor_ok s /\ ~ xor_zero s | _ => True end.

Lemma go_sequence (src : Z -> f64) : forall rest dn pos,
  for_ (zlen dn) (zlen (dn ++ rest)) (fun i '(t, pos) => t <- set t i (src pos) ;; Ok (t, pos + 1)) (dn ++ rest, pos) =
  Ok (dn ++ map (fun k => src (pos + Z.of_nat k)) (seq 0 (length rest)), pos + zlen rest).
Proof.
  induction rest as [|r rest IH]; intros dn pos.
  - rewrite for_empty by (rewrite app_nil_r; lia). cbn. rewrite Z.add_0_r. reflexivity.
  - rewrite for_step by (rewrite zlen_app, zlen_cons; pose proof (zlen_nonneg rest); lia). cbn [bind].
    rewrite set_ok by (rewrite zlen_app, zlen_cons; pose proof (zlen_nonneg rest); pose proof (zlen_nonneg dn); lia). cbn [bind].
    assert (U : upd (dn ++ r :: rest) (Z.to_nat (zlen dn)) (src pos) = (dn ++ [src pos]) ++ rest).
    { clear. unfold zlen. rewrite Nat2Z.id. induction dn as [|d dn IH]; cbn; [reflexivity|]. f_equal. exact IH. }
    rewrite U.
    replace (zlen dn + 1) with (zlen (dn ++ [src pos])) by (rewrite zlen_app; reflexivity).
    replace (zlen (dn ++ r :: rest)) with (zlen ((dn ++ [src pos]) ++ rest)) by (rewrite <- app_assoc; rewrite !zlen_app, !zlen_cons; reflexivity).
    rewrite IH. f_equal. f_equal.
    + rewrite <- app_assoc. cbn [app length seq map]. rewrite Z.add_0_r. f_equal. f_equal. rewrite <- seq_shift, map_map.
      apply map_ext. intros k. f_equal. lia.
    + rewrite zlen_cons. lia.
Qed.

Lemma go_draws (src : Z -> f64) : forall n pos,
  draws gen_next n (BGo src pos) = Ok (map (fun k => src (pos + Z.of_nat k)) (seq 0 n), BGo src (pos + Z.of_nat n)).
Proof.
  induction n as [|n IH]; intros pos; cbn [draws].
  - cbn. rewrite Z.add_0_r. reflexivity.
  - cbn [gen_next bind]. rewrite IH. cbn [bind seq map]. rewrite Z.add_0_r. f_equal. f_equal; [|f_equal; lia].
    f_equal. rewrite <- seq_shift, map_map. apply map_ext. intros k. f_equal. lia.
Qed.

Lemma gen_sequence b target : gen_ok b ->
  exists fuel0, forall fuel, (fuel0 <= fuel)%nat -> gen_next_sequence fuel b target = draws gen_next (length target) b.
Proof.
  destruct b as [s|src pos|g]; intros OK.
  - destruct OK as [A B]. destruct (xor_batch_full s target A B) as (vs & s' & E & f0 & H). exists f0. intros fuel L.
    unfold gen_next_sequence. rewrite (H fuel L). rewrite (draws_embed xor_next gen_next BXor (fun s => eq_refl)), E. reflexivity.
  - exists O. intros fuel _. rewrite go_draws. unfold gen_next_sequence.
    pose proof (go_sequence src target [] pos) as Q. cbn [app] in Q. change (zlen (@nil f64)) with 0 in Q. rewrite Q. reflexivity.
  - exists O. intros fuel _. unfold gen_next_sequence. rewrite taus_batch.
    rewrite (draws_embed taus_next gen_next BTaus (fun s => eq_refl)). reflexivity.
Qed.

Lemma map_loop {A} (f : A -> A) : forall rest dn,
  for_ (zlen dn) (zlen (dn ++ rest)) (fun i t => v <- get t i ;; set t i (f v)) (dn ++ rest) = Ok (dn ++ map f rest).
Proof.
  induction rest as [|r rest IH]; intros dn.
  - rewrite for_empty by (rewrite app_nil_r; lia). reflexivity.
  - rewrite for_step by (rewrite zlen_app, zlen_cons; pose proof (zlen_nonneg rest); lia).
    assert (H : 0 <= zlen dn < zlen (dn ++ r :: rest)) by (rewrite zlen_app, zlen_cons; pose proof (zlen_nonneg rest); pose proof (zlen_nonneg dn); lia).
    rewrite (get_ok r) by exact H. cbn [bind]. rewrite set_ok by exact H. cbn [bind].
    assert (G : zn r (dn ++ r :: rest) (zlen dn) = r) by (unfold zn, zlen; rewrite Nat2Z.id, app_nth2, Nat.sub_diag; [reflexivity|lia]).
    rewrite G.
    assert (U : upd (dn ++ r :: rest) (Z.to_nat (zlen dn)) (f r) = (dn ++ [f r]) ++ rest).
    { clear. unfold zlen. rewrite Nat2Z.id. induction dn as [|d dn IH]; cbn; [reflexivity|]. f_equal. exact IH. }
    rewrite U.
    replace (zlen dn + 1) with (zlen (dn ++ [f r])) by (rewrite zlen_app; reflexivity).
    replace (zlen (dn ++ r :: rest)) with (zlen ((dn ++ [f r]) ++ rest)) by (rewrite <- app_assoc; rewrite !zlen_app, !zlen_cons; reflexivity).
    rewrite IH, <- app_assoc. reflexivity.
Qed.

(** Filling a slice is drawing its elements one by one. *)
Theorem uniform_at_draws b low high target : gen_ok b ->
  exists fuel0, forall fuel, (fuel0 <= fuel)%nat ->
    gen_uniform_at fuel b low high target = draws (fun b => gen_uniform b low high) (length target) b.
Proof.
  intros OK. destruct (gen_sequence b target OK) as (f0 & H). exists f0. intros fuel L. unfold gen_uniform_at. rewrite (H fuel L).
  unfold gen_uniform. rewrite (draws_map gen_next (scale low high)).
  destruct (draws gen_next (length target) b) as [[vs b']| | |]; cbn [bind]; try reflexivity.
  unfold scale. destruct (neqb low (nofZ 0) && neqb high (nofZ 1)).
  - now rewrite map_id.
  - pose proof (map_loop (fun v => nadd (nmul v (nsub high low)) low) vs []) as Q. cbn [app] in Q. change (zlen (@nil f64)) with 0 in Q.
    rewrite Q. reflexivity.
Qed.

(** ** Seeding of Tausworthe *)
Lemma den_leb x y a b : den x a -> den y b -> nleb x y = Rle_bool a b.
Proof. intros [Fx <-] [Fy <-]. now apply Bleb_correct. Qed.

Definition below (c : R) (v : f64) : Prop := is_finite v = true /\ (0 <= B2R v <= c)%R.

Lemma T53 : (IZR (2 ^ 53) = 9007199254740992)%R. Proof. simpl. reflexivity. Qed.

Lemma scale_den (f v : f64) (r : R) : den f r -> fmt64 r -> (0 < r <= 1)%R -> unit64 v -> below r (scale (nofZ 0) f v).
Proof.
  intros Df Ff Hr [Fv Rv]. pose proof T53 as T. unfold scale.
  assert (D0 : den (nofZ 0) 0%R) by (apply (den_int 0); lia). assert (D1 : den (nofZ 1) 1%R) by (apply (den_int 1); lia).
  assert (Dv : den v (B2R v)) by (split; auto).
  rewrite (den_eqb _ _ _ _ D0 D0), (den_eqb _ _ _ _ Df D1). rewrite (Req_bool_true 0 0) by reflexivity. cbn [andb].
  destruct (Req_bool_spec r 1) as [->|N].
  - split; [exact Fv|lra].
  - assert (DS : den (nsub f (nofZ 0)) (rnd64 (r - 0))) by (apply den_sub; auto; rewrite Rminus_0_r, Rabs_pos_eq; lra).
    rewrite Rminus_0_r, rnd64_id in DS by exact Ff.
    assert (P : (0 <= B2R v * r <= r)%R) by (split; nra).
    assert (DM : den (nmul v (nsub f (nofZ 0))) (rnd64 (B2R v * r))) by (apply den_mul; auto; rewrite Rabs_pos_eq; lra).
    assert (Q : (0 <= rnd64 (B2R v * r) <= r)%R).
    { split; [apply rnd64_ge_fmt; [apply (fmt64_int 0); lia|lra]|apply rnd64_le_fmt; [exact Ff|lra]]. }
    assert (DA : den (nadd (nmul v (nsub f (nofZ 0))) (nofZ 0)) (rnd64 (rnd64 (B2R v * r) + 0))) by (apply den_add; auto; rewrite Rplus_0_r, Rabs_pos_eq; lra).
    rewrite Rplus_0_r, (rnd64_id (rnd64 (B2R v * r))) in DA by apply (den_fmt _ _ DM).
    destruct DA as [A B]. split; [exact A|]. rewrite B. exact Q.
Qed.

Lemma below_add c r x t : fmt64 (c + r) -> (0 <= c)%R -> (0 <= r)%R -> (c + r <= 2)%R -> below c x -> below r t -> below (c + r) (nadd x t).
Proof.
  intros F C R S [Fx Rx] [Ft Rt]. pose proof T53 as T.
  assert (D : den (nadd x t) (rnd64 (B2R x + B2R t))) by (apply den_add; try (split; auto; fail); rewrite Rabs_pos_eq; lra).
  destruct D as [A B]. split; [exact A|]. rewrite B. split.
  - apply rnd64_ge_fmt; [apply (fmt64_int 0); lia|lra].
  - apply rnd64_le_fmt; [exact F|lra].
Qed.

Lemma digits_ok (src : Z -> f64) : (forall k, unit64 (src k)) -> forall n k pos f seq, (k + n <= 50)%nat ->
  den f (bpow radix2 (- Z.of_nat k)) -> Forall (below (2 - 2 * bpow radix2 (- Z.of_nat k))) seq ->
  exists seq' pos', taus_digits src n pos f seq = Ok (seq', pos') /\ zlen seq' = zlen seq /\
    Forall (below (2 - 2 * bpow radix2 (- Z.of_nat (k + n)))) seq'.
Proof.
  intros HS. induction n as [|n IH]; intros k pos f seq Hk Df FS.
  - rewrite Nat.add_0_r. exists seq, pos. auto.
  - cbn [taus_digits]. set (r := bpow radix2 (- Z.of_nat k)) in *. pose proof T53 as T.
    assert (R0 : (0 < r <= 1)%R).
    { split; [apply bpow_gt_0|]. change 1%R with (bpow radix2 0). apply bpow_le. lia. }
    assert (R1 : bpow radix2 (- Z.of_nat (S k)) = (r / 2)%R).
    { unfold r. replace (- Z.of_nat (S k)) with (- Z.of_nat k - 1) by lia. unfold Zminus. rewrite bpow_plus. change (bpow radix2 (-1)) with (/ 2)%R. reflexivity. }
    assert (FR : fmt64 r) by (unfold r; rewrite <- (Rmult_1_l (bpow _ _)); apply (fmt64_mk 1); lia).
    assert (FB : fmt64 (2 - 2 * r + r)).
    { replace (2 - 2 * r + r)%R with (IZR (2 ^ (Z.of_nat k + 1) - 1) * r)%R.
      - apply fmt64_mk; [|lia]. assert (0 < 2 ^ (Z.of_nat k + 1) <= 2 ^ 51) by (split; [apply Z.pow_pos_nonneg; lia|apply Z.pow_le_mono_r; lia]). lia.
      - rewrite minus_IZR. rewrite (IZR_Zpower radix2) by lia. rewrite bpow_plus. unfold r. rewrite Rmult_minus_distr_r.
        replace (bpow radix2 (Z.of_nat k) * bpow radix2 1 * bpow radix2 (- Z.of_nat k))%R with
          (bpow radix2 1 * (bpow radix2 (Z.of_nat k) * bpow radix2 (- Z.of_nat k)))%R by ring.
        rewrite <- bpow_plus, Z.add_opp_diag_r. simpl. lra. }
    assert (W : wp (for_ 0 (zlen seq) (fun i '(seq, pos) =>
        v <- get seq i ;; seq <- set seq i (nadd v (scale (nofZ 0) f (src pos))) ;; Ok (seq, pos + 1)) (seq, pos))
      (fun st => zlen (fst st) = zlen seq /\ Forall (below (2 - 2 * (r / 2))) (fst st))).
    { set (d := nofZ 0 : f64).
      assert (W' : wp (for_ 0 (zlen seq) (fun i '(seq, pos) =>
        v <- get seq i ;; seq <- set seq i (nadd v (scale (nofZ 0) f (src pos))) ;; Ok (seq, pos + 1)) (seq, pos))
        (fun st => zlen (fst st) = zlen seq /\ forall j, 0 <= j < zlen seq ->
           below (if j <? zlen seq then 2 - 2 * r + r else 2 - 2 * r) (zn d (fst st) j))).
      { apply (for_inv (fun t st => zlen (fst st) = zlen seq /\ forall j, 0 <= j < zlen seq ->
           below (if j <? t then 2 - 2 * r + r else 2 - 2 * r) (zn d (fst st) j))).
        - apply zlen_nonneg.
        - split; [reflexivity|]. intros j Hj. replace (j <? 0) with false by lia. cbn [fst]. rewrite Forall_forall in FS. apply FS, zn_In. exact Hj.
        - intros i [sq ps] Hi [L B]. cbn [fst] in *. rewrite (get_ok d) by lia. cbn [bind]. rewrite set_ok by lia. cbn [bind wp fst].
          rewrite zlen_upd. split; [exact L|]. intros j Hj. rewrite zn_upd by lia. specialize (B j Hj). destruct (Z.eqb_spec j i) as [->|N].
          + replace (i <? i + 1) with true by lia. replace (i <? i) with false in B by lia.
            apply below_add; auto; try lra. apply scale_den; auto.
          + replace (j <? i + 1) with (j <? i) by lia. exact B. }
      apply (proj1 (wp_ok _ _)) in W'. destruct W' as (st & E & L & B). apply wp_ok. exists st. split; [exact E|]. split; [exact L|].
      apply Forall_forall. intros x Hx. apply (In_zn d) in Hx. destruct Hx as (j & Hj & <-). rewrite L in Hj. specialize (B j Hj).
      replace (j <? zlen seq) with true in B by lia. replace (2 - 2 * (r / 2))%R with (2 - 2 * r + r)%R by lra. exact B. }
    apply (proj1 (wp_ok _ _)) in W. destruct W as ([sq ps] & E & L & B). cbn [fst] in *. rewrite E. cbn [bind].
    assert (D2 : den (ndiv f (nofZ 2)) (bpow radix2 (- Z.of_nat (S k)))).
    { rewrite R1. assert (Q : den (ndiv f (nofZ 2)) (rnd64 (r / 2))).
      { apply (den_div f (nofZ 2) r 2%R); [exact Df|apply (den_int 2); lia|lra|rewrite Rabs_pos_eq; lra]. }
      rewrite rnd64_id in Q; [exact Q|]. rewrite <- R1, <- (Rmult_1_l (bpow _ _)). apply (fmt64_mk 1); lia. }
    destruct (IH (S k) ps (ndiv f (nofZ 2)) sq) as (sq' & ps' & E' & L' & B'); [lia|exact D2|rewrite R1; exact B|].
    exists sq', ps'. split; [exact E'|]. split; [lia|]. replace (k + S n)%nat with (S k + n)%nat by lia. exact B'.
Qed.

Theorem seed_ok (go : Z -> Z -> f64) seed : (forall s k, unit64 (go s k)) ->
  exists table, taus_seed go seed = Ok (taus_init table) /\ zlen table = taus_len /\ Forall unit64 table.
Proof.
  intros H. unfold taus_seed.
  destruct (digits_ok (go (signed 64 seed)) (H _) 15 0 0 (nofZ 1) (repeat (nofZ 0) (Z.to_nat taus_len))) as (sq & ps & E & L & B).
  - lia.
  - simpl bpow. apply (den_int 1). lia.
  - apply Forall_forall. intros x Hx. apply repeat_spec in Hx. subst x. destruct (den_int 0 ltac:(lia)) as [A B]. split; [exact A|]. rewrite B. simpl bpow. lra.
  - rewrite E. cbn [bind]. eexists. split; [reflexivity|]. split.
    + rewrite zlen_map, L. apply zlen_repeat.
    + apply Forall_forall. intros x Hx. apply in_map_iff in Hx. destruct Hx as (v & <- & Hv). rewrite Forall_forall in B. specialize (B v Hv).
      destruct B as [Fv Rv]. replace (bpow radix2 (- Z.of_nat (0 + 15))) with (/ 32768)%R in Rv by (simpl; reflexivity).
      assert (Dv : den v (B2R v)) by (split; auto). pose proof T53 as T.
      rewrite (den_leb _ _ _ _ (den_int 1 ltac:(lia)) Dv). destruct (Rle_bool_spec 1 (B2R v)) as [C|C].
      * assert (D : den (nsub v (nofZ 1)) (rnd64 (B2R v - 1))) by (apply den_sub; auto; [apply (den_int 1); lia|rewrite Rabs_pos_eq; lra]).
        destruct D as [A B]. split; [exact A|]. rewrite B. split.
        -- apply rnd64_ge_fmt; [apply (fmt64_int 0); lia|lra].
        -- apply Rle_lt_trans with (IZR (2 ^ 14 - 1) * bpow radix2 (-14))%R.
           ++ apply rnd64_le_fmt; [apply fmt64_mk; lia|]. simpl. lra.
           ++ simpl. lra.
      * split; [exact Fv|lra].
Qed.

(** ** The unit buffers *)
Lemma to32 x : closed01 x -> is_finite (to_f32 x) = true /\ (0 <= B2R (to_f32 x) <= 1)%R.
Proof.
  intros [Fx Rx]. destruct x as [s|s| |s m e H]; try discriminate.
  - cbn. split; [reflexivity|lra].
  - unfold to_f32.
    pose proof (binary_normalize_correct 24 128 _ _ mode_NE (if s then Z.neg m else Z.pos m) e s) as C. cbv zeta in C.
    set (z := F2R {| Fnum := if s then Z.neg m else Z.pos m; Fexp := e |}) in C.
    assert (EZ : B2R (B754_finite s m e H : f64) = z) by (unfold z; cbn; unfold cond_Zopp; destruct s; reflexivity).
    rewrite EZ in Rx.
    assert (F0 : generic_format radix2 (SpecFloat.fexp 24 128) 0%R) by apply generic_format_0.
    assert (F1 : generic_format radix2 (SpecFloat.fexp 24 128) 1%R).
    { change 1%R with (bpow radix2 0). apply generic_format_bpow. vm_compute. discriminate. }
    assert (V : Valid_exp (SpecFloat.fexp 24 128)) by (apply (fexp_correct 24 128); reflexivity).
    assert (Q : (0 <= round radix2 (SpecFloat.fexp 24 128) (round_mode mode_NE) z <= 1)%R).
    { split.
      - rewrite <- (round_generic radix2 (SpecFloat.fexp 24 128) (round_mode mode_NE) 0%R F0). apply round_le; [exact V|apply valid_rnd_round_mode|lra].
      - rewrite <- (round_generic radix2 (SpecFloat.fexp 24 128) (round_mode mode_NE) 1%R F1). apply round_le; [exact V|apply valid_rnd_round_mode|lra]. }
    rewrite Rlt_bool_true in C.
    + destruct C as (A & B & _). split; [exact B|]. rewrite A. exact Q.
    + rewrite Rabs_pos_eq by lra. apply Rle_lt_trans with 1%R; [lra|]. change 1%R with (bpow radix2 0). apply bpow_lt. lia.
Qed.

(** A generator that gives numbers of the closed unit interval for ever. *)
Definition endless (b : backend) : Prop := forall n, exists vs b', draws gen_next n b = Ok (vs, b') /\ Forall closed01 vs.

Lemma endless_next b : endless b -> exists v b', gen_next b = Ok (v, b') /\ closed01 v /\ endless b'.
Proof.
  intros H. destruct (H 1%nat) as (vs & b1 & E & F). cbn [draws] in E. destruct (gen_next b) as [[v b']| | |] eqn:N; try discriminate E.
  cbn [bind] in E. injection E as <- <-. exists v, b'. split; [reflexivity|]. split; [now inversion F|].
  intros n. destruct (H (S n)) as (ws & b2 & E2 & F2). cbn [draws] in E2. rewrite N in E2. cbn [bind] in E2.
  destruct (draws gen_next n b') as [[l b3]| | |]; try discriminate E2. injection E2 as <- <-. exists l, b3. split; [reflexivity|now inversion F2].
Qed.

Lemma uniform01 b : gen_uniform b (nofZ 0) (nofZ 1) = gen_next b.
Proof.
  unfold gen_uniform, scale. assert (A : (neqb (nofZ 0 : f64) (nofZ 0) && neqb (nofZ 1 : f64) (nofZ 1)) = true) by (vm_compute; reflexivity).
  rewrite A. destruct (gen_next b) as [[v b']| | |]; reflexivity.
Qed.

Lemma vec_ok b : endless b -> exists p b', draw_vec b = Ok (p, b') /\ cube32 p /\ endless b'.
Proof.
  intros H. destruct (endless_next b H) as (x & b1 & E1 & C1 & H1). destruct (endless_next b1 H1) as (y & b2 & E2 & C2 & H2).
  destruct (endless_next b2 H2) as (z & b3 & E3 & C3 & H3).
  exists (V3 (to_f32 x) (to_f32 y) (to_f32 z)), b3. split.
  - unfold draw_vec. rewrite !uniform01, E1. cbn [bind]. rewrite uniform01, E2. cbn [bind]. rewrite uniform01, E3. reflexivity.
  - split; [|exact H3]. apply to32 in C1. apply to32 in C2. apply to32 in C3. unfold cube32, unit_cube. cbn [v0 v1 v2]. tauto.
Qed.
Lemma vecs_ok : forall n b, endless b -> exists ps b', draw_vecs n b = Ok (ps, b') /\ length ps = n /\ Forall cube32 ps /\ endless b'.
Proof.
  induction n as [|n IH]; intros b H; cbn [draw_vecs].
  - exists [], b. auto.
  - destruct (vec_ok b H) as (p & b1 & E1 & C1 & H1). destruct (IH b1 H1) as (ps & b2 & E2 & L2 & C2 & H2).
    exists (p :: ps), b2. rewrite E1. cbn [bind]. rewrite E2. cbn [bind length]. auto.
Qed.
Lemma bufs_ok pts : forall n b, endless b ->
  exists bs b', draw_bufs n pts b = Ok (bs, b') /\ length bs = n /\ Forall (fun ps => length ps = pts /\ Forall cube32 ps) bs.
Proof.
  induction n as [|n IH]; intros b H; cbn [draw_bufs].
  - exists [], b. auto.
  - destruct (vecs_ok pts b H) as (p & b1 & E1 & L1 & C1 & H1). destruct (IH b1 H1) as (ps & b2 & E2 & L2 & C2).
    exists (p :: ps), b2. rewrite E1. cbn [bind]. rewrite E2. cbn [bind length]. auto.
Qed.

Lemma seed_endless (go : Z -> Z -> f64) seed : (forall s k, unit64 (go s k)) -> exists g, taus_seed go seed = Ok g /\ endless (BTaus g).
Proof.
  intros H. destruct (seed_ok go seed H) as (table & E & L & F). exists (taus_init table). split; [exact E|].
  intros n. destruct (taus_f64 table n L) as (outs & g & D & _ & C).
  - eapply Forall_impl; [|exact F]. intros a [A B]. split; [exact A|lra].
  - exists outs, (BTaus g). split; [|exact C]. rewrite (draws_embed taus_next gen_next BTaus (fun s => eq_refl)), D. reflexivity.
Qed.

Theorem unit_bufs_ok (go : Z -> Z -> f64) seed nUnit pts : (forall s k, unit64 (go s k)) -> 0 <= nUnit -> 0 <= pts ->
  exists raw, unit_bufs64 go seed nUnit pts = Ok (map distribute_unit raw) /\ zlen raw = nUnit /\
    Forall (fun ps => zlen ps = pts /\ Forall cube32 ps) raw.
Proof.
  intros H N P. destruct (seed_endless go seed H) as (g & E & G).
  destruct (bufs_ok (Z.to_nat pts) (Z.to_nat nUnit) (BTaus g) G) as (bs & b' & EB & L & F).
  exists bs. split; [|split].
  - unfold unit_bufs64, gen_new. cbn [Z.eqb Pos.eqb]. rewrite E. cbn [bind]. rewrite EB. reflexivity.
  - unfold zlen. lia.
  - eapply Forall_impl; [|exact F]. intros a [A B]. split; [unfold zlen; lia|exact B].
Qed.

(** What New makes. *)
Theorem new_ok (go : Z -> Z -> f64) gt seed : (forall s k, unit64 (go s k)) ->
  (0 <= gt <= 2 -> exists b, gen_new go gt seed = Ok b /\ gen_ok b /\
     forall n, exists vs b', draws gen_next n b = Ok (vs, b') /\ gen_ok b' /\ length vs = n /\ Forall closed01 vs /\ (gt <> 2 -> Forall unit64 vs)) /\
  (~ 0 <= gt <= 2 -> gen_new go gt seed = Panic).
Proof.
  intros H. split; intros G.
  - assert (K : gt = 0 \/ gt = 1 \/ gt = 2) by lia. unfold gen_new. destruct K as [-> | [-> | ->]]; cbn [Z.eqb Pos.eqb].
    + exists (BXor (xor_init seed)). split; [reflexivity|]. split; [split; [apply xor_init_ok|apply xor_init_nz]|]. intros n.
      destruct (xor_draws_ok n _ (xor_init_ok seed) (xor_init_nz seed)) as (vs & s & E & L & F & A & B).
      exists vs, (BXor s). rewrite (draws_embed xor_next gen_next BXor (fun s => eq_refl)), E. split; [reflexivity|]. split; [split; auto|]. split; [exact L|].
      split; [|intros _; exact F]. eapply Forall_impl; [|exact F]. intros a [P Q]. split; [exact P|lra].
    + eexists. split; [reflexivity|]. split; [exact I|]. intros n. rewrite go_draws. eexists _, _. split; [reflexivity|]. split; [exact I|].
      split; [now rewrite map_length, seq_length|].
      assert (F : Forall unit64 (map (fun k => go (signed 64 seed) (0 + Z.of_nat k)) (seq 0 n))).
      { apply Forall_forall. intros x Hx. apply in_map_iff in Hx. destruct Hx as (k & <- & _). apply H. }
      split; [|intros _; exact F]. eapply Forall_impl; [|exact F]. intros a [P Q]. split; [exact P|lra].
    + destruct (seed_ok go seed H) as (table & E & L & F). rewrite E. cbn [bind]. eexists. split; [reflexivity|]. split; [exact I|]. intros n.
      destruct (taus_f64 table n L) as (outs & g & D & LO & C).
      * eapply Forall_impl; [|exact F]. intros a [A B]. split; [exact A|lra].
      * exists outs, (BTaus g). rewrite (draws_embed taus_next gen_next BTaus (fun s => eq_refl)), D. repeat split; auto. lia.
  - unfold gen_new. replace (gt =? 0) with false by lia. replace (gt =? 1) with false by lia. replace (gt =? 2) with false by lia. reflexivity.
Qed.

Lemma draws_app {S A} (next : S -> res (A * S)) : forall k n s,
  draws next (k + n) s = ('(l, s) <- draws next k s ;; '(m, s) <- draws next n s ;; Ok (l ++ m, s)).
Proof.
  induction k as [|k IH]; intros n s; cbn [draws Nat.add].
  - cbn [bind]. destruct (draws next n s) as [[m s']| | |]; reflexivity.
  - destruct (next s) as [[a s1]| | |]; cbn [bind]; try reflexivity. rewrite IH.
    destruct (draws next k s1) as [[l s2]| | |]; cbn [bind]; try reflexivity.
    destruct (draws next n s2) as [[m s3]| | |]; reflexivity.
Qed.

Lemma new_range go gt seed b : gen_new go gt seed = Ok b -> 0 <= gt <= 2.
Proof.
  unfold gen_new. destruct (Z.eqb_spec gt 0); [lia|]. destruct (Z.eqb_spec gt 1); [lia|]. destruct (Z.eqb_spec gt 2); [lia|]. discriminate.
Qed.

Theorem made_draws (go : Z -> Z -> f64) gt b : go_stream go -> made go gt b -> gen_ok b /\
  forall n, exists vs b', draws gen_next n b = Ok (vs, b') /\ length vs = n /\ Forall closed_float vs /\
    (gt <> 2 -> Forall unit_float vs) /\ made go gt b'.
Proof.
  intros H (seed & b0 & k & l & E & D).
  destruct (new_ok go gt seed H) as [N _]. destruct (N (new_range _ _ _ _ E)) as (b1 & E1 & _ & K). rewrite E in E1. injection E1 as <-.
  split.
  - destruct (K k) as (vs & b' & D' & G & _). rewrite D in D'. injection D' as <- <-. exact G.
  - intros n. destruct (K (k + n)%nat) as (vs & b' & D' & _ & L & C & U). pose proof D' as D2. rewrite draws_app, D in D2. cbn [bind] in D2.
    destruct (draws gen_next n b) as [[m b2]| | |] eqn:M; try discriminate D2. cbn [bind] in D2. injection D2 as <- <-.
    exists m, b2. split; [reflexivity|].
    destruct (K k) as (vs & b' & Dk & _ & Lk & _). rewrite D in Dk. injection Dk as <- <-. rewrite app_length in L.
    split; [lia|]. apply Forall_app in C. split; [apply C|]. split; [intros G; specialize (U G); apply Forall_app in U; apply U|].
    exists seed, b0, (k + n)%nat, (l ++ m). auto.
Qed.

Lemma made_endless go gt b : go_stream go -> made go gt b -> endless b.
Proof.
  intros H M n. destruct (made_draws go gt b H M) as [_ K]. destruct (K n) as (vs & b' & D & _ & C & _). eauto.
Qed.
Lemma made_unit go gt b : go_stream go -> gt <> 2 -> made go gt b -> exists v b', gen_next b = Ok (v, b') /\ unit64 v.
Proof.
  intros H G M. destruct (made_draws go gt b H M) as [_ K]. destruct (K 1%nat) as (vs & b' & D & _ & _ & U & _). specialize (U G).
  cbn [draws] in D. destruct (gen_next b) as [[v b1]| | |]; try discriminate D. cbn [bind] in D. injection D as <- <-. exists v, b1. split; [reflexivity|now inversion U].
Qed.

(** ** RandomSample *)
Theorem sample_ok (go : Z -> Z -> f64) gt b (t : tetra R) buf n : go_stream go -> made go gt b -> 0 <= n -> zlen buf = n * 3 ->
  exists vs b', draws gen_next (length buf) b = Ok (vs, b') /\
  exists fuel0, forall fuel, (fuel0 <= fuel)%nat ->
    let pts := map (fun i => V3 (B2R (zn (nofZ 0) vs i)) (B2R (zn (nofZ 0) vs (n + i))) (B2R (zn (nofZ 0) vs (2 * n + i)))) (zseq n) in
    random_sample (B2R (prec:=53) (emax:=1024)) fuel t b buf n = Ok (fst (distribute t pts), vs, snd (distribute t pts), b') /\
    zlen (fst (distribute t pts)) = n /\
    Forall (fun x => in_tetra (tup x) (tup (c0 t)) (tup (c1 t)) (tup (c2 t)) (tup (c3 t))) (fst (distribute t pts)).
Proof.
  intros H M N L. destruct (made_draws go gt b H M) as [G K]. destruct (K (length buf)) as (vs & b' & D & LV & C & _).
  exists vs, b'. split; [exact D|]. destruct (uniform_at_draws b (nofZ 0) (nofZ 1) buf G) as (f0 & U). exists f0. intros fuel LF. cbv zeta.
  assert (LZ : zlen vs = n * 3) by (unfold zlen in *; lia).
  assert (DU : draws (fun b => gen_uniform b (nofZ 0) (nofZ 1)) (length buf) b = Ok (vs, b')).
  { rewrite <- D. clear. revert b. induction (length buf) as [|m IH]; intros b; cbn [draws]; [reflexivity|]. rewrite uniform01.
    destruct (gen_next b) as [[v b1]| | |]; cbn [bind]; try reflexivity. now rewrite IH. }
  assert (CZ : forall i, 0 <= i < n * 3 -> (0 <= B2R (zn (nofZ 0%Z) vs i) <= 1)%R).
  { intros i Hi. rewrite Forall_forall in C. destruct (C (zn (nofZ 0) vs i)) as [_ B]; [|exact B]. apply zn_In. lia. }
  set (pt := fun i => V3 (B2R (zn (nofZ 0) vs i)) (B2R (zn (nofZ 0) vs (n + i))) (B2R (zn (nofZ 0) vs (2 * n + i)))).
  assert (FP : Forall unit_cube (map pt (zseq n))).
  { apply Forall_forall. intros p Hp. apply in_map_iff in Hp. destruct Hp as (i & <- & Hi). apply in_zseq in Hi.
    unfold unit_cube, pt. cbn [v0 v1 v2]. split; [|split]; apply CZ; lia. }
  destruct (distribute_inside t _ FP) as [LD FD]. split; [|split; [|exact FD]].
  - unfold random_sample. replace (zlen buf =? n * 3) with true by lia. cbn [negb]. rewrite (U fuel LF), DU. cbn [bind].
    rewrite (tabulate_ok _ pt n).
    + cbn [bind]. replace (ztab n pt) with (map pt (zseq n)).
      * destruct (distribute t (map pt (zseq n))); reflexivity.
      * unfold zseq, ztab. rewrite map_map. reflexivity.
    + lia.
    + intros i Hi. rewrite (get_ok (nofZ 0)) by lia. cbn [bind]. rewrite (get_ok (nofZ 0)) by lia. cbn [bind]. rewrite (get_ok (nofZ 0)) by lia. reflexivity.
  - unfold zlen. rewrite LD, map_length. unfold zseq. rewrite map_length, seq_length. lia.
Qed.

Theorem sample_panic {F} {NF : Num F} (of64 : f64 -> F) fuel t b buf n : zlen buf <> n * 3 -> random_sample of64 fuel t b buf n = Panic.
Proof. intros H. unfold random_sample. replace (zlen buf =? n * 3) with false by lia. reflexivity. Qed.

(** ** DistributeTetra64 *)
Section D64.
Context {F D : Type} {NF : Num F}.
Variable up : F -> D.
Definition up3 (v : vec3 F) : vec3 D := V3 (up (v0 v)) (up (v1 v)) (up (v2 v)).

Lemma d64_loop (g : vec3 F -> vec3 F) (pts : list (vec3 F)) : forall rest dn tail, pts = dn ++ rest -> (length rest <= length tail)%nat ->
  for_ (zlen dn) (zlen pts) (fun i out => p <- get pts i ;; let v := g p in set out i (V3 (up (v0 v)) (up (v1 v)) (up (v2 v))))
    (map (fun p => up3 (g p)) dn ++ tail) = Ok (map (fun p => up3 (g p)) pts ++ skipn (length rest) tail).
Proof using.
  induction rest as [|r rest IH]; intros dn tail E L.
  - rewrite app_nil_r in E. subst dn. rewrite for_empty by lia. reflexivity.
  - destruct tail as [|x tail]; [cbn in L; lia|].
    rewrite for_step by (rewrite E, zlen_app, zlen_cons; pose proof (zlen_nonneg rest); lia).
    rewrite (get_ok r) by (rewrite E, zlen_app, zlen_cons; pose proof (zlen_nonneg rest); pose proof (zlen_nonneg dn); lia). cbn [bind].
    assert (G : zn r pts (zlen dn) = r) by (rewrite E; unfold zn, zlen; rewrite Nat2Z.id, app_nth2, Nat.sub_diag; [reflexivity|lia]).
    rewrite G. cbv zeta.
    rewrite set_ok by (unfold zlen; rewrite app_length, map_length; cbn [length]; lia). cbn [bind].
    assert (U : upd (map (fun p => up3 (g p)) dn ++ x :: tail) (Z.to_nat (zlen dn)) (up3 (g r)) = map (fun p => up3 (g p)) (dn ++ [r]) ++ tail).
    { clear. unfold zlen. rewrite Nat2Z.id. induction dn as [|d dn IH]; cbn; [reflexivity|]. f_equal. exact IH. }
    change (V3 (up (v0 (g r))) (up (v1 (g r))) (up (v2 (g r)))) with (up3 (g r)). rewrite U.
    replace (zlen dn + 1) with (zlen (dn ++ [r])) by (rewrite zlen_app; reflexivity).
    rewrite IH; [reflexivity| |cbn in L; lia]. rewrite <- app_assoc. exact E.
Qed.

Theorem d64_ok (t : tetra F) (pts : list (vec3 F)) (out : list (vec3 D)) : zlen pts <= zlen out ->
  distribute_tetra64 up t pts out = Ok (map up3 (fst (distribute_tetra t pts)) ++ skipn (length pts) out, snd (distribute_tetra t pts)).
Proof using.
  intros L. unfold distribute_tetra64, distribute_tetra. destruct (tetra_barycenter t) as [b t'] eqn:B.
  pose proof (d64_loop (bary_point t' b) pts pts [] out eq_refl ltac:(unfold zlen in L; lia)) as Q. cbn [map app] in Q.
  change (zlen (@nil (vec3 F))) with 0 in Q. rewrite Q. cbn [bind fst snd]. rewrite map_map. reflexivity.
Qed.

Theorem d64_panic (t : tetra F) (pts : list (vec3 F)) (out : list (vec3 D)) : zlen out < zlen pts -> distribute_tetra64 up t pts out = Panic.
Proof using.
  intros L. unfold distribute_tetra64. destruct (tetra_barycenter t) as [b t'] eqn:B.
  set (k := Z.to_nat (zlen out)).
  assert (LK : length (firstn k pts) = k) by (rewrite firstn_length; unfold k, zlen in *; lia).
  pose proof (zlen_nonneg out) as NN.
  rewrite (for_split 0 (zlen out) (zlen pts)) by lia.
  assert (Q : for_ 0 (zlen out) (fun i out => p <- get pts i ;; let v := bary_point t' b p in set out i (V3 (up (v0 v)) (up (v1 v)) (up (v2 v)))) out =
              Ok (map (fun p => up3 (bary_point t' b p)) (firstn k pts))).
  { pose proof (d64_loop (bary_point t' b) (firstn k pts) (firstn k pts) [] out eq_refl ltac:(rewrite LK; unfold k, zlen; lia)) as Q.
    cbn [map app] in Q. change (zlen (@nil (vec3 F))) with 0 in Q.
    replace (zlen (firstn k pts)) with (zlen out) in Q by (unfold zlen in *; rewrite LK; unfold k; lia).
    rewrite skipn_all2, app_nil_r in Q by (rewrite LK; unfold k, zlen; lia). rewrite <- Q.
    apply for_ext. intros i s Hi. assert (GE : get pts i = get (firstn k pts) i).
    { destruct pts as [|p0 pr] eqn:EP; [cbn in L; lia|]. rewrite <- EP in *.
      rewrite (get_ok p0) by lia. rewrite (get_ok p0) by (unfold zlen in *; rewrite LK; unfold k; lia). f_equal. unfold zn.
      rewrite <- (firstn_skipn k pts) at 1. rewrite app_nth1; [reflexivity|]. rewrite LK. unfold k. lia. }
    now rewrite GE. }
  cbv zeta in Q |- *. match goal with |- context [for_ 0 (zlen out) ?f out] => change (for_ 0 (zlen out) f out) with (for_ 0 (zlen out) (fun i out => bind (get pts i) (fun p => set out i (V3 (up (v0 (bary_point t' b p))) (up (v1 (bary_point t' b p))) (up (v2 (bary_point t' b p)))))) out) end. rewrite Q. cbn [bind]. rewrite for_step by lia.
  destruct pts as [|p0 pr] eqn:EP; [cbn in L; lia|]. rewrite <- EP in *.
  rewrite (get_ok p0) by lia. cbn [bind]. cbv zeta. rewrite set_panic; [reflexivity|]. unfold zlen in *. rewrite map_length, LK. unfold k. lia.
Qed.
End D64.
