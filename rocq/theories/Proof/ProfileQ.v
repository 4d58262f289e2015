(** profile.go: radii, directions, rounding, printing, number of attempts. *)
From Coq Require Import ZArith List Bool Lia Reals Lra Psatz ZifyBool ZifyNat.
From Flocq Require Import Core.Raux.
From Verif Require Import Base.Res Base.ResFacts Base.Num Model.Geom Model.GridDeriv Model.Halo Model.Profile Spec.Lines Proof.ProfileL Proof.ProfileR Proof.ProfileP.
Import ListNotations.
Open Scope Z_scope.
Open Scope res_scope.

(** ** radii *)
Section Radii.
Context {D : Type} {ND : Num D}.
Variables (fsqrt : D -> D) (d : D) (span : vec3 Z) (cw : D).
Hypothesis (H0 : 0 <= v0 span) (H1 : 0 <= v1 span) (H2 : 0 <= v2 span).

Definition rmid (s : Z) : D := ((#s - #1 / #2) * cw / #2)%num.
Definition roff (k s : Z) : D := (#k * cw - rmid s)%num.
Definition rval (a b c : Z) : D :=
  (fsqrt (roff a (v0 span) * roff a (v0 span) + roff b (v1 span) * roff b (v1 span) + roff c (v2 span) * roff c (v2 span)))%num.

Let I (p : Z) (st : Z * list D) : Prop := fst st = p /\ zlen (snd st) = v0 span * v1 span * v2 span /\
  forall a b c, inr (v0 span) (v1 span) (v2 span) a b c -> ix (v0 span) (v1 span) a b c < p ->
    zn d (snd st) (ix (v0 span) (v1 span) a b c) = rval a b c.

Lemma radii_ok : exists rs, radii fsqrt span cw = Ok rs /\ zlen rs = v0 span * v1 span * v2 span /\
  forall a b c, inr (v0 span) (v1 span) (v2 span) a b c -> zn d rs (ix (v0 span) (v1 span) a b c) = rval a b c.
Proof.
  unfold radii. set (n := v0 span * v1 span * v2 span).
  assert (Hn : 0 <= n) by (unfold n; apply Z.mul_nonneg_nonneg; [apply Z.mul_nonneg_nonneg; assumption|assumption]).
  replace (n <? 0) with false by lia. cbn zeta.
  fold (rmid (v0 span)) (rmid (v1 span)) (rmid (v2 span)).
  match goal with |- exists rs, bind ?l _ = _ /\ _ => assert (L : wp l (I (v2 span * v0 span * v1 span))) end.
  { eapply wp_weaken; [|apply (for_inv (fun z st => I (z * v0 span * v1 span) st)); [exact H2| |]].
    - intros st K. exact K.
    - split; [reflexivity|]. split; [cbn [snd]; rewrite zlen_repeat; lia|]. intros a b c Hi K. pose proof (ix_range _ _ _ _ _ _ Hi). lia.
    - intros z st Hz Hst.
      eapply wp_weaken; [|apply (for_inv (fun y st => I (z * v0 span * v1 span + y * v0 span) st)); [exact H1| |]].
      + intros st' K. cbn beta in K. replace ((z + 1) * v0 span * v1 span) with (z * v0 span * v1 span + v1 span * v0 span) by ring. exact K.
      + rewrite Z.add_0_r. exact Hst.
      + intros y st1 Hy Hst1.
        eapply wp_weaken; [|apply (for_inv (fun x st => I (z * v0 span * v1 span + y * v0 span + x) st)); [exact H0| |]].
        * intros st' K. cbn beta in K. replace (z * v0 span * v1 span + (y + 1) * v0 span) with (z * v0 span * v1 span + y * v0 span + v0 span) by ring. exact K.
        * rewrite Z.add_0_r. exact Hst1.
        * intros x [idx rs] Hx [E1 [E2 E3]]. cbn [fst snd] in *.
          assert (Hi : inr (v0 span) (v1 span) (v2 span) x y z) by (split; [lia|split; lia]).
          pose proof (ix_range _ _ _ _ _ _ Hi) as Rg. change (z * v0 span * v1 span + y * v0 span + x) with (ix (v0 span) (v1 span) x y z) in *.
          subst idx. rewrite set_ok by lia. cbn [bind wp]. unfold I. cbn [fst snd].
          split; [unfold ix; lia|]. split; [rewrite zlen_upd; exact E2|].
          intros a b c Hi' Hlt. pose proof (ix_range _ _ _ _ _ _ Hi') as Rg'.
          destruct (Z.eq_dec (ix (v0 span) (v1 span) a b c) (ix (v0 span) (v1 span) x y z)) as [E|E].
          -- rewrite E, zn_upd_eq by lia. apply ix_inj with (s2 := v2 span) in E; [|assumption..]. destruct E as [-> [-> -> ]]. reflexivity.
          -- rewrite zn_upd_neq by lia. apply E3; [exact Hi'|]. unfold ix in *. lia. }
  apply wp_ok in L. destruct L as [[idx rs] [E [_ [E2 E3]]]]. cbn [snd] in *.
  exists rs. rewrite E. cbn [bind]. split; [reflexivity|]. split; [exact E2|].
  intros a b c Hi. apply E3; [exact Hi|]. pose proof (ix_range _ _ _ _ _ _ Hi). lia.
Qed.
End Radii.

Open Scope R_scope.

(** The radii are distances from a point a quarter of a cell above the center. *)
Lemma radii_real (span : vec3 Z) (cw : R) :
  (0 <= v0 span)%Z -> (0 <= v1 span)%Z -> (0 <= v2 span)%Z -> 0 <= cw ->
  exists rs, radii sqrt span cw = Ok rs /\ zlen rs = (v0 span * v1 span * v2 span)%Z /\
    forall c, (forall i, (0 <= i < 3)%Z -> (0 <= c i < vget span i)%Z) ->
      cell_value (vget span) rs c = cell_distance c (fun i => IZR (vget span i) / 2 + 1 / 4) * cw.
Proof.
  intros H0 H1 H2 Hc. destruct (radii_ok sqrt 0 span cw H0 H1 H2) as [rs [E [L V]]].
  exists rs. split; [exact E|]. split; [exact L|]. intros c Hi.
  pose proof (Hi 0%Z ltac:(lia)) as A. pose proof (Hi 1%Z ltac:(lia)) as B. pose proof (Hi 2%Z ltac:(lia)) as C. cbn in A, B, C.
  assert (K : inr (v0 span) (v1 span) (v2 span) (c 0%Z) (c 1%Z) (c 2%Z)) by (split; [exact A|split; [exact B|exact C]]).
  specialize (V _ _ _ K).
  unfold cell_value. change (vget span 0) with (v0 span). change (vget span 1) with (v1 span).
  unfold zn in V. unfold ix in V.
  match goal with |- nth (Z.to_nat ?i) _ _ = _ => replace i with (c 2%Z * v0 span * v1 span + c 1%Z * v0 span + c 0%Z)%Z by ring end.
  rewrite V. unfold rval, roff, rmid, cell_distance. cbn [nadd nsub nmul ndiv nofZ RNum].
  match goal with |- _ = sqrt ?B * cw => assert (HB : 0 <= B); [|assert (Q : sqrt B * cw = sqrt (B * (cw * cw)))] end.
  { unfold length2. repeat apply Rplus_le_le_0_compat; apply Rle_0_sqr. }
  { rewrite sqrt_mult_alt by exact HB. rewrite sqrt_square by exact Hc. reflexivity. }
  rewrite Q. f_equal. unfold length2. change (vget span 0) with (v0 span). change (vget span 1) with (v1 span). change (vget span 2) with (v2 span). field.
Qed.

(** So the radius of the first cell is never its distance from the center. *)
Lemma radii_wrong (span : vec3 Z) (cw : R) :
  (0 < v0 span)%Z -> (0 < v1 span)%Z -> (0 < v2 span)%Z -> 0 < cw ->
  exists rs, radii sqrt span cw = Ok rs /\
    cell_distance (fun _ => 0%Z) (fun i => IZR (vget span i) / 2) * cw < cell_value (vget span) rs (fun _ => 0%Z).
Proof.
  intros H0 H1 H2 Hc. destruct (radii_real span cw) as [rs [E [_ V]]]; [lia|lia|lia|lra|].
  exists rs. split; [exact E|]. rewrite V.
  2:{ intros i Hi. assert (J : (i = 0 \/ i = 1 \/ i = 2)%Z) by lia. destruct J as [-> | [-> | -> ]]; cbn; lia. }
  apply Rmult_lt_compat_r; [exact Hc|]. unfold cell_distance, length2.
  change (vget span 0) with (v0 span). change (vget span 1) with (v1 span). change (vget span 2) with (v2 span).
  pose proof (IZR_le 1 (v0 span) ltac:(lia)). pose proof (IZR_le 1 (v1 span) ltac:(lia)). pose proof (IZR_le 1 (v2 span) ltac:(lia)).
  apply sqrt_lt_1_alt. split; nra.
Qed.

(** ** randomUnit *)
Lemma unit_ok (f : Z -> R) (axis : Z) :
  let p := cube_point f axis in 0 < length2 p ->
  exists k, 0 < k /\ (forall i, (0 <= i < 3)%Z -> vget (random_unit sqrt (f 0%Z) (f 1%Z) (f 2%Z) axis) i = k * p i) /\
    length2 (vget (random_unit sqrt (f 0%Z) (f 1%Z) (f 2%Z) axis)) = 1.
Proof.
  intros p Hp. unfold random_unit. cbn [nadd nsub nmul ndiv nofZ RNum].
  replace (if (axis =? 0)%Z then 0 else f 0%Z * 2 - 1) with (p 0%Z) by (unfold p, cube_point; rewrite (Z.eqb_sym axis); reflexivity).
  replace (if (axis =? 1)%Z then 0 else f 1%Z * 2 - 1) with (p 1%Z) by (unfold p, cube_point; rewrite (Z.eqb_sym axis); reflexivity).
  replace (if (axis =? 2)%Z then 0 else f 2%Z * 2 - 1) with (p 2%Z) by (unfold p, cube_point; rewrite (Z.eqb_sym axis); reflexivity).
  fold (length2 p). set (n := sqrt (length2 p)).
  assert (Hn : 0 < n) by (apply sqrt_lt_R0; exact Hp).
  assert (Hnn : n * n = length2 p) by (apply sqrt_sqrt; lra).
  exists (/ n). split; [apply Rinv_0_lt_compat; exact Hn|]. split.
  - intros i Hi. assert (J : (i = 0 \/ i = 1 \/ i = 2)%Z) by lia. destruct J as [-> | [-> | -> ]]; cbn; field; lra.
  - unfold length2 at 1. cbn. transitivity (length2 p / (n * n)); [unfold length2; field; lra|]. rewrite Hnn. field. lra.
Qed.

(** ** round *)
Lemma round_ok (x : R) : IZR (round x) - 1 / 2 <= x < IZR (round x) + 1 / 2.
Proof.
  unfold round. cbn [nabs nsub ndiv nltb neqb nofZ nfloor RNum].
  pose proof (Zfloor_lb x) as A. pose proof (Zfloor_ub x) as B. set (m := Zfloor x) in *.
  destruct (Rlt_bool_spec (Rabs (IZR m - x)) (1 / 2)) as [C|C].
  - rewrite Rabs_left1 in C by lra. lra.
  - rewrite Rabs_left1 in C by lra. destruct (Req_bool_spec (IZR m) x) as [E|E]; [lra|].
    rewrite plus_IZR. lra.
Qed.
Close Scope R_scope.

(** ** Number of attempts *)
Section Attempts.
Context {D : Type} {ND : Num D}.
Variables (fsqrt : D -> D) (isnan : D -> bool) (d : D) (grid : list D) (span : vec3 Z) (cw : D) (units : Z -> vec3 D).
Hypothesis (H0 : 0 <= v0 span) (H1 : 0 <= v1 span) (H2 : 0 <= v2 span) (HL : zlen grid = v0 span * v1 span * v2 span).

Lemma attempts_exact : forall fuel profs att, exists lines,
  line_profiles fsqrt isnan fuel grid span (zlen profs + Z.of_nat fuel) cw units att profs =
    Ok (profs ++ lines, att + Z.of_nat fuel) /\
  zlen lines = Z.of_nat fuel /\ forall k def, 0 <= k < Z.of_nat fuel -> fst (fst (zn def lines k)) = units (att + k).
Proof.
  induction fuel as [|fuel IH]; intros profs att.
  - exists []. cbn. rewrite Z.add_0_r, Z.eqb_refl, app_nil_r, Z.add_0_r. split; [reflexivity|]. split; [reflexivity|]. lia.
  - cbn [line_profiles]. replace (zlen profs =? zlen profs + Z.of_nat (S fuel)) with false by lia.
    destruct (extract_spec fsqrt isnan d grid span (units att) cw H0 H1 H2 HL) as (rs & rhos & E & _).
    rewrite E. cbn [bind].
    destruct (IH (profs ++ [(units att, rs, rhos)]) (att + 1)) as (lines & E2 & L & V).
    exists ((units att, rs, rhos) :: lines).
    replace (zlen profs + Z.of_nat (S fuel)) with (zlen (profs ++ [(units att, rs, rhos)]) + Z.of_nat fuel) by (rewrite zlen_app; cbn; lia).
    rewrite E2, <- app_assoc. cbn [app]. split; [f_equal; f_equal; lia|]. split; [rewrite zlen_cons; lia|].
    intros k def Hk. destruct (Z.eq_dec k 0) as [-> | Hk0].
    + rewrite Z.add_0_r. reflexivity.
    + replace (zn def ((units att, rs, rhos) :: lines) k) with (zn def lines (k - 1)).
      * rewrite V by lia. f_equal. lia.
      * unfold zn. replace (Z.to_nat k) with (S (Z.to_nat (k - 1))) by lia. reflexivity.
Qed.
End Attempts.

(** ** printProfiles *)
Section Print.
Context {D : Type}.

Lemma min_fold (ls : list (list D)) m0 : let m := fold_left (fun m prof => if m >? zlen prof then zlen prof else m) ls m0 in
  m <= m0 /\ (forall l, In l ls -> m <= zlen l) /\ (m = m0 \/ exists l, In l ls /\ m = zlen l).
Proof.
  revert m0. induction ls as [|l ls IH]; intros m0; cbn.
  - split; [lia|]. split; [tauto|left; reflexivity].
  - destruct (IH (if m0 >? zlen l then zlen l else m0)) as [A [B C]]. cbn zeta in *. destruct (m0 >? zlen l) eqn:E.
    + split; [lia|]. split; [intros l' [<- | H]; [exact A|auto]|]. destruct C as [C | [l' [C1 C2]]]; [right; exists l; auto|right; exists l'; auto].
    + split; [exact A|]. split; [intros l' [<- | H]; [lia|auto]|]. destruct C as [C | [l' [C1 C2]]]; [left; exact C|right; exists l'; auto].
Qed.

Lemma print_ok (d : D) (rs rhos : list (list D)) : 0 < zlen rs -> zlen rhos = zlen rs ->
  (forall p, 0 <= p < zlen rs -> zlen (zn [] rhos p) = zlen (zn [] rs p)) ->
  exists rows, print_profiles rs rhos = Ok rows /\
    (forall p, 0 <= p < zlen rs -> zlen rows <= zlen (zn [] rs p)) /\
    (exists p, 0 <= p < zlen rs /\ zlen rows = zlen (zn [] rs p)) /\
    forall col, 0 <= col < zlen rows -> zlen (zn [] rows col) = zlen rs /\
      forall p, 0 <= p < zlen rs -> zn (d, d) (zn [] rows col) p = (zn d (zn [] rs p) col, zn d (zn [] rhos p) col).
Proof.
  intros Hl Hr Hpp. unfold print_profiles. rewrite (get_ok []) by lia. cbn [bind].
  set (m := fold_left _ rs _). destruct (min_fold rs (zlen (zn [] rs 0))) as [A [B C]]. cbn zeta in *. fold m in A, B, C.
  assert (Bz : forall p, 0 <= p < zlen rs -> m <= zlen (zn [] rs p)).
  { intros p Hp. apply B. unfold zn. apply nth_In. unfold zlen in *. lia. }
  assert (Hm : 0 <= m). { destruct C as [-> | [l [_ -> ]]]; unfold zlen; lia. }
  assert (K : exists rows, tabulate m (fun col => tabulate (zlen rs) (fun p =>
     rp <- get rs p ;; r <- get rp col ;; rhop <- get rhos p ;; rho <- get rhop col ;; Ok (r, rho))) = Ok rows /\
     zlen rows = m /\ forall col, 0 <= col < m -> zn [] rows col = ztab (zlen rs) (fun p => (zn d (zn [] rs p) col, zn d (zn [] rhos p) col))).
  { exists (ztab m (fun col => ztab (zlen rs) (fun p => (zn d (zn [] rs p) col, zn d (zn [] rhos p) col)))).
    split.
    - apply tabulate_ok; [exact Hm|]. intros col Hcol. apply tabulate_ok; [lia|]. intros p Hp.
      specialize (Bz p Hp). specialize (Hpp p Hp).
      rewrite (get_ok []) by lia. cbn [bind]. rewrite (get_ok d) by lia. cbn [bind].
      rewrite (get_ok []) by lia. cbn [bind]. rewrite (get_ok d) by lia. reflexivity.
    - split; [rewrite zlen_ztab; lia|]. intros col Hcol. rewrite zn_ztab by lia. reflexivity. }
  destruct K as [rows [E [L V]]]. exists rows. split; [exact E|]. rewrite L. split; [exact Bz|]. split.
  - destruct C as [C | [l [Hin C]]].
    + exists 0. split; [lia|exact C].
    + apply (In_nth _ _ []) in Hin. destruct Hin as [i [Hi <-]]. exists (Z.of_nat i). unfold zn, zlen in *. rewrite Nat2Z.id. lia.
  - intros col Hcol. rewrite V by exact Hcol. split; [rewrite zlen_ztab; lia|]. intros p Hp. rewrite zn_ztab by lia. reflexivity.
Qed.
End Print.
