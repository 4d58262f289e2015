(** The program profile from image and table to files. *)
From Coq Require Import ZArith Reals List Lia Lra Bool Classical.
From Coq Require Import ZifyBool ZifyNat.
From Flocq Require Import Core.Raux.
From Verif Require Import Base.Res Base.ResFacts Base.Num Base.Bytes Model.Geom Model.GridDeriv Model.Halo Model.SheetIO Model.GridIO
  Model.Profile Model.ProfileMain Spec.Work Spec.Files Spec.Lines Spec.Regions Spec.ProfileRuns
  Proof.ProfileL Proof.ProfileR Proof.ProfileP Proof.ProfileQ Proof.ProfileX Proof.GridIOP Proof.ProfileB Proof.BytesP.
Import ListNotations.
Open Scope Z_scope.
Open Scope res_scope.

Local Ltac rn := cbn [nadd nsub nmul ndiv nopp nabs nltb nleb neqb nofZ ntrunc nfloor RNum] in *.

(** ** The bounds of a sphere *)
Lemma cell_of (cw x : R) (i : Z) : (0 < cw)%R -> (IZR i * cw <= x < IZR (i + 1) * cw)%R <-> Zfloor (x / cw) = i.
Proof.
  intros C. split.
  - intros [A B]. apply Zfloor_imp. split.
    + apply (Rmult_le_reg_r cw); [lra|]. unfold Rdiv. rewrite Rmult_assoc, Rinv_l by lra. lra.
    + apply (Rmult_lt_reg_r cw); [lra|]. unfold Rdiv. rewrite Rmult_assoc, Rinv_l by lra. lra.
  - intros <-. pose proof (Zfloor_lb (x / cw)) as A. pose proof (Zfloor_ub (x / cw)) as B. rewrite plus_IZR.
    assert (E : (x = x / cw * cw)%R) by (field; lra). rewrite E at 2 3. split; nra.
Qed.

Lemma bounds_lower (L cw p r : R) : (0 < cw)%R -> (0 < L)%R -> inside_period L p -> (0 <= r)%R -> (2 * r < L)%R ->
  exists e, lower_end L p r e /\
    sphere_bounds1 p r cw L = (Zfloor (e / cw), Zfloor ((e + 2 * r) / cw) - Zfloor (e / cw) + 1).
Proof.
  intros C HL [P0 P1] R0 R1. unfold sphere_bounds1, lower_end, inside_period. rn.
  assert (T : forall x : R, (0 <= x)%R -> Ztrunc (x / cw) = Zfloor (x / cw)).
  { intros x X. apply Ztrunc_floor. apply Rmult_le_pos; [auto|]. left. now apply Rinv_0_lt_compat. }
  destruct (Rlt_bool_spec (p - r) 0) as [A|A]; rn.
  - exists (p - r + L)%R. split.
    { split; [exists 1; lra|]. lra. }
    destruct (Rlt_bool_spec (p + r) (p - r + L)) as [B|B]; [|lra].
    rewrite !T by lra. replace (p - r + L + 2 * r)%R with (p + r + L)%R by ring. reflexivity.
  - exists (p - r)%R. split.
    { split; [exists 0; lra|]. lra. }
    destruct (Rlt_bool_spec (p + r) (p - r)) as [B|B]; [lra|].
    rewrite !T by lra. replace (p - r + 2 * r)%R with (p + r)%R by ring. reflexivity.
Qed.

Lemma covered_near (L cw p r e : R) (n o c : Z) : (0 < cw)%R -> L = (IZR n * cw)%R -> (0 <= r)%R -> lower_end L p r e ->
  covered n o (Zfloor (e / cw)) (Zfloor ((e + 2 * r) / cw) + 1) c <-> pixel_near L cw p r (o + c).
Proof.
  intros C HL R0 [[j Hj] _]. unfold covered, pixel_near. split.
  - intros (x & k & Hx & Ex).
    assert (A : (e < IZR (x + 1) * cw)%R).
    { pose proof (proj2 (cell_of cw e (Zfloor (e / cw)) C) eq_refl) as [_ A].
      apply (Rlt_le_trans _ _ _ A). apply Rmult_le_compat_r; [lra|]. apply IZR_le. lia. }
    assert (B : (IZR x * cw <= e + 2 * r)%R).
    { pose proof (proj2 (cell_of cw (e + 2 * r) (Zfloor ((e + 2 * r) / cw)) C) eq_refl) as [B _].
      refine (Rle_trans _ _ _ _ B). apply Rmult_le_compat_r; [lra|]. apply IZR_le. lia. }
    assert (Y : exists y, (IZR x * cw <= y < IZR (x + 1) * cw /\ e <= y <= e + 2 * r)%R).
    { rewrite plus_IZR in *. destruct (Rle_dec e (IZR x * cw)).
      - exists (IZR x * cw)%R. split; [|lra]. lra.
      - exists e. lra. }
    destruct Y as (y & Y1 & Y2). exists (y - IZR k * L)%R, (k - j). split.
    + rewrite Ex in Y1. rewrite HL. rewrite !plus_IZR, mult_IZR in *. lra.
    + rewrite minus_IZR. replace (y - IZR k * L - p + (IZR k - IZR j) * L)%R with (y - p - IZR j * L)%R by ring.
      apply Rabs_le. lra.
  - intros (x & k & Hx & Dx). exists (o + c + (k + j) * n), (k + j). split; [|ring].
    set (y := (x + IZR (k + j) * L)%R).
    assert (Y : Zfloor (y / cw) = o + c + (k + j) * n).
    { apply cell_of; [exact C|]. unfold y. rewrite HL. rewrite !plus_IZR, !mult_IZR, !plus_IZR in *. lra. }
    assert (Y2 : (e <= y <= e + 2 * r)%R).
    { unfold y. rewrite plus_IZR. apply Rabs_le_inv in Dx. lra. }
    rewrite <- Y. split.
    + apply Zfloor_le. apply Rmult_le_compat_r; [left; now apply Rinv_0_lt_compat|]. lra.
    + apply Z.lt_succ_r. apply Zfloor_le. apply Rmult_le_compat_r; [left; now apply Rinv_0_lt_compat|]. lra.
Qed.

Lemma bounds_near (L cw p r : R) (n o : Z) : (0 < cw)%R -> L = (IZR n * cw)%R -> 0 < n -> o <= n -> apart L cw n o p r ->
  let b := sphere_bounds1 p r cw L in
  o - n <= fst b /\ fst b + snd b <= o + n /\
  forall c, covered n o (fst b) (fst b + snd b) c <-> pixel_near L cw p r (o + c).
Proof.
  intros C HL N O (P & R0 & R1 & Q) b.
  assert (LP : (0 < L)%R) by (rewrite HL; apply Rmult_lt_0_compat; [apply IZR_lt; lia|lra]).
  destruct (bounds_lower L cw p r C LP P R0 R1) as (e & LE & E). fold b in E. rewrite E. cbn [fst snd].
  pose proof (Q e LE) as QE. replace (Zfloor (e / cw) + (Zfloor ((e + 2 * r) / cw) - Zfloor (e / cw) + 1)) with (Zfloor ((e + 2 * r) / cw) + 1) by ring.
  split; [|split].
  - assert (0 <= Zfloor (e / cw)); [|lia]. destruct LE as [_ [E0 _]]. apply Zfloor_lub. apply Rmult_le_pos; [exact E0|left; now apply Rinv_0_lt_compat].
  - assert (Zfloor ((e + 2 * r) / cw) < o + n); [|lia]. apply lt_IZR. apply (Rle_lt_trans _ ((e + 2 * r) / cw)); [apply Zfloor_lb|].
    apply (Rmult_lt_reg_r cw); [lra|]. unfold Rdiv. rewrite Rmult_assoc, Rinv_l by lra. lra.
  - intros c. now apply covered_near.
Qed.

(** ** Removing the subhalos *)
Section Cut.
Variables (L cw nan : R) (n s : Z) (o : vec3 Z).
Hypotheses (C : (0 < cw)%R) (HL : L = (IZR n * cw)%R) (N : 0 < n) (S0 : 0 <= s <= n).
Hypotheses (O0 : v0 o <= n) (O1 : v1 o <= n) (O2 : v2 o <= n).

Lemma cut_one (sub : vec3 R * R) g0 : apart3 L cw n o sub -> zlen g0 = s * s * s ->
  exists g, remove_subhalo (CB o (V3 s s s)) (sphere_bounds (fst sub) (snd sub) cw L) nan n g0 = Ok g /\
    cut_out L cw s o [sub] nan g0 g.
Proof using C HL N S0 O0 O1 O2.
  destruct sub as [p r]. intros (A0 & A1 & A2) Z0. cbn [fst snd] in *.
  destruct (bounds_near L cw (v0 p) r n (v0 o) C HL N O0 A0) as (B0 & D0 & E0).
  destruct (bounds_near L cw (v1 p) r n (v1 o) C HL N O1 A1) as (B1 & D1 & E1).
  destruct (bounds_near L cw (v2 p) r n (v2 o) C HL N O2 A2) as (B2 & D2 & E2).
  destruct (remove_exact 0%R nan (CB o (V3 s s s)) (sphere_bounds p r cw L) n g0 S0 S0 S0 Z0 (conj B0 D0) (conj B1 D1) (conj B2 D2))
    as (g & E & LG & HG).
  exists g. split; [exact E|]. split; [unfold zlen in LG; lia|].
  intros a b c Ha Hb Hc i.
  destruct (HG a b c (conj Ha (conj Hb Hc))) as [G1 G2]. clear HG.
  assert (EI : zn 0%R g (ix s s a b c) = nth i g 0%R /\ zn 0%R g0 (ix s s a b c) = nth i g0 0%R).
  { unfold zn, i, ix. replace (c * s * s + b * s + a) with (a + s * (b + s * c)) by ring. auto. }
  cbn [v0 v1 v2 origin Geom.width sphere_bounds vmap2 Geom.origin] in G1, G2.
  change (ix (v0 (V3 s s s)) (v1 (V3 s s s)) a b c) with (ix s s a b c) in G1, G2.
  cbn [v0 v1 v2] in G1, G2.
  destruct EI as [EI1 EI2]. rewrite EI1 in G1, G2. rewrite EI2 in G2.
  specialize (E0 a). specialize (E1 b). specialize (E2 c).
  assert (M : (exists sub, In sub [(p, r)] /\ meets_cube L cw o sub (V3 a b c)) <->
    covered n (v0 o) (fst (sphere_bounds1 (v0 p) r cw L)) (fst (sphere_bounds1 (v0 p) r cw L) + snd (sphere_bounds1 (v0 p) r cw L)) a /\
    covered n (v1 o) (fst (sphere_bounds1 (v1 p) r cw L)) (fst (sphere_bounds1 (v1 p) r cw L) + snd (sphere_bounds1 (v1 p) r cw L)) b /\
    covered n (v2 o) (fst (sphere_bounds1 (v2 p) r cw L)) (fst (sphere_bounds1 (v2 p) r cw L) + snd (sphere_bounds1 (v2 p) r cw L)) c).
  { rewrite E0, E1, E2. unfold meets_cube. split.
    - intros (q & [<- | []] & H). exact H.
    - intros H. exists (p, r). split; [now left|exact H]. }
  rewrite M. split; [exact G1|exact G2].
Qed.

Lemma cut_all subs : forall g0, Forall (apart3 L cw n o) subs -> zlen g0 = s * s * s ->
  exists g, remove_subhalos nan (CB o (V3 s s s)) cw L n (map (fun q => PHalo 0 (fst q) (snd q)) subs) g0 = Ok g /\
    cut_out L cw s o subs nan g0 g.
Proof using C HL N S0 O0 O1 O2.
  induction subs as [|q subs IH]; intros g0 HF Z0.
  - exists g0. split; [reflexivity|]. split; [reflexivity|]. intros a b c _ _ _ i. split; [|reflexivity].
    intros (q & [] & _).
  - inversion HF as [|q' subs' A HF']; subst q' subs'.
    destruct (cut_one q g0 A Z0) as (g1 & E1 & L1 & H1).
    destruct (IH g1 HF') as (g & E & L2 & H2); [unfold zlen in *; lia|].
    exists g. cbn [map remove_subhalos ph_pos ph_r]. rewrite E1. cbn [bind]. split; [exact E|].
    split; [lia|]. intros a b c Ha Hb Hc i.
    destruct (H1 a b c Ha Hb Hc) as [K1 K2]. destruct (H2 a b c Ha Hb Hc) as [M1 M2]. fold i in K1, K2, M1, M2.
    destruct (classic (exists sub, In sub subs /\ meets_cube L cw o sub (V3 a b c))) as [X|X].
    + split; [intros _; auto|]. intros Y. exfalso. apply Y. destruct X as (t & T1 & T2). exists t. split; [now right|exact T2].
    + rewrite (M2 X). split.
      * intros (t & [<- | T] & H); [apply K1; exists q; split; [now left|exact H]|]. exfalso. apply X. eauto.
      * intros Y. apply K2. intros (t & [<- | []] & H). apply Y. exists q. split; [now left|exact H].
Qed.
End Cut.

Lemma remove_ids {D} {ND : Num D} (nan cw w : D) bh n shs shs' g :
  map (fun h => (ph_pos h, ph_r h)) shs = map (fun h => (ph_pos h, ph_r h)) shs' ->
  remove_subhalos nan bh cw w n shs g = remove_subhalos nan bh cw w n shs' g.
Proof.
  revert shs' g. induction shs as [|h shs IH]; intros [|h' shs'] g E; try discriminate; [reflexivity|].
  injection E as E1 E2 E3. cbn [remove_subhalos]. rewrite E1, E2.
  destruct (remove_subhalo _ _ _ _ _); cbn [bind]; auto.
Qed.

(** ** The table *)
Lemma subhalos_ok host subs : read_subhalos (columns (host :: subs)) =
  Ok (PHalo (Ztrunc (fst host)) (fst (snd host)) (snd (snd host)),
      map (fun h => PHalo (Ztrunc (fst h)) (fst (snd h)) (snd (snd h))) subs).
Proof.
  remember (host :: subs) as rows eqn:ER. unfold read_subhalos, columns.
  assert (G5 : forall (a b c d e : list R), get [a; b; c; d; e] 0 = Ok a /\ get [a; b; c; d; e] 1 = Ok b /\
    get [a; b; c; d; e] 2 = Ok c /\ get [a; b; c; d; e] 3 = Ok d /\ get [a; b; c; d; e] 4 = Ok e) by (intros; repeat split; reflexivity).
  destruct (G5 (map fst rows) (map (fun h => v0 (fst (snd h))) rows) (map (fun h => v1 (fst (snd h))) rows)
    (map (fun h => v2 (fst (snd h))) rows) (map (fun h => snd (snd h)) rows)) as (G0 & G1 & G2 & G3 & G4).
  rewrite G0, G1, G2, G3, G4. cbn [bind]. cbv zeta. clear G0 G1 G2 G3 G4 G5.
  assert (G : forall (B : Type) (f : R * (vec3 R * R) -> B) i, 0 <= i < zlen rows -> get (map f rows) i = Ok (f (zn host rows i))).
  { intros B f i Hi. rewrite (get_ok (f host)) by (rewrite zlen_map; exact Hi). now rewrite (zn_map f host). }
  assert (LR : zlen rows = 1 + zlen subs) by (rewrite ER, zlen_cons; lia).
  pose proof (zlen_nonneg subs) as LS.
  rewrite !G by lia. cbn [bind]. rewrite zlen_map.
  rewrite (tabulate_ok _ (fun i => let h := zn host rows (i + 1) in PHalo (Ztrunc (fst h)) (fst (snd h)) (snd (snd h)))); [|lia|].
  - cbn [bind]. f_equal. f_equal.
    + rewrite ER. cbn. now destruct (fst (snd host)).
    + apply (list_ext (PHalo 0 (fst (snd host)) 0%R)).
      * rewrite zlen_ztab, zlen_map by lia. lia.
      * rewrite zlen_ztab by lia. intros i Hi. rewrite zn_ztab by lia.
        rewrite (zn_map _ host) by lia. cbn zeta. rewrite ER. unfold zn. replace (Z.to_nat (i + 1)) with (S (Z.to_nat i)) by lia. reflexivity.
  - intros i Hi. rewrite !G by lia. cbn [bind]. cbn zeta. now destruct (fst (snd (zn host rows (i + 1)))).
Qed.

(** ** The lines *)
Section Lines.
Context {D : Type} {ND : Num D}.
Variables (fsqrt : D -> D) (isnan : D -> bool) (grid : list D) (span : vec3 Z) (cw : D) (units : Z -> vec3 D).
Variables (ext : vec3 D -> list D * list D).
Hypothesis EX : forall k, 0 <= k -> extract_line fsqrt isnan grid span (units k) cw = Ok (Some (ext (units k))).

Lemma lines_exact : forall m fuel profs att, 0 <= att -> (m <= fuel)%nat ->
  line_profiles fsqrt isnan fuel grid span (zlen profs + Z.of_nat m) cw units att profs =
    Ok (profs ++ map (fun k => (units (att + k), fst (ext (units (att + k))), snd (ext (units (att + k))))) (zseq (Z.of_nat m)), att + Z.of_nat m).
Proof using EX.
  induction m as [|m IH]; intros fuel profs att A L.
  - cbn [Z.of_nat]. rewrite !Z.add_0_r. destruct fuel; cbn [line_profiles]; rewrite Z.eqb_refl; cbn; now rewrite app_nil_r.
  - destruct fuel as [|fuel]; [lia|]. cbn [line_profiles]. replace (zlen profs =? zlen profs + Z.of_nat (S m)) with false by lia.
    rewrite EX by exact A. cbn [bind]. destruct (ext (units att)) as [rs rhos] eqn:EE.
    replace (zlen profs + Z.of_nat (S m)) with (zlen (profs ++ [(units att, rs, rhos)]) + Z.of_nat m) by (rewrite zlen_app; cbn; lia).
    rewrite IH by lia. f_equal. f_equal; [|lia].
    rewrite <- app_assoc. f_equal. unfold zseq. rewrite !Nat2Z.id. cbn [seq map app].
    rewrite Z.add_0_r, EE. cbn [fst snd]. f_equal. rewrite <- seq_shift, !map_map. apply map_ext. intros k.
    replace (att + Z.of_nat (S k)) with (att + 1 + Z.of_nat k) by lia. reflexivity.
Qed.
End Lines.

Section Out.
Variables (isnan : R -> bool) (nan : R) (s : Z) (grid : list R) (cw : R).
Hypotheses (S0 : 0 <= s) (HG : zlen grid = s * s * s).

Lemma axis_ok fuel rnd axis used : (Z.to_nat 1000 <= fuel)%nat ->
  (forall p, 0 <= p < 1000 -> (0 < length2 (cube_point (fun i => rnd (used + 3 * p + i)%Z) axis))%R) ->
  exists profs lines, axis_lines sqrt isnan fuel grid (V3 s s s) cw rnd axis used = Ok (profs, used + 3000) /\
    print_data nan profs = Ok lines /\ profile_lines s grid cw nan (fun i => rnd (used + i)) axis lines.
Proof using S0 HG.
  intros HF HU.
  set (un := fun k => random_unit sqrt (rnd (used + 3 * k)) (rnd (used + 3 * k + 1)) (rnd (used + 3 * k + 2)) axis).
  set (units := fun k => if (0 <=? k) && (k <? 1000) then un k else V3 1%R 0%R 0%R).
  assert (ND : forall k, length2 (vget (units k)) = 1%R).
  { intros k. unfold units. destruct ((0 <=? k) && (k <? 1000)) eqn:EK.
    - destruct (unit_ok (fun i => rnd (used + 3 * k + i)) axis) as (q & _ & _ & Q).
      + apply HU. lia.
      + rewrite Z.add_0_r in Q. exact Q.
    - unfold length2, vget. cbn. lra. }
  set (ext := fun u => match extract_line sqrt isnan grid (V3 s s s) u cw with Ok (Some p) => p | _ => ([], []) end).
  assert (CU : forall k, let u := units k in let m := ex_m u in let p := ext u in
    longest (vget u) m /\ extract_line sqrt isnan grid (V3 s s s) u cw = Ok (Some p) /\
    zlen (snd p) = zlen (fst p) /\ (s / 2 - 1 <= zlen (fst p) <= s / 2)%Z /\ (Z.odd s = true -> zlen (fst p) = (s / 2)%Z) /\
    forall j, (0 <= j < zlen (fst p))%Z -> let t := (IZR j / Rabs (vget u m))%R in
      zn 0%R (fst p) j = (t * cw)%R /\ zn 0%R (snd p) j = line_density (fun _ => s) grid (vget u) m t).
  { intros k u m p. destruct (line_cube_major isnan s grid u cw S0 HG (ND k)) as (rs & rhos & A & B & C & E & F & _ & G).
    fold m in A, G. unfold p, ext. rewrite B. cbn [fst snd]. auto 10. }
  assert (LP : line_profiles sqrt isnan fuel grid (V3 s s s) 1000 cw un 0 [] =
    Ok (map (fun k => (units k, fst (ext (units k)), snd (ext (units k)))) (zseq 1000), 1000)).
  { assert (SW : forall m f profs att, 0 <= att -> att + Z.of_nat m = 1000 -> zlen profs = att ->
      line_profiles sqrt isnan f grid (V3 s s s) 1000 cw un att profs = line_profiles sqrt isnan f grid (V3 s s s) 1000 cw units att profs).
    { induction m as [|m IH]; intros f profs att A0 A1 A2.
      - destruct f; cbn [line_profiles]; replace (zlen profs =? 1000) with true by lia; reflexivity.
      - destruct f as [|f]; cbn [line_profiles]; replace (zlen profs =? 1000) with false by lia; [reflexivity|].
        assert (EU : un att = units att) by (unfold units; replace ((0 <=? att) && (att <? 1000)) with true by lia; reflexivity).
        rewrite EU. destruct (CU att) as (_ & E & _). rewrite E. cbn [bind]. destruct (ext (units att)) as [a b].
        apply IH; try lia. rewrite zlen_app. cbn. lia. }
    rewrite (SW (Z.to_nat 1000) fuel [] 0) by (rewrite ?Z2Nat.id; try lia; reflexivity).
    pose proof (lines_exact sqrt isnan grid (V3 s s s) cw units ext (fun k _ => proj1 (proj2 (CU k))) (Z.to_nat 1000) fuel [] 0 (Z.le_refl 0) HF) as Q.
    rewrite Z2Nat.id in Q by lia. exact Q. }
  set (profs := map (fun k => (units k, fst (ext (units k)), snd (ext (units k)))) (zseq 1000)) in *.
  assert (LZ : zlen (zseq 1000) = 1000) by (apply ProfileB.zlen_zseq; lia).
  set (rs := map (fun p : vec3 R * list R * list R => snd (fst p)) profs).
  set (rhos := map snd profs).
  assert (Lrs : zlen rs = 1000) by (unfold rs, profs; rewrite !zlen_map; exact LZ).
  assert (Lrhos : zlen rhos = 1000) by (unfold rhos, profs; rewrite !zlen_map; exact LZ).
  assert (ZS : forall k, 0 <= k < 1000 -> zn 0 (zseq 1000) k = k).
  { intros k Hk. unfold zseq, zn. rewrite (nth_indep _ 0 (Z.of_nat 0)) by (rewrite map_length, seq_length; lia).
    rewrite map_nth, seq_nth by lia. lia. }
  assert (Zrs : forall k, 0 <= k < 1000 -> zn [] rs k = fst (ext (units k))).
  { intros k Hk. unfold rs, profs. rewrite map_map. cbn [fst snd]. rewrite (zn_map (fun k => fst (ext (units k))) 0) by lia. now rewrite ZS. }
  assert (Zrhos : forall k, 0 <= k < 1000 -> zn [] rhos k = snd (ext (units k))).
  { intros k Hk. unfold rhos, profs. rewrite map_map. cbn [fst snd]. rewrite (zn_map (fun k => snd (ext (units k))) 0) by lia. now rewrite ZS. }
  destruct (print_ok 0%R rs rhos) as (rows & EP & R1 & R2 & R3); [lia|lia| |].
  { intros p Hp. rewrite Lrs in Hp. rewrite Zrs, Zrhos by exact Hp. apply CU. }
  rewrite Lrs in R1, R2, R3.
  exists profs, (print_vecs nan (map (fun p => fst (fst p)) profs) ++ rows).
  split.
  { unfold axis_lines. fold un. rewrite LP. cbn [bind]. reflexivity. }
  split.
  { unfold print_data. fold rs rhos. rewrite EP. reflexivity. }
  exists (fun p => vget (units p)), (fun p => ex_m (units p)), rows.
  split.
  { unfold profs. rewrite !map_map. reflexivity. }
  split.
  { intros p Hp. split; [apply ND|]. split; [apply CU|].
    destruct (unit_ok (fun i => rnd (used + 3 * p + i)) axis (HU p Hp)) as (q & Q0 & Q1 & _).
    exists q. split; [exact Q0|]. intros i Hi. unfold units. replace ((0 <=? p) && (p <? 1000)) with true by lia.
    unfold un. specialize (Q1 i Hi). rewrite Z.add_0_r in Q1. rewrite Q1.
    unfold cube_point. rewrite ?Z.add_assoc. reflexivity. }
  change (Z.of_nat (length rows)) with (zlen rows).
  destruct R2 as (p0 & P0 & EQ). rewrite Zrs in EQ by exact P0.
  split; [rewrite EQ; apply CU|]. split; [intros OD; rewrite EQ; now apply CU|].
  intros j row HR.
  assert (HJ : 0 <= Z.of_nat j < zlen rows).
  { assert (j < length rows)%nat by (apply nth_error_Some; congruence). unfold zlen. lia. }
  destruct (R3 (Z.of_nat j) HJ) as [LR VR].
  assert (ER : zn [] rows (Z.of_nat j) = row) by (unfold zn; rewrite Nat2Z.id; now apply nth_error_nth).
  rewrite ER in LR, VR.
  apply (list_ext (0%R, 0%R)).
  - rewrite zlen_map, LR, LZ. reflexivity.
  - intros p Hp. rewrite LR in Hp. rewrite VR by exact Hp. rewrite (zn_map _ 0) by lia. rewrite ZS by exact Hp.
    rewrite Zrs, Zrhos by exact Hp. destruct (CU p) as (_ & _ & _ & _ & _ & V).
    destruct (V (Z.of_nat j)) as [V1 V2]; [pose proof (R1 p Hp) as Q; rewrite Zrs in Q by exact Hp; lia|].
    rewrite V1, V2, INR_IZR_INZ. reflexivity.
Qed.
End Out.

(** ** main *)
Theorem profile_run (isnan : R -> bool) (nan : R) (of64 of32 : Z -> R) (rnd : Z -> R) q words c r l s n host subs fuel :
  let L := of64 (ci_boxWidth c) in let cw := of64 (li_pixelWidth l) in let o := li_pixelOrigin l in
  typed_out q c r l -> Forall (bits 32) words -> li_pixelSpan l = V3 s s s -> zlen words = s * s * s -> zlen words < 2 ^ 63 ->
  (0 < cw)%R -> L = (IZR n * cw)%R -> 0 < s <= n -> v0 o <= n -> v1 o <= n -> v2 o <= n ->
  Forall (apart3 L cw n o) (map snd subs) ->
  (forall k p, 0 <= k < 4 -> 0 <= p < 1000 -> (0 < length2 (cube_point (fun i => rnd (3000 * k + (3 * p + i))%Z) (k - 1)))%R) ->
  (Z.to_nat 1000 <= fuel)%nat ->
  exists file g out, write_buffer q (FScalar words) c r l = Ok file /\
    profile_main sqrt isnan nan of64 of32 fuel 4 (Good (columns (host :: subs))) file rnd = Ok out /\
    cut_out L cw s o (map snd subs) nan (map of32 words) g /\ zlen out = 4 /\
    forall k, 0 <= k < 4 -> profile_lines s g cw nan (fun i => rnd (3000 * k + i)) (k - 1) (zn [] out k).
Proof.
  intros L cw o T W SP ZL ZB C EL S0 O0 O1 O2 AP RND HF.
  assert (PX : zlen words = pixels l) by (unfold pixels; rewrite SP; exact ZL).
  destruct (grid_round_trip q words c r l T W PX ZB) as (file & flag & EW & _ & EH & EG).
  assert (N : 0 < n) by lia.
  destruct (cut_all L cw nan n s o C EL N ltac:(lia) O0 O1 O2 (map snd subs) (map of32 words) AP) as (g & ER & CG);
    [rewrite zlen_map; exact ZL|].
  assert (ZG : zlen g = s * s * s) by (destruct CG as [LG _]; rewrite map_length in LG; unfold zlen in *; lia).
  assert (AX : forall k, 0 <= k < 4 -> exists profs lines, axis_lines sqrt isnan fuel g (V3 s s s) cw rnd (k - 1) (3000 * k) = Ok (profs, 3000 * (k + 1)) /\
    print_data nan profs = Ok lines /\ profile_lines s g cw nan (fun i => rnd (3000 * k + i)) (k - 1) lines).
  { intros k Hk. destruct (axis_ok isnan nan s g cw ltac:(lia) ZG fuel rnd (k - 1) (3000 * k) HF) as (profs & lines & E1 & E2 & E3).
    - intros p Hp. pose proof (RND k p Hk Hp) as Q. unfold length2, cube_point in *. rewrite !Z.add_assoc in Q. exact Q.
    - exists profs, lines. replace (3000 * (k + 1)) with (3000 * k + 3000) by ring. auto. }
  destruct (AX 0 ltac:(lia)) as (l0 & o0 & A0 & P0 & F0).
  destruct (AX 1 ltac:(lia)) as (l1 & o1 & A1 & P1 & F1).
  destruct (AX 2 ltac:(lia)) as (l2 & o2 & A2 & P2 & F2).
  destruct (AX 3 ltac:(lia)) as (l3 & o3 & A3 & P3 & F3).
  change (3000 * (0 + 1)) with 3000 in A0. change (3000 * 0) with 0 in A0. change (0 - 1) with (-1) in A0.
  change (3000 * (1 + 1)) with 6000 in A1. change (3000 * 1) with 3000 in A1. change (1 - 1) with 0 in A1.
  change (3000 * (2 + 1)) with 9000 in A2. change (3000 * 2) with 6000 in A2. change (2 - 1) with 1 in A2.
  change (3000 * 3) with 9000 in A3. change (3 - 1) with 2 in A3.
  destruct (radii_real (V3 s s s) cw) as (rad & ERAD & _); [cbn; lia|cbn; lia|cbn; lia|lra|].
  assert (RN : round (L / cw)%num = n).
  { assert (EQ : (L / cw)%num = IZR n) by (change (L / cw)%num with (L / cw)%R; rewrite EL; field; lra).
    rewrite EQ. pose proof (round_ok (IZR n)) as Q.
    assert (A : (IZR (round (IZR n)) < IZR (n + 1))%R) by (rewrite plus_IZR; lra).
    assert (B : (IZR n < IZR (round (IZR n) + 1))%R) by (rewrite plus_IZR; lra).
    apply lt_IZR in A. apply lt_IZR in B. lia. }
  exists file, g, [o0; o1; o2; o3]. split; [exact EW|]. split.
  - unfold profile_main. cbn [Z.eqb Pos.eqb negb].
    rewrite subhalos_ok. cbn [bind]. rewrite EH, EG. cbn [bind header_of gh_loc gh_cosmo].
    fold cw L o. rewrite RN, SP.
    rewrite (remove_ids nan cw L (CB o (V3 s s s)) n _ (map (fun q => PHalo 0 (fst q) (snd q)) (map snd subs)))
      by (rewrite !map_map; reflexivity).
    rewrite ER. cbn [bind Geom.width]. rewrite ERAD. cbn [bind]. rewrite A0. cbn [bind]. rewrite A1. cbn [bind].
    rewrite A2. cbn [bind]. rewrite A3. cbn [bind]. rewrite P0, P1, P2, P3. reflexivity.
  - split; [exact CG|]. split; [reflexivity|]. intros k Hk.
    assert (K : k = 0 \/ k = 1 \/ k = 2 \/ k = 3) by lia. destruct K as [-> | [-> | [-> | ->]]]; assumption.
Qed.

(** A subhalo that reaches over the end of the box stops the run. *)
Theorem profile_crosses (isnan : R -> bool) (nan : R) (of64 of32 : Z -> R) (rnd : Z -> R) q words c r l host fuel :
  typed_out q c r l -> Forall (bits 32) words -> zlen words = 64 ->
  li_pixelSpan l = V3 4 4 4 -> li_pixelOrigin l = V3 0 0 0 -> of64 (ci_boxWidth c) = 10%R -> of64 (li_pixelWidth l) = 1%R ->
  exists file, write_buffer q (FScalar words) c r l = Ok file /\
    profile_main sqrt isnan nan of64 of32 fuel 4 (Good (columns [host; (1, (V3 (1 / 2) (1 / 2) (99 / 10), 1 / 4))%R])) file rnd = Panic.
Proof.
  intros T W ZL SP OR BW PW.
  assert (PX : zlen words = pixels l) by (unfold pixels; rewrite SP; exact ZL).
  destruct (grid_round_trip q words c r l T W PX) as (file & flag & EW & _ & EH & EG); [rewrite ZL; reflexivity|].
  exists file. split; [exact EW|]. unfold profile_main. cbn [Z.eqb Pos.eqb negb].
  rewrite subhalos_ok. cbn [bind]. rewrite EH, EG. cbn [bind header_of gh_loc gh_cosmo map fst snd].
  rewrite BW, PW, SP, OR. cbn [remove_subhalos ph_pos ph_r].
  assert (RN : round (ndiv 10%R 1%R) = 10).
  { assert (EQ : ndiv 10%R 1%R = 10%R) by (change (ndiv 10 1)%R with (10 / 1)%R; lra). rewrite EQ.
    pose proof (round_ok 10%R) as Q.
    assert (A : (IZR (round 10%R) < IZR 11)%R) by lra. assert (B : (IZR 9 < IZR (round 10%R))%R) by lra.
    apply lt_IZR in A. apply lt_IZR in B. lia. }
  rewrite RN.
  assert (B1 : sphere_bounds1 (1 / 2)%R (1 / 4)%R 1%R 10%R = (0, 1)).
  { unfold sphere_bounds1. rn. rewrite Rlt_bool_false by lra. rewrite Rlt_bool_false by lra.
    rewrite !Ztrunc_floor by lra. rewrite (Zfloor_imp 0) by (cbn; lra). rewrite (Zfloor_imp 0) by (cbn; lra). reflexivity. }
  assert (B2 : sphere_bounds1 (99 / 10)%R (1 / 4)%R 1%R 10%R = (9, 2)).
  { unfold sphere_bounds1. rn. rewrite Rlt_bool_false by lra. rewrite Rlt_bool_false by lra.
    rewrite !Ztrunc_floor by lra. rewrite (Zfloor_imp 9) by (cbn; lra). rewrite (Zfloor_imp 10) by (cbn; lra). reflexivity. }
  assert (SB : sphere_bounds (V3 (1 / 2) (1 / 2) (99 / 10))%R (1 / 4)%R 1%R 10%R = CB (V3 0 0 9) (V3 1 1 2)).
  { unfold sphere_bounds. cbn [vget v0 v1 v2 Z.eqb Pos.eqb]. cbn [vget]. rewrite !B1, !B2. reflexivity. }
  rewrite SB. clear SB B1 B2 RN.
  assert (PN : remove_subhalo (CB (V3 0 0 0) (V3 4 4 4)) (CB (V3 0 0 9) (V3 1 1 2)) nan 10 (map of32 words) = Panic).
  { unfold remove_subhalo. cbn [origin Geom.width v0 v1 v2 vmap2].
    rewrite (for_step 9) by reflexivity. change (bounds_inside 0 4 9 10) with false. cbn [negb bind].
    rewrite (for_step (9 + 1)) by reflexivity. change (bounds_inside 0 4 (9 + 1) 10) with true. cbn [negb].
    rewrite (for_step 0) by reflexivity. change (bounds_inside 0 4 0 10) with true. cbn [negb].
    rewrite (for_step 0) by reflexivity. cbn [negb].
    rewrite set_panic; [reflexivity|]. rewrite zlen_map, ZL. unfold convert_index. cbn. lia. }
  rewrite PN. reflexivity.
Qed.

(** Wrong calls. *)
Theorem profile_stops isnan nan of64 of32 fuel file (rnd : Z -> R) :
  let run nargs table := profile_main sqrt isnan nan of64 of32 fuel nargs table file rnd in
  (forall nargs table, nargs <> 4 -> run nargs table = Fatal) /\ run 4 Err = Fatal /\ run 4 (Good (columns [])) = Panic /\
  (forall rows, rows <> [] -> (length file < 344)%nat -> run 4 (Good (columns rows)) = Fatal) /\
  (forall rows q words c r l, rows <> [] -> typed_out q c r l -> zlen words < pixels l -> pixels l < 2 ^ 63 ->
     write_buffer q (FScalar words) c r l = Ok file -> run 4 (Good (columns rows)) = Fatal).
Proof.
  intros run. split; [|split; [reflexivity|split; [reflexivity|split]]].
  - intros nargs table H. unfold run, profile_main. replace (nargs =? 4) with false by lia. reflexivity.
  - intros [|host subs] N HL; [congruence|]. unfold run, profile_main. cbn [Z.eqb Pos.eqb negb].
    rewrite subhalos_ok. cbn [bind]. unfold read_grid_header. rewrite read_full_short; [reflexivity| |unfold grid_size; lia].
    unfold grid_size. lia.
  - intros [|host subs] q words c r l N T HP HM EW; [congruence|].
    destruct (projected_unreadable q words c r l T HP HM) as (file' & EW' & ER). rewrite EW in EW'. injection EW' as <-.
    unfold run, profile_main. cbn [Z.eqb Pos.eqb negb]. rewrite subhalos_ok. cbn [bind]. rewrite ER. cbn [bind].
    now destruct (read_grid_header file).
Qed.
