(** Lines through the box: extractLine. *)
From Coq Require Import ZArith List Bool Lia Reals Lra Psatz ZifyBool ZifyNat.
From Flocq Require Import Core.Raux.
From Verif Require Import Base.Res Base.ResFacts Base.Num Model.Geom Model.GridDeriv Model.Profile Spec.Lines.
Import ListNotations.
Open Scope Z_scope.
Open Scope res_scope.

Section Loop.
Context {D : Type} {ND : Num D}.
Variables (fsqrt : D -> D) (isnan : D -> bool) (d : D).
Variables (grid : list D) (span mult : vec3 Z) (center slope : vec3 D) (fw : bool) (cw : D).

Definition dxp (j : Z) : D := if fw then nofZ j else nopp (nofZ j).
Definition xp (j : Z) : vec3 D :=
  V3 (v0 center + dxp j)%num (v1 center + dxp j * v1 slope)%num (v2 center + dxp j * v2 slope)%num.
Definition stop (j : Z) : bool :=
  let i0 := ntrunc (v0 (xp j)) in let i1 := ntrunc (v1 (xp j)) in let i2 := ntrunc (v2 (xp j)) in
  (i0 <? 0) || (i1 <? 0) || (i2 <? 0) || (i0 + 1 >=? v0 span) || (i1 + 1 >=? v1 span) || (i2 + 1 >=? v2 span).
Definition rad (j : Z) : D :=
  (fsqrt (dxp j * dxp j + dxp j * v1 slope * (dxp j * v1 slope) + dxp j * v2 slope * (dxp j * v2 slope)) * cw)%num.
Definition rho (j : Z) : D :=
  let i0 := ntrunc (v0 (xp j)) in let i1 := ntrunc (v1 (xp j)) in let i2 := ntrunc (v2 (xp j)) in
  let d1 := (v1 (xp j) - #i1)%num in let d2 := (v2 (xp j) - #i2)%num in
  let t1 := (#1 - d1)%num in let t2 := (#1 - d2)%num in
  let g a b := zn d grid (i0 * v0 mult + (i1 + a) * v1 mult + (i2 + b) * v2 mult) in
  (g 0 0 * t1 * t2 + g 0 1 * t1 * d2 + g 1 0 * d1 * t2 + g 1 1 * d1 * d2)%num.

Lemma line_loop_spec : (forall i0 i1 i2, 0 <= i0 < v0 span -> 0 <= i1 < v1 span -> 0 <= i2 < v2 span ->
    0 <= i0 * v0 mult + i1 * v1 mult + i2 * v2 mult < zlen grid) ->
  forall k j rs rhos, 0 <= j -> zlen rs = j + Z.of_nat k -> zlen rhos = j + Z.of_nat k ->
  exists n rs' rhos', line_loop fsqrt isnan k grid span mult center slope fw cw false j j rs rhos = Ok (Some (n, rs', rhos')) /\
    j <= n <= j + Z.of_nat k /\ zlen rs' = zlen rs /\ zlen rhos' = zlen rhos /\
    (forall i, 0 <= i < j -> zn d rs' i = zn d rs i /\ zn d rhos' i = zn d rhos i) /\
    (forall i, j <= i < n -> stop i = false /\ zn d rs' i = rad i /\ zn d rhos' i = rho i) /\
    (n = j + Z.of_nat k \/ stop n = true).
Proof.
  intros HG. induction k as [|k IH]; intros j rs rhos Hj H1 H2.
  - exists j, rs, rhos. cbn [line_loop]. split; [reflexivity|]. split; [lia|]. split; [reflexivity|]. split; [reflexivity|].
    split; [intros; split; reflexivity|]. split; [intros; lia|left; lia].
  - cbn [line_loop]. fold (dxp j).
    change (v0 center + dxp j)%num with (v0 (xp j)).
    change (v1 center + dxp j * v1 slope)%num with (v1 (xp j)).
    change (v2 center + dxp j * v2 slope)%num with (v2 (xp j)).
    fold (stop j). destruct (stop j) eqn:Es.
    + exists j, rs, rhos. split; [reflexivity|]. split; [lia|]. split; [reflexivity|]. split; [reflexivity|].
      split; [intros; split; reflexivity|]. split; [intros; lia|right; exact Es].
    + assert (Hr : 0 <= ntrunc (v0 (xp j)) < v0 span - 1 /\ 0 <= ntrunc (v1 (xp j)) < v1 span - 1 /\
                   0 <= ntrunc (v2 (xp j)) < v2 span - 1).
      { unfold stop in Es. revert Es.
        generalize (ntrunc (v0 (xp j))) (ntrunc (v1 (xp j))) (ntrunc (v2 (xp j))). intros; lia. }
      destruct Hr as [R0 [R1 R2]].
      rewrite (get_ok d) by (apply HG; lia). cbn [bind].
      rewrite (get_ok d) by (apply HG; lia). cbn [bind].
      rewrite (get_ok d) by (apply HG; lia). cbn [bind].
      rewrite (get_ok d) by (apply HG; lia). cbn [bind].
      rewrite andb_false_r.
      rewrite set_ok by lia. cbn [bind]. rewrite set_ok by lia. cbn [bind].
      set (rs1 := upd rs _ _). set (rhos1 := upd rhos _ _).
      destruct (IH (j + 1) rs1 rhos1) as (n & rs' & rhos' & E & Hn & L1 & L2 & Hold & Hnew & Hend);
        [lia|unfold rs1; rewrite zlen_upd; lia|unfold rhos1; rewrite zlen_upd; lia|].
      exists n, rs', rhos'. split; [exact E|]. split; [lia|].
      split; [rewrite L1; unfold rs1; apply zlen_upd|]. split; [rewrite L2; unfold rhos1; apply zlen_upd|].
      split.
      * intros i Hi. destruct (Hold i) as [A B]; [lia|]. rewrite A, B. unfold rs1, rhos1.
        rewrite !zn_upd_neq by lia. split; reflexivity.
      * split.
        -- intros i Hi. destruct (Z.eq_dec i j) as [-> | Hne].
           ++ destruct (Hold j) as [A B]; [lia|]. rewrite A, B. unfold rs1, rhos1.
              rewrite !zn_upd_eq by lia. split; [exact Es|]. split; [reflexivity|]. unfold rho.
              rewrite ?Z.add_0_r. reflexivity.
           ++ apply Hnew. lia.
        -- destruct Hend; [left; lia|right; assumption].
Qed.
End Loop.

Lemma cell_index a b c x y z : 0 <= x < a -> 0 <= y < b -> 0 <= z < c -> 0 <= x + y * a + z * (a * b) < a * b * c.
Proof.
  intros Hx Hy Hz. assert (0 <= x + y * a < a * b) by nia. set (p := x + y * a) in *. set (q := a * b) in *. nia.
Qed.

Lemma major_cases {D} {ND : Num D} (u : vec3 D) : major_axis u = 0 \/ major_axis u = 1 \/ major_axis u = 2.
Proof. unfold major_axis. destruct (nltb _ (nabs (v2 u))); [auto|]. destruct (nltb _ (nabs (v1 u))); auto. Qed.

Definition turn (m : Z) : Z -> Z := fun k => Z.rem (m + k) 3.
Definition mulf (span : vec3 Z) (m : Z) : Z := if m =? 0 then 1 else if m =? 1 then v0 span else v0 span * v1 span.

Section Extract.
Context {D : Type} {ND : Num D}.
Variables (fsqrt : D -> D) (isnan : D -> bool) (d : D).
Variables (grid : list D) (span : vec3 Z) (unit : vec3 D) (cw : D).

Definition ex_m : Z := major_axis unit.
Definition ex_span : vec3 Z := V3 (vget span ex_m) (vget span (turn ex_m 1)) (vget span (turn ex_m 2)).
Definition ex_mult : vec3 Z := V3 (mulf span ex_m) (mulf span (turn ex_m 1)) (mulf span (turn ex_m 2)).
Definition ex_center : vec3 D := V3 (#(v0 span) / #2)%num (#(v1 span) / #2)%num (#(v2 span) / #2)%num.
Definition ex_slope : vec3 D :=
  V3 (nofZ 1) (vget unit (turn ex_m 1) / vget unit ex_m)%num (vget unit (turn ex_m 2) / vget unit ex_m)%num.
Definition ex_fw : bool := negb (nltb (vget unit ex_m) (nofZ 0)).
Definition ex_stop := stop ex_span ex_center ex_slope ex_fw.
Definition ex_rad := rad fsqrt ex_slope ex_fw cw.
Definition ex_rho := rho d grid ex_mult ex_center ex_slope ex_fw.

(** Every line gives a result, whatever the arithmetic does. *)
Lemma extract_spec : 0 <= v0 span -> 0 <= v1 span -> 0 <= v2 span -> zlen grid = v0 span * v1 span * v2 span ->
  exists rs rhos, extract_line fsqrt isnan grid span unit cw = Ok (Some (rs, rhos)) /\ zlen rhos = zlen rs /\
    zlen rs <= vget span ex_m / 2 /\
    (forall i, 0 <= i < zlen rs -> ex_stop i = false /\ zn d rs i = ex_rad i /\ zn d rhos i = ex_rho i) /\
    (zlen rs = vget span ex_m / 2 \/ ex_stop (zlen rs) = true).
Proof.
  intros H0 H1 H2 HL. unfold extract_line. fold ex_m.
  assert (Hm : ex_m = 0 \/ ex_m = 1 \/ ex_m = 2) by apply major_cases.
  assert (Hg : forall m, m = 0 \/ m = 1 \/ m = 2 -> grid_mult span m = Ok (mulf span m)) by (intros m [-> | [-> | -> ]]; reflexivity).
  assert (Ht : forall k, k = 1 \/ k = 2 -> turn ex_m k = 0 \/ turn ex_m k = 1 \/ turn ex_m k = 2).
  { unfold turn. destruct Hm as [-> | [-> | -> ]]; intros k [-> | -> ]; cbn; auto. }
  change (Z.rem (ex_m + 1) 3) with (turn ex_m 1). change (Z.rem (ex_m + 2) 3) with (turn ex_m 2).
  rewrite (Hg _ Hm), (Hg _ (Ht 1 (or_introl eq_refl))), (Hg _ (Ht 2 (or_intror eq_refl))). cbn [bind].
  assert (Hsp : 0 <= vget span ex_m) by (destruct Hm as [-> | [-> | -> ]]; cbn; lia).
  set (len := Z.quot (vget span ex_m) 2).
  assert (Hlen : len = vget span ex_m / 2) by (apply Z.quot_div_nonneg; lia).
  assert (H0len : 0 <= len) by (rewrite Hlen; apply Z.div_pos; lia).
  replace (len <? 0) with false by lia.
  fold ex_span ex_mult ex_center ex_slope ex_fw.
  destruct (line_loop_spec fsqrt isnan d grid ex_span ex_mult ex_center ex_slope ex_fw cw) with
    (k := Z.to_nat len) (j := 0) (rs := repeat (nofZ 0) (Z.to_nat len)) (rhos := repeat (nofZ 0) (Z.to_nat len))
    as (n & rs' & rhos' & EL & Hn & L1 & L2 & _ & Hnew & Hend); [|lia|rewrite zlen_repeat; lia|rewrite zlen_repeat; lia|].
  { unfold ex_span, ex_mult. cbn [v0 v1 v2]. intros i0 i1 i2. rewrite HL. unfold turn. clear Hg Ht Hlen H0len len Hsp.
    destruct Hm as [-> | [-> | -> ]]; cbn; intros Hi0 Hi1 Hi2;
    first [pose proof (cell_index _ _ _ _ _ _ Hi0 Hi1 Hi2); lia|pose proof (cell_index _ _ _ _ _ _ Hi2 Hi0 Hi1); lia|pose proof (cell_index _ _ _ _ _ _ Hi1 Hi2 Hi0); lia]. }
  rewrite EL. cbn [bind]. rewrite zlen_repeat in L1, L2. rewrite !slice_ok by lia. cbn [bind].
  do 2 eexists. split; [reflexivity|]. rewrite !zlen_slice by lia. rewrite !Z.sub_0_r.
  split; [reflexivity|]. split; [lia|]. split.
  - intros i Hi. rewrite !zn_firstn by lia. change (skipn (Z.to_nat 0) ?l) with l. apply Hnew. lia.
  - destruct Hend as [Hend|Hend]; [left; lia|right; exact Hend].
Qed.
End Extract.
