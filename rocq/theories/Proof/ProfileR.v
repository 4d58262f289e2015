(** extractLine on a cube, in exact arithmetic. *)
From Coq Require Import ZArith List Bool Lia Reals Lra Psatz ZifyBool ZifyNat.
From Flocq Require Import Core.Raux.
From Verif Require Import Base.Res Base.ResFacts Base.Num Model.Geom Model.GridDeriv Model.Profile Spec.Lines Proof.ProfileL.
Import ListNotations.
Open Scope R_scope.

Definition norm2 (u : vec3 R) : R := v0 u * v0 u + v1 u * v1 u + v2 u * v2 u.

Lemma Rlt_bool_cases x y : (Rlt_bool x y = true /\ x < y) \/ (Rlt_bool x y = false /\ y <= x).
Proof. destruct (Rlt_bool_spec x y); auto. Qed.

Lemma major_longest (u : vec3 R) : longest (vget u) (ex_m u).
Proof.
  unfold ex_m, major_axis, longest. cbn [nabs nltb RNum].
  change (vget u 0) with (v0 u).
  destruct (Rlt_bool_cases (Rabs (v0 u)) (Rabs (v1 u))) as [[-> A] | [-> A]];
  [change (vget u 1) with (v1 u) | change (vget u 0) with (v0 u)];
  match goal with |- context [Rlt_bool ?a ?b] => destruct (Rlt_bool_cases a b) as [[-> B] | [-> B]] end;
  (split; [lia|]; intros i Hi; assert (Hi' : (i = 0 \/ i = 1 \/ i = 2)%Z) by lia;
   destruct Hi' as [-> | [-> | -> ]]; change (vget u 0) with (v0 u); change (vget u 1) with (v1 u); change (vget u 2) with (v2 u); lra).
Qed.

Lemma longest_pos (u : vec3 R) m : norm2 u = 1 -> longest (vget u) m -> 0 < Rabs (vget u m).
Proof.
  intros N [Hm H]. destruct (Rle_lt_dec (Rabs (vget u m)) 0) as [Hz|]; [|assumption]. exfalso.
  assert (Z0 : forall i, (0 <= i < 3)%Z -> vget u i = 0).
  { intros i Hi. specialize (H i Hi). pose proof (Rabs_pos (vget u i)).
    assert (E : Rabs (vget u i) = 0) by lra. revert E. unfold Rabs. destruct (Rcase_abs (vget u i)); lra. }
  pose proof (Z0 0%Z) as A. pose proof (Z0 1%Z) as B. pose proof (Z0 2%Z) as C.
  change (vget u 0) with (v0 u) in A. change (vget u 1) with (v1 u) in B. change (vget u 2) with (v2 u) in C.
  unfold norm2 in N. rewrite A, B, C in N by lia. lra.
Qed.

Section Cube.
Variables (isnan : R -> bool) (s : Z) (grid : list R) (u : vec3 R) (cw : R).
Hypothesis Hs : (0 <= s)%Z.
Hypothesis HL : zlen grid = (s * s * s)%Z.
Hypothesis HN : norm2 u = 1.
Let span := V3 s s s.
Let m := ex_m u.
Let w : Z -> Z := fun _ => s.
Definition dist (j : Z) : R := IZR j / Rabs (vget u m).

Lemma m_cases : (m = 0 \/ m = 1 \/ m = 2)%Z.
Proof. apply major_cases. Qed.
Lemma um_pos : 0 < Rabs (vget u m).
Proof. apply longest_pos; [exact HN|apply major_longest]. Qed.

Lemma dxp_eq j : dxp (ex_fw u) j = dist j * vget u m.
Proof.
  pose proof um_pos as P. unfold dxp, ex_fw, dist. fold m. cbn [nltb nofZ nopp RNum].
  destruct (Rlt_bool_cases (vget u m) 0) as [[-> A] | [-> A]]; cbn [negb]; revert P; unfold Rabs; destruct (Rcase_abs (vget u m)); intros P; try lra; field; lra.
Qed.

Lemma slope_eq j k : (k = 1 \/ k = 2)%Z ->
  dxp (ex_fw u) j * (vget u (turn m k) / vget u m) = dist j * vget u (turn m k).
Proof.
  intros _. rewrite dxp_eq. pose proof um_pos as P. field. intros E. rewrite E, Rabs_R0 in P. lra.
Qed.

Lemma vget_span i : vget span i = s.
Proof. unfold vget, span. destruct (i =? 0)%Z; [reflexivity|]. destruct (i =? 1)%Z; reflexivity. Qed.

Lemma xp_eq j : xp (ex_center span) (ex_slope u) (ex_fw u) j =
  V3 (on_line w (vget u) (dist j) m) (on_line w (vget u) (dist j) (turn m 1)) (on_line w (vget u) (dist j) (turn m 2)).
Proof.
  unfold xp, ex_center, ex_slope, on_line. cbn [v0 v1 v2 nadd nmul ndiv nofZ RNum]. fold m. unfold span; cbn [v0 v1 v2].
  rewrite !slope_eq by auto. rewrite dxp_eq. reflexivity.
Qed.

Lemma turn_next : turn m 1 = next_axis m /\ turn m 2 = last_axis m.
Proof. unfold turn, next_axis, last_axis. destruct m_cases as [-> | [-> | -> ]]; split; reflexivity. Qed.

Lemma coord_bound j i : (0 <= j)%Z -> (0 <= i < 3)%Z -> Rabs (dist j * vget u i) <= IZR j.
Proof.
  intros Hj Hi. destruct (major_longest u) as [_ H]. specialize (H i Hi). fold m in H. pose proof um_pos as P.
  assert (0 <= IZR j) by (apply IZR_le; lia).
  rewrite Rabs_mult. unfold dist. rewrite Rabs_right.
  - apply Rle_trans with (IZR j / Rabs (vget u m) * Rabs (vget u m)); [|right; field; lra].
    apply Rmult_le_compat_l; [|exact H]. apply Rmult_le_pos; [lra|]. left. apply Rinv_0_lt_compat. exact P.
  - apply Rle_ge. apply Rmult_le_pos; [lra|]. left. apply Rinv_0_lt_compat. exact P.
Qed.

Lemma axis_range : (0 <= m < 3 /\ 0 <= turn m 1 < 3 /\ 0 <= turn m 2 < 3)%Z.
Proof. unfold turn. destruct m_cases as [-> | [-> | -> ]]; cbn; lia. Qed.

Lemma floor_trunc x : 0 <= x -> Ztrunc x = Zfloor x.
Proof. intros H. unfold Ztrunc. rewrite Rlt_bool_false by lra. reflexivity. Qed.

(** Points up to half of the box width stay on the grid. *)
Lemma on_grid j i : (0 <= j)%Z -> (0 <= i < 3)%Z -> IZR j <= IZR s / 2 -> 0 <= on_line w (vget u) (dist j) i <= IZR s / 2 + IZR j.
Proof.
  intros Hj Hi Hle. pose proof (coord_bound j i Hj Hi) as B. apply Rabs_le_inv in B. unfold on_line, w. lra.
Qed.

Lemma no_stop j : (0 <= j)%Z -> IZR s / 2 + IZR j < IZR s - 1 -> ex_stop span u j = false.
Proof.
  intros Hj Hlt. unfold ex_stop, stop. rewrite xp_eq. cbn [v0 v1 v2]. unfold ex_span. rewrite !vget_span. cbn [v0 v1 v2].
  destruct axis_range as [A0 [A1 A2]].
  assert (K : forall i, (0 <= i < 3)%Z -> (0 <= ntrunc (on_line w (vget u) (dist j) i) /\ ntrunc (on_line w (vget u) (dist j) i) + 1 < s)%Z).
  { intros i Hi. destruct (on_grid j i Hj Hi) as [B1 B2]; [assert (0 <= IZR j) by (apply IZR_le; lia); lra|].
    cbn [ntrunc RNum]. rewrite floor_trunc by exact B1. split.
    - apply Zfloor_lub. exact B1.
    - apply lt_IZR. rewrite plus_IZR. pose proof (Zfloor_lb (on_line w (vget u) (dist j) i)). lra. }
  pose proof (K _ A0). pose proof (K _ A1). pose proof (K _ A2). fold m.
  revert H H0 H1. generalize (ntrunc (on_line w (vget u) (dist j) m)) (ntrunc (on_line w (vget u) (dist j) (turn m 1))) (ntrunc (on_line w (vget u) (dist j) (turn m 2))).
  clear. intros; lia.
Qed.

Lemma stop_last j : (0 <= j)%Z -> 0 < vget u m -> IZR s / 2 + IZR j >= IZR s - 1 -> ex_stop span u j = true.
Proof.
  intros Hj Hp Hge. unfold ex_stop, stop. rewrite xp_eq. cbn [v0 v1 v2]. unfold ex_span. rewrite !vget_span. cbn [v0 v1 v2].
  assert (E : on_line w (vget u) (dist j) m = IZR s / 2 + IZR j).
  { unfold on_line, w, dist. pose proof um_pos as P. rewrite Rabs_right in * by lra. field. lra. }
  fold m. rewrite E.
  assert (K : (ntrunc (IZR s / 2 + IZR j)%R + 1 >= s)%Z).
  { cbn [ntrunc RNum]. rewrite floor_trunc by (assert (0 <= IZR s) by (apply IZR_le; lia); assert (0 <= IZR j) by (apply IZR_le; lia); lra).
    assert (s - 1 <= Zfloor (IZR s / 2 + IZR j)%R)%Z by (apply Zfloor_lub; rewrite minus_IZR; lra). lia. }
  revert K. generalize (ntrunc (IZR s / 2 + IZR j)) (ntrunc (on_line w (vget u) (dist j) (turn m 1))) (ntrunc (on_line w (vget u) (dist j) (turn m 2))).
  clear. intros; lia.
Qed.

Lemma rad_eq j : (0 <= j)%Z -> ex_rad sqrt u cw j = dist j * cw.
Proof.
  intros Hj. unfold ex_rad, rad. unfold ex_slope; cbn [v0 v1 v2 nadd nmul ndiv RNum]. fold m.
  rewrite !slope_eq by auto. rewrite dxp_eq.
  set (t := dist j).
  assert (Ht : 0 <= t).
  { unfold t, dist. apply Rmult_le_pos; [apply IZR_le; lia|]. left. apply Rinv_0_lt_compat, um_pos. }
  replace (_ + _ + _) with (t * t).
  - rewrite sqrt_square by exact Ht. reflexivity.
  - assert (E : vget u m * vget u m + vget u (turn m 1) * vget u (turn m 1) + vget u (turn m 2) * vget u (turn m 2) = 1).
    { rewrite <- HN. unfold norm2, turn. destruct m_cases as [-> | [-> | -> ]]; cbn; ring. }
    transitivity (t * t * 1); [ring|]. rewrite <- E. ring.
Qed.

Lemma zn_nth i : zn 0 grid i = nth (Z.to_nat i) grid 0.
Proof. reflexivity. Qed.

Lemma rho_eq j : (0 <= j)%Z -> IZR j <= IZR s / 2 -> ex_rho 0 grid span u j = line_density w grid (vget u) m (dist j).
Proof.
  intros Hj Hle. unfold ex_rho, rho. rewrite xp_eq. cbn [v0 v1 v2 nadd nsub nmul ntrunc nofZ RNum].
  destruct axis_range as [A0 [A1 A2]].
  rewrite !floor_trunc by (apply on_grid; assumption).
  unfold line_density, bilinear. destruct turn_next as [<- <-]. unfold ex_mult. fold m. cbn [v0 v1 v2].
  set (p := on_line w (vget u) (dist j)).
  set (i0 := Zfloor (p m)). set (i1 := Zfloor (p (turn m 1))). set (i2 := Zfloor (p (turn m 2))).
  assert (C : forall a b, zn 0 grid (i0 * mulf span m + (i1 + a) * mulf span (turn m 1) + (i2 + b) * mulf span (turn m 2))%Z =
              cell_value w grid (place m i0 (i1 + a) (i2 + b))).
  { intros a b. unfold cell_value, place, zn, w, mulf, turn, next_axis. f_equal. f_equal. unfold span; cbn [v0 v1].
    clear. destruct m_cases as [E | [E | E]]; rewrite E; cbn; lia. }
  rewrite !C. rewrite !Z.add_0_r. ring.
Qed.
End Cube.

Lemma line_cube_major (isnan : R -> bool) (s : Z) (grid : list R) (u : vec3 R) (cw : R) :
  (0 <= s)%Z -> zlen grid = (s * s * s)%Z -> norm2 u = 1 ->
  let m := ex_m u in exists rs rhos, longest (vget u) m /\ extract_line sqrt isnan grid (V3 s s s) u cw = Ok (Some (rs, rhos)) /\
    zlen rhos = zlen rs /\ (s / 2 - 1 <= zlen rs <= s / 2)%Z /\ (Z.odd s = true -> zlen rs = (s / 2)%Z) /\
    (Z.even s = true -> (0 < s)%Z -> 0 < vget u m -> zlen rs = (s / 2 - 1)%Z) /\
    forall j, (0 <= j < zlen rs)%Z -> let t := IZR j / Rabs (vget u m) in
      nth (Z.to_nat j) rs 0 = t * cw /\ nth (Z.to_nat j) rhos 0 = line_density (fun _ => s) grid (vget u) m t.
Proof.
  intros Hs HL HN m. subst m.
  destruct (extract_spec sqrt isnan 0 grid (V3 s s s) u cw) as (rs & rhos & E & L & Hle & Hv & Hend); try exact Hs; try exact HL.
  rewrite vget_span in Hle, Hend. exists rs, rhos.
  split; [apply major_longest|]. split; [exact E|]. split; [exact L|].
  pose proof (zlen_nonneg rs) as Hn0.
  assert (Hdiv : (2 * (s / 2) <= s < 2 * (s / 2) + 2)%Z) by (pose proof (Z.div_mod s 2 ltac:(lia)); pose proof (Z.mod_pos_bound s 2 ltac:(lia)); lia).
  assert (Hodd : Z.odd s = true -> s = (2 * (s / 2) + 1)%Z).
  { intros O. rewrite (Z.div_mod s 2) at 1 by lia. rewrite Zmod_odd, O. lia. }
  assert (Heven : Z.even s = true -> s = (2 * (s / 2))%Z).
  { intros O. rewrite (Z.div_mod s 2) at 1 by lia. rewrite Zmod_odd. rewrite <- Z.negb_odd in O. destruct (Z.odd s); [discriminate|lia]. }
  assert (K : ex_stop (V3 s s s) u (zlen rs) = true -> (s - 1 <= zlen rs + zlen rs + 1)%Z).
  { intros St. destruct (Z_lt_le_dec (zlen rs + zlen rs + 1) (s - 1)) as [Hlt|]; [|lia]. exfalso.
    rewrite (no_stop isnan s u cw HN) in St; [discriminate|lia|].
    assert (H : IZR (zlen rs + zlen rs + 1) < IZR (s - 1)) by (apply IZR_lt; exact Hlt).
    rewrite !plus_IZR, minus_IZR in H. lra. }
  assert (K' : ex_stop (V3 s s s) u (zlen rs) = true -> Z.odd s = true -> (s <= zlen rs + zlen rs + 2)%Z).
  { intros St _. destruct (Z_lt_le_dec (zlen rs + zlen rs + 2) s) as [Hlt|]; [|lia]. exfalso.
    rewrite (no_stop isnan s u cw HN) in St; [discriminate|lia|].
    assert (H : IZR (zlen rs + zlen rs + 2) < IZR s) by (apply IZR_lt; exact Hlt).
    rewrite !plus_IZR in H. lra. }
  split; [destruct Hend as [Hend|Hend]; [lia|]|].
  { pose proof (K Hend). destruct (Z.odd s) eqn:O; [specialize (Hodd eq_refl); lia|].
    assert (Z.even s = true) by (rewrite <- Z.negb_odd, O; reflexivity). specialize (Heven H0). 
    lia. }
  split.
  { intros O. destruct Hend as [Hend|Hend]; [exact Hend|]. pose proof (K' Hend O). specialize (Hodd O). lia. }
  split.
  { intros O Hs0 Hp. specialize (Heven O).
    assert (Hlt : (zlen rs <= s / 2 - 1)%Z).
    { destruct (Z_lt_le_dec (s / 2 - 1) (zlen rs)) as [Hlt|]; [|lia]. exfalso.
      destruct (Hv (s / 2 - 1)%Z) as [St _]; [lia|].
      rewrite (stop_last isnan s u cw Hs HN) in St; [discriminate|lia|exact Hp|].
      rewrite minus_IZR. assert (H : IZR s = 2 * IZR (s / 2)) by (rewrite <- mult_IZR; f_equal; exact Heven). lra. }
    destruct Hend as [Hend|Hend]; [lia|]. pose proof (K Hend). lia. }
  intros j Hj t. destruct (Hv j Hj) as [_ [R1 R2]].
  change (nth (Z.to_nat j) rs 0) with (zn 0 rs j). change (nth (Z.to_nat j) rhos 0) with (zn 0 rhos j).
  rewrite R1, R2. split; [apply (rad_eq isnan s u cw HN); lia|]. apply (rho_eq isnan s grid u cw HN); [lia|].
  assert (IZR (2 * j) <= IZR s) by (apply IZR_le; lia). rewrite mult_IZR in H. lra.
Qed.

Theorem line_cube (isnan : R -> bool) (s : Z) (grid : list R) (u : vec3 R) (cw : R) :
  (0 <= s)%Z -> zlen grid = (s * s * s)%Z -> norm2 u = 1 ->
  exists m rs rhos, longest (vget u) m /\ extract_line sqrt isnan grid (V3 s s s) u cw = Ok (Some (rs, rhos)) /\
    zlen rhos = zlen rs /\ (s / 2 - 1 <= zlen rs <= s / 2)%Z /\ (Z.odd s = true -> zlen rs = (s / 2)%Z) /\
    (Z.even s = true -> (0 < s)%Z -> 0 < vget u m -> zlen rs = (s / 2 - 1)%Z) /\
    forall j, (0 <= j < zlen rs)%Z -> let t := IZR j / Rabs (vget u m) in
      nth (Z.to_nat j) rs 0 = t * cw /\ nth (Z.to_nat j) rhos 0 = line_density (fun _ => s) grid (vget u) m t.
Proof. intros Hs HL HN. exists (ex_m u). exact (line_cube_major isnan s grid u cw Hs HL HN). Qed.
