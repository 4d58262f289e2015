(** Scaled coordinates of sheets. *)
From Coq Require Import ZArith List Bool Reals Lra Lia ZifyBool ZifyNat.
From Flocq Require Import Core.Raux.
From Verif Require Import Base.Res Base.ResFacts Base.Num Model.Geom Model.GridDeriv Model.Box Model.Render Model.SheetIO Model.Manager.
From Verif Require Import Spec.Geometry Spec.GeomDefs Spec.Fields Spec.FieldDefs Spec.Work Spec.Deposits Spec.Renders.
Import ListNotations.
Open Scope R_scope.
Ltac rn := cbn [nadd nsub nmul ndiv nopp nabs nltb nleb neqb nofZ ntrunc nfloor RNum] in *.

Lemma floor_bounds x : IZR (Zfloor x) <= x < IZR (Zfloor x) + 1.
Proof. split; [apply Zfloor_lb|]. replace (IZR (Zfloor x) + 1) with (IZR (Zfloor x + 1)) by (rewrite plus_IZR; reflexivity).
  rewrite plus_IZR. apply Zfloor_ub. Qed.

Lemma floor_add x k : Zfloor (x + IZR k) = (Zfloor x + k)%Z.
Proof.
  apply Zfloor_imp. rewrite !plus_IZR. pose proof (floor_bounds x). lra.
Qed.

Section Axis.
Variables (L : R) (cells : Z).
Hypothesis HL : 0 < L.
Hypothesis Hc : (2 <= cells)%Z.
Let s := IZR cells / L.

Lemma s_pos : 0 < s.
Proof. apply Rdiv_lt_0_compat; auto. apply (IZR_lt 0). lia. Qed.
Lemma s_L : L * s = IZR cells.
Proof. unfold s. field. lra. Qed.
Lemma div_cw x : x / (L / IZR cells) = x * s.
Proof. unfold s. assert (IZR cells <> 0) by (apply not_0_IZR; lia). field. split; lra. Qed.

Variables (o w x X : R).
Hypothesis Ho : 0 <= o < L.
Hypothesis Hw : 0 <= w < L / 2.
Hypothesis Hx : 0 <= x < L.
Hypothesis HX : o <= X <= o + w.
Hypothesis HC : rcong L X x.
Let org := Zfloor (o * s).
Let wid := (1 + Zfloor ((o + w) * s) - org)%Z.

Lemma org_range : (0 <= org < cells)%Z.
Proof.
  pose proof s_pos as Hs. pose proof s_L as HsL. unfold org. split.
  - apply Zfloor_lub. simpl. apply Rmult_le_pos; lra.
  - apply lt_IZR. apply Rle_lt_trans with (o * s); [apply Zfloor_lb|]. rewrite <- HsL. apply Rmult_lt_compat_r; lra.
Qed.

Lemma wid_range : (1 <= wid)%Z /\ (2 * wid < cells + 4)%Z.
Proof.
  pose proof s_pos as Hs. pose proof s_L as HsL. unfold wid, org.
  pose proof (floor_bounds (o * s)) as F1. pose proof (floor_bounds ((o + w) * s)) as F2.
  assert (M1 : 0 <= w * s) by (apply Rmult_le_pos; lra).
  assert (M2 : 2 * (w * s) < IZR cells).
  { rewrite <- HsL. replace (2 * (w * s)) with (2 * w * s) by ring. apply Rmult_lt_compat_r; lra. }
  rewrite Rmult_plus_distr_r in F2.
  split.
  - assert (Zfloor (o * s) <= Zfloor ((o + w) * s))%Z; [|lia]. apply Zfloor_le. lra.
  - apply lt_IZR. rewrite mult_IZR, minus_IZR, !plus_IZR, Rmult_plus_distr_r. simpl (IZR 2). simpl (IZR 1). simpl (IZR 4). lra.
Qed.

(** A scaled coordinate counts from the first cell of the sheet. *)
Lemma scale_segment_axis : scale_segment1 (NF := RNum) org cells L x = X * s - IZR org /\
  0 <= X * s - IZR org < IZR wid.
Proof.
  pose proof s_pos as Hs. pose proof s_L as HsL.
  pose proof (floor_bounds (o * s)) as F1. pose proof (floor_bounds ((o + w) * s)) as F2. fold org in F1.
  assert (B1 : o * s <= X * s) by (apply Rmult_le_compat_r; lra).
  assert (B2 : X * s <= (o + w) * s) by (apply Rmult_le_compat_r; lra).
  assert (W : 0 <= X * s - IZR org < IZR wid).
  { unfold wid. rewrite minus_IZR, plus_IZR. simpl (IZR 1). lra. }
  split; [|exact W].
  unfold scale_segment1. rn. fold s. destruct HC as [k Hk].
  assert (K : k = 0%Z \/ k = 1%Z).
  { assert (-1 < k)%Z. { apply lt_IZR. apply Rmult_lt_reg_r with L; [lra|]. simpl (IZR (-1)). lra. }
    assert (k < 2)%Z. { apply lt_IZR. apply Rmult_lt_reg_r with L; [lra|]. simpl (IZR 2). lra. } lia. }
  destruct K as [-> | ->].
  - assert (EX : x = X) by lra. rewrite EX. rewrite Rlt_bool_false by lra. reflexivity.
  - assert (EX : x = X - L) by lra. rewrite EX. rewrite Rmult_minus_distr_r, HsL.
    assert (C2 : 2 <= IZR cells) by (apply (IZR_le 2); lia).
    assert (M : w * s < IZR cells / 2).
    { replace (IZR cells / 2) with (L / 2 * s) by (rewrite <- HsL; field). apply Rmult_lt_compat_r; lra. }
    rewrite Rmult_plus_distr_r in B2. rewrite Rlt_bool_true by lra. lra.
Qed.

Lemma domain_diff_ok v c : (0 <= v < cells)%Z -> (0 <= c < cells)%Z ->
  exists e : Z, domain_diff (F := R) (NF := RNum) v c cells = IZR (v - c + e * cells) /\
    (- cells <= 2 * (v - c + e * cells) <= cells)%Z.
Proof.
  intros Hv Hcc. unfold domain_diff. rn.
  destruct (Rlt_bool_spec (IZR (v - c)) (- IZR cells / 2)) as [A|A].
  - exists 1%Z. rewrite Z.mul_1_l, (plus_IZR (v - c)). split; [auto|].
    assert (2 * (v - c) < - cells)%Z; [|lia]. apply lt_IZR. rewrite mult_IZR, opp_IZR. simpl (IZR 2). lra.
  - destruct (Rlt_bool_spec (IZR cells / 2) (IZR (v - c))) as [B|B].
    + exists (-1)%Z. replace (v - c + -1 * cells)%Z with (v - c - cells)%Z by lia. rewrite (minus_IZR (v - c)). split; [auto|].
      assert (cells < 2 * (v - c))%Z; [|lia]. apply lt_IZR. rewrite mult_IZR. simpl (IZR 2). lra.
    + exists 0%Z. rewrite Z.mul_0_l, Z.add_0_r. split; [auto|].
      assert (- cells <= 2 * (v - c))%Z by (apply le_IZR; rewrite mult_IZR, opp_IZR; simpl (IZR 2); lra).
      assert (2 * (v - c) <= cells)%Z by (apply le_IZR; rewrite mult_IZR; simpl (IZR 2); lra). lia.
Qed.
End Axis.

Lemma bary_point_mix (t : tetra R) b p : bary_point (NF := RNum) t b p = mix p (c0 t) (c1 t) (c2 t) (c3 t).
Proof. unfold bary_point, mix. rn. f_equal; ring. Qed.

(** The same affine map of every coordinate. *)
Definition affine (k : R) (t x : vec3 R) : vec3 R := V3 (k * v0 x + v0 t) (k * v1 x + v1 t) (k * v2 x + v2 t).
Lemma mix_affine k t u a b c d :
  mix u (affine k t a) (affine k t b) (affine k t c) (affine k t d) = affine k t (mix u a b c d).
Proof. unfold mix, affine. cbn [v0 v1 v2]. f_equal; ring. Qed.
