(** Tetrahedra and sheets that are skipped do not reach the box. *)
From Coq Require Import ZArith List Bool Reals Lra Lia ZifyBool ZifyNat.
From Flocq Require Import Core.Raux.
From Verif Require Import Base.Res Base.ResFacts Base.Num Model.Geom Model.GridDeriv Model.Box Model.Render.
From Verif Require Import Spec.Geometry Spec.GeomDefs.
From Verif Require Import Proof.GridP Proof.GeomR.
Import ListNotations.
Open Scope Z_scope.

(** The test along one axis, also for origins outside the grid. *)
Lemma axis_near L oS wS oB wB :
  0 < L -> 0 < wS <= wB -> wB <= L -> oS + wS - oB <= 2 * L -> (wS < wB \/ oS - oB < L) ->
  share L oS wS oB wB ->
  (bound (oS + wS) oB L <? wB) || (bound oS oB L <? wB) = true.
Proof.
  intros HL HW HB2 H1 H2 (a & b & Ha & Hb & [k E]). unfold in_range in *.
  apply orb_true_iff. rewrite !Z.ltb_lt. unfold bound; cbv zeta.
  destruct (Z.ltb_spec (oS - oB) (- L)) as [A|A].
  { right. destruct (Z.ltb_spec (oS - oB) 0); lia. }
  assert (K : k = -1 \/ k = 0 \/ k = 1).
  { assert (-2 * L < k * L) by lia. assert (k * L < 2 * L) by lia. nia. }
  assert (KL : a = b - L \/ a = b \/ a = b + L) by (destruct K as [-> | [-> | ->]]; lia). clear E K.
  destruct (Z.ltb_spec (oS + wS - oB) 0), (Z.ltb_spec (oS - oB) 0);
  destruct (Z.gtb_spec (oS + wS - oB) L), (Z.gtb_spec (oS - oB) L); lia.
Qed.

Lemma intersect_axis_near L o1 w1 o2 w2 :
  0 < L -> 0 < w1 <= L -> 0 < w2 <= L -> o1 + w1 - o2 <= 2 * L -> o2 + w2 - o1 <= 2 * L -> o2 - o1 < L ->
  share L o1 w1 o2 w2 -> intersect_axis o1 w1 o2 w2 L = true.
Proof.
  intros. unfold intersect_axis. destruct (Z.ltb_spec w1 w2).
  - apply axis_near; auto; lia.
  - apply axis_near; auto; try lia. now apply share_sym.
Qed.

(** One axis of the bounds of a tetrahedron whose corners lie in [lo, hi). *)
Lemma tetra_axis_near L lo hi o2 w2 (a b c d : R) (x : R) k :
  0 < L -> hi - lo <= L -> 0 < w2 <= L -> hi - o2 <= 2 * L -> o2 + w2 - lo <= 2 * L -> o2 - lo < L ->
  (IZR lo <= a < IZR hi)%R -> (IZR lo <= b < IZR hi)%R -> (IZR lo <= c < IZR hi)%R -> (IZR lo <= d < IZR hi)%R ->
  (Rmin (Rmin a b) (Rmin c d) <= x <= Rmax (Rmax a b) (Rmax c d))%R ->
  o2 <= k < o2 + w2 -> cong L (Zfloor x) k ->
  intersect_axis (fst (cell_bounds1 (NF := RNum) a b c d 1%R)) (snd (cell_bounds1 (NF := RNum) a b c d 1%R)) o2 w2 L = true.
Proof.
  intros HL H1 H2 H3 H4 H5 Ha Hb Hc Hd Hx Hk Hcong.
  destruct (cell_bounds1_ok a b c d 1 ltac:(lra)) as (G1 & (x1 & X1 & C1) & (x2 & X2 & C2) & Hw).
  set (o := fst (cell_bounds1 (NF := RNum) a b c d 1%R)) in *. set (w := snd (cell_bounds1 (NF := RNum) a b c d 1%R)) in *.
  unfold in_cell in *. rewrite !Rmult_1_r in *.
  assert (R1 : (IZR lo <= x1 < IZR hi)%R) by (destruct X1 as [-> |[-> |[-> | ->]]]; auto).
  assert (R2 : (IZR lo <= x2 < IZR hi)%R) by (destruct X2 as [-> |[-> |[-> | ->]]]; auto).
  assert (lo <= o).
  { assert (lo < o + 1); [|lia]. apply lt_IZR. rewrite plus_IZR. lra. }
  assert (o + w <= hi).
  { assert (o + w - 1 < hi); [|lia]. apply lt_IZR. lra. }
  apply intersect_axis_near; auto; try lia.
  exists (Zfloor x), k. split; [|split; auto]. apply (G1 x); [exact Hx|].
  rewrite ?Rmult_1_r. split; [apply Zfloor_lb|]. apply Zfloor_ub.
Qed.
