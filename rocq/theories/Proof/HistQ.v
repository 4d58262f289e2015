(** Periodic intervals, bounding boxes of cubes, pixels. *)
From Coq Require Import ZArith Reals List Lia Lra Bool Psatz.
From Coq Require Import ZifyBool ZifyNat.
From Flocq Require Import Core.Raux.
From Verif Require Import Base.Res Base.ResFacts Base.Stride Base.Num Model.Geom Model.GridDeriv Model.Hist Model.Render
  Spec.Histograms Spec.HistDefs Spec.Geometry Spec.GeomDefs Spec.Work Proof.GeomR Proof.StrideP Proof.WorkP Proof.HistP.
Import ListNotations.
Open Scope R_scope.

Local Notation idR := (fun x : R => x).

(** ** Intervals *)
Lemma IZR_between k a b L : 0 < L -> IZR a * L < IZR k * L < IZR b * L -> (a < k < b)%Z.
Proof.
  intros HL [H1 H2]. split; apply lt_IZR; eapply Rmult_lt_reg_r; eauto.
Qed.

Lemma contains1D_iff a span b L : 0 < L -> 0 <= a < L -> 0 <= span <= L -> 0 <= b < 2 * L ->
  contains1D a span b L = true <-> strictly_in L a span b.
Proof.
  intros HL Ha Hs Hb. unfold contains1D; rn. unfold strictly_in.
  set (b' := if Rle_bool L b then b - L else b).
  assert (B : 0 <= b' < L /\ exists m : Z, b = b' + IZR m * L).
  { unfold b'. destruct (Rle_bool_spec L b); (split; [lra|]); [exists 1%Z|exists 0%Z]; cbn; lra. }
  destruct B as [B (m & Em)]. clearbody b'.
  rewrite orb_true_iff, !andb_true_iff.
  assert (T : forall x y, Rlt_bool x y = true <-> x < y) by (intros x y; destruct (Rlt_bool_spec x y); split; intros; try discriminate; auto; lra).
  rewrite !T. split.
  - intros [[H1 H2]|[H1 H2]].
    + exists (- m)%Z. rewrite opp_IZR. lra.
    + exists (1 - m)%Z. rewrite minus_IZR. lra.
  - intros (k & H1 & H2). subst b.
    assert (E : b' + IZR m * L + IZR k * L = b' + IZR (m + k) * L) by (rewrite plus_IZR; ring). rewrite E in *.
    set (j := (m + k)%Z) in *. clearbody j.
    assert (J : (-1 < j < 2)%Z) by (apply IZR_between with (L := L); auto; split; lra).
    assert (j = 0 \/ j = 1)%Z as [-> | ->] by lia; [left|right]; lra.
Qed.

Lemma contains1D_false a span b L : 0 < L -> 0 <= a < L -> 0 <= span <= L -> 0 <= b < 2 * L ->
  contains1D a span b L = false <-> ~ strictly_in L a span b.
Proof.
  intros. rewrite <- contains1D_iff by auto. destruct (contains1D a span b L); split; congruence.
Qed.

Lemma arcs_starts L a aS b bS : 0 < L -> 0 <= a < L -> 0 <= b < L -> arcs_overlap L a aS b bS ->
  a = b \/ strictly_in L a aS b \/ strictly_in L b bS a.
Proof.
  intros HL Ha Hb (x & (k & Hk) & (m & Hm)).
  destruct (Rtotal_order (x + IZR k * L - a) (x + IZR m * L - b)) as [H|[H|H]].
  - right. right. exists (m - k)%Z. rewrite minus_IZR. lra.
  - left. assert (E : a = b + IZR (k - m) * L) by (rewrite minus_IZR; lra).
    assert (J : (-1 < k - m < 1)%Z) by (apply IZR_between with (L := L); auto; split; lra).
    replace (k - m)%Z with 0%Z in E by lia. lra.
  - right. left. exists (k - m)%Z. rewrite minus_IZR. lra.
Qed.

Lemma arcs_start_in L a aS b bS : 0 < bS -> strictly_in L a aS b -> arcs_overlap L a aS b bS.
Proof.
  intros Hb (k & H1 & H2). set (e := Rmin bS (a + aS - b - IZR k * L) / 2).
  assert (E : 0 < e /\ e < bS /\ e < a + aS - b - IZR k * L).
  { unfold e. unfold Rmin. destruct (Rle_dec _ _); lra. }
  exists (b + e). split; [exists k; lra|exists 0%Z; lra].
Qed.
Lemma arcs_end_in L a aS b bS : 0 < bS -> strictly_in L a aS (b + bS) -> arcs_overlap L a aS b bS.
Proof.
  intros Hb (k & H1 & H2). set (e := Rmin bS (b + bS + IZR k * L - a) / 2).
  assert (E : 0 < e /\ e < bS /\ e < b + bS + IZR k * L - a).
  { unfold e. unfold Rmin. destruct (Rle_dec _ _); lra. }
  exists (b + bS - e). split; [exists k; lra|exists 0%Z; lra].
Qed.
Lemma arcs_sym L a aS b bS : arcs_overlap L a aS b bS -> arcs_overlap L b bS a aS.
Proof. intros (x & H1 & H2). exists x. auto. Qed.

Lemma same_arc_ends L a s : 0 < L -> 0 <= s <= L -> ~ strictly_in L a s a /\ ~ strictly_in L a s (a + s).
Proof.
  intros HL Hs. split; intros (k & H1 & H2).
  - assert (J : (0 < k < 1)%Z) by (apply IZR_between with (L := L); auto; split; lra). lia.
  - assert (J : (-1 < k < 0)%Z) by (apply IZR_between with (L := L); auto; split; lra). lia.
Qed.

Lemma intersect1D_iff a aS b bS L : 0 <= a < L -> 0 < aS <= L -> 0 <= b < L -> 0 < bS <= L ->
  intersect1D a aS b bS L = true <-> arcs_overlap L a aS b bS /\ ~ (a = b /\ aS = bS).
Proof.
  intros Ha HaS Hb HbS. unfold intersect1D. rn. assert (HL : 0 < L) by lra.
  rewrite !orb_true_iff, !contains1D_iff by lra. split.
  - intros H. split.
    + destruct H as [[[H|H]|H]|H].
      * apply arcs_start_in; auto; lra.
      * apply arcs_end_in; auto; lra.
      * apply arcs_sym, arcs_start_in; auto; lra.
      * apply arcs_sym, arcs_end_in; auto; lra.
    + intros [<- <-]. destruct (same_arc_ends L a aS HL) as [N1 N2]; [lra|]. tauto.
  - intros [H N]. destruct (arcs_starts _ _ _ _ _ HL Ha Hb H) as [E|[E|E]]; auto. subst b.
    destruct (Rtotal_order aS bS) as [K|[K|K]].
    + right. exists 0%Z. lra.
    + exfalso. auto.
    + left. left. right. exists 0%Z. lra.
Qed.

Lemma same_interval_missed L a s : 0 <= a < L -> 0 < s <= L ->
  arcs_overlap L a s a s /\ intersect1D a s a s L = false.
Proof.
  intros Ha Hs. split; [exists (a + s / 2); split; exists 0%Z; lra|].
  destruct (intersect1D a s a s L) eqn:E; auto. apply intersect1D_iff in E; auto. tauto.
Qed.

(** ** Bounding box of a cube *)
Lemma bound_step_self L x : 0 <= L -> bound_step (F := R) L x (x, 0) = (x, 0).
Proof.
  intros HL. unfold bound_step; rn.
  replace (x - x) with 0 by ring.
  rewrite (Rlt_bool_false (L / 2) 0), (Rlt_bool_false 0 (- L / 2)) by lra. cbv zeta iota.
  rewrite (Rlt_bool_false 0 0) by lra. reflexivity.
Qed.

Lemma stride_once {S} (body : Z -> S -> res S) skip s : (0 < skip)%Z -> stride 0 skip skip body s = body 0%Z s.
Proof.
  intros H. rewrite stride_for by auto. rewrite rounds_ceil by lia.
  replace ((skip + skip - 1) / skip)%Z with 1%Z.
  - unfold for_. change (Z.to_nat (1 - 0)) with 1%nat. cbn [for_n]. destruct (body _ s) eqn:E; cbn [bind]; rewrite <- E; f_equal; lia.
  - replace (skip + skip - 1)%Z with (skip - 1 + 1 * skip)%Z by lia. rewrite Z.div_add, Z.div_small by lia. reflexivity.
Qed.

Lemma get_same {A} (d : A) l i j : i = j -> (0 <= i < zlen l)%Z -> get l j = Ok (zn d l i).
Proof. intros <-. apply get_ok. Qed.

Lemma cube_bounding_box_ok (hd : hist_sheet R R) skip xs ix iy iz : let w := hs_grid hd in
  let i := (ix + iy * w + iz * w * w)%Z in
  0 <= hs_total hd -> (0 < skip)%Z -> (0 <= i < zlen xs)%Z ->
  cube_bounding_box idR hd skip xs ix iy iz = Ok (zn (V3 0 0 0) xs i, V3 0 0 0).
Proof.
  intros w i HL Hs Hi. unfold cube_bounding_box. fold w. fold i. rewrite (get_ok (V3 0 0 0)) by auto. cbn [bind].
  rewrite !stride_once by auto. rewrite (get_same (V3 0 0 0) xs i) by (auto; unfold i; lia). cbn [bind].
  set (v := zn (V3 0 0 0) xs i). unfold vget. cbn [Z.eqb v0 v1 v2 Pos.eqb]. rn. rewrite !bound_step_self by auto. cbn [fst snd].
  now destruct v.
Qed.

(** [get] and coordinates of a lattice index. *)
Lemma lattice_split w x y z : (0 <= x < w)%Z -> (0 <= y < w)%Z -> (0 <= z)%Z ->
  let i := lattice_index w (x, y, z) in
  (Z.rem i w = x /\ Z.rem (Z.quot i w) w = y /\ Z.quot i (w * w) = z /\ i = x + y * w + z * w * w /\ 0 <= i)%Z.
Proof.
  intros Hx Hy Hz. cbn -[Z.mul]. set (i := (x + w * (y + w * z))%Z).
  assert (Hi : (0 <= i)%Z) by (unfold i; nia).
  assert (E : (i = (y + w * z) * w + x)%Z) by (unfold i; ring).
  assert (D : (i / w = y + w * z)%Z) by (symmetry; apply (Z.div_unique _ _ _ x); [lia|unfold i; ring]).
  assert (M : (i mod w = x)%Z) by (symmetry; apply (Z.mod_unique _ _ (y + w * z)); [lia|unfold i; ring]).
  assert (Q : (0 <= y + w * z)%Z) by nia.
  rewrite Z.rem_mod_nonneg, Z.quot_div_nonneg by lia. rewrite D, M.
  rewrite Z.rem_mod_nonneg by lia. rewrite Z.quot_div_nonneg by nia.
  split; [auto|]. split; [symmetry; apply (Z.mod_unique _ _ z); [lia|ring]|].
  split; [|split; [unfold i; ring|auto]].
  rewrite <- Z.div_div by lia. rewrite D. symmetry. apply (Z.div_unique _ _ _ y); [lia|ring].
Qed.


Lemma intersect1D_point a aS b L : 0 <= a < L -> 0 <= aS <= L -> 0 <= b < L ->
  intersect1D a aS b 0 L = true <-> strictly_in L a aS b.
Proof.
  intros Ha HS Hb. unfold intersect1D; rn. rewrite Rplus_0_r. rewrite !orb_true_iff, !contains1D_iff by lra.
  split; [|tauto]. intros [[[H|H]|(k & H)]|(k & H)]; auto; lra.
Qed.

Lemma all3_true f : all3 f = true <-> forall k, (0 <= k < 3)%Z -> f k = true.
Proof.
  unfold all3. rewrite !andb_true_iff. split.
  - intros [[A B] C] k Hk. assert (k = 0 \/ k = 1 \/ k = 2)%Z as [->|[->| ->]] by lia; auto.
  - intros H. repeat split; apply H; lia.
Qed.

Lemma cube_intersects_ok (hd : hist_sheet R R) skip xs c :
  sheet_ok hd -> cube_room (hs_grid hd) skip c -> zlen xs = (hs_grid hd * hs_grid hd * hs_grid hd)%Z ->
  let base := zn (V3 0 0 0) xs (lattice_index (hs_grid hd) c) in
  in_box_R (hs_total hd) base ->
  exists b, cube_intersects idR idR hd skip xs (lattice_index (hs_grid hd) c) = Ok b /\
    (b = true <-> forall k, (0 <= k < 3)%Z -> strictly_in (hs_total hd) (vget (hs_origin hd) k) (vget (hs_width hd) k) (vget base k)).
Proof.
  intros HS HC HX. destruct c as [[x y] z]. cbn [cube_room] in HC. set (w := hs_grid hd) in *. intros base HB.
  assert (W1 : (w =? 0)%Z = false) by lia. assert (W2 : (w * w =? 0)%Z = false) by nia.
  assert (W3 : ((x <? 0) || (skip + x >=? w) || (y <? 0) || (skip + y >=? w) || (z <? 0) || (skip + z >=? w))%Z = false) by lia.
  assert (W4 : (0 < skip)%Z) by lia.
  assert (IR : (0 <= lattice_index w (x, y, z) < zlen xs)%Z) by (rewrite HX; cbn -[Z.mul]; clear - HC; nia).
  destruct (lattice_split w x y z ltac:(lia) ltac:(lia) ltac:(lia)) as (E1 & E2 & E3 & E4 & E5).
  set (i := lattice_index w (x, y, z)) in *.
  unfold cube_intersects. fold w. unfold rem, quot. rewrite W1, W2. cbn [bind]. rewrite E1, E2, E3, W3. clear E1 E2 E3.
  assert (HL : 0 <= hs_total hd) by (destruct (HS 0%Z ltac:(lia)); lra).
  pose proof (cube_bounding_box_ok hd skip xs x y z HL W4) as BB. cbv zeta in BB. fold w in BB. rewrite <- E4 in BB.
  rewrite BB by auto. fold base. cbn [bind]. eexists. split; [reflexivity|]. rewrite all3_true.
  assert (K : forall k, (0 <= k < 3)%Z -> intersect1D (vget (hs_origin hd) k) (vget (hs_width hd) k) (vget base k) (vget (V3 0 0 0) k) (hs_total hd) = true
     <-> strictly_in (hs_total hd) (vget (hs_origin hd) k) (vget (hs_width hd) k) (vget base k)).
  { intros k Hk. replace (vget (V3 0 0 0) k) with 0 by (unfold vget; destruct (k =? 0)%Z, (k =? 1)%Z; reflexivity).
    destruct (HS k Hk). apply intersect1D_point; auto. }
  split; intros H k Hk; apply K; auto.
Qed.

(** ** Witnesses *)
Definition corner_list (skip : Z) (far : vec3 R) : list (vec3 R) :=
  repeat (V3 0 0 0) (Z.to_nat ((skip + 1) * (skip + 1) * (skip + 1) - 1)) ++ [far].

Lemma corner_list_len skip far : (1 <= skip)%Z -> zlen (corner_list skip far) = ((skip + 1) * (skip + 1) * (skip + 1))%Z.
Proof.
  intros H. unfold corner_list, zlen. rewrite app_length, repeat_length. cbn [length].
  assert (1 <= (skip + 1) * (skip + 1) * (skip + 1))%Z by nia. lia.
Qed.
Lemma corner_list_base skip far : (1 <= skip)%Z -> zn (V3 0 0 0) (corner_list skip far) 0 = V3 0 0 0.
Proof.
  intros H. unfold corner_list, zn. change (Z.to_nat 0) with 0%nat.
  assert (1 <= Z.to_nat ((skip + 1) * (skip + 1) * (skip + 1) - 1))%nat by nia.
  destruct (Z.to_nat _) as [|m]; [lia|]. reflexivity.
Qed.
Lemma corner_list_far skip far : (1 <= skip)%Z ->
  zn (V3 0 0 0) (corner_list skip far) (lattice_index (skip + 1) (skip, skip, skip)) = far.
Proof.
  intros H. unfold corner_list, zn, lattice_index.
  replace (skip + (skip + 1) * (skip + (skip + 1) * skip))%Z with ((skip + 1) * (skip + 1) * (skip + 1) - 1)%Z by ring.
  rewrite app_nth2; rewrite repeat_length; [|lia]. now rewrite Nat.sub_diag.
Qed.
Lemma corner_list_all skip far (P : vec3 R -> Prop) : P (V3 0 0 0) -> P far -> Forall P (corner_list skip far).
Proof.
  intros H1 H2. unfold corner_list. apply Forall_app. split; [|auto]. apply Forall_forall. intros v Hv. now apply repeat_spec in Hv as ->.
Qed.

Definition cube_sheet (skip : Z) : hist_sheet R R := HS (V3 0 0 0) (V3 2 2 2) 10 (skip + 1) skip.

Lemma cube_box_bad skip : (1 <= skip)%Z ->
  exists (hd : hist_sheet R R) xs c corner o s, sheet_ok hd /\ Forall (in_box_R (hs_total hd)) xs /\ cube_room (hs_grid hd) skip c /\
    zlen xs = (hs_grid hd * hs_grid hd * hs_grid hd)%Z /\ cube_corner skip c corner /\
    (let '(x, y, z) := c in cube_bounding_box idR hd skip xs x y z = Ok (o, s)) /\
    ~ exists m : Z, vget o 0 <= vget (zn (V3 0 0 0) xs (lattice_index (hs_grid hd) corner)) 0 + IZR m * hs_total hd <= vget o 0 + vget s 0.
Proof.
  intros H. exists (cube_sheet skip), (corner_list skip (V3 1 1 1)), (0, 0, 0)%Z, (skip, skip, skip), (V3 0 0 0), (V3 0 0 0).
  split. { intros k Hk. assert (k = 0 \/ k = 1 \/ k = 2)%Z as [->|[->| ->]] by lia; cbn; lra. }
  split. { apply corner_list_all; intros k Hk; assert (k = 0 \/ k = 1 \/ k = 2)%Z as [->|[->| ->]] by lia; cbn; lra. }
  split; [cbn [cube_room hs_grid cube_sheet]; lia|]. split; [rewrite corner_list_len by auto; reflexivity|].
  split; [cbn [cube_corner]; lia|]. split.
  - rewrite cube_bounding_box_ok; [|cbn; lra|lia|rewrite corner_list_len by auto; cbn -[Z.mul]; nia].
    cbn [hs_grid cube_sheet]. now replace (0 + 0 * (skip + 1) + 0 * (skip + 1) * (skip + 1))%Z with 0%Z by ring; rewrite corner_list_base by auto.
  - cbn [hs_grid hs_total cube_sheet]. rewrite corner_list_far by auto. cbn. intros (m & Hm).
    assert (IZR m * 10 = -1) by lra. assert (E : IZR (m * 10) = IZR (-1)) by (rewrite mult_IZR; lra). apply eq_IZR in E. lia.
Qed.

Lemma cube_dropped skip : (1 <= skip)%Z ->
  exists (hd : hist_sheet R R) xs c, sheet_ok hd /\ cube_room (hs_grid hd) skip c /\
    zlen xs = (hs_grid hd * hs_grid hd * hs_grid hd)%Z /\
    Forall (fun v => forall k, (0 <= k < 3)%Z -> vget (hs_origin hd) k <= vget v k <= vget (hs_origin hd) k + vget (hs_width hd) k) xs /\
    (exists corner, cube_corner skip c corner /\ forall k, (0 <= k < 3)%Z ->
       strictly_in (hs_total hd) (vget (hs_origin hd) k) (vget (hs_width hd) k) (vget (zn (V3 0 0 0) xs (lattice_index (hs_grid hd) corner)) k)) /\
    cube_intersects idR idR hd skip xs (lattice_index (hs_grid hd) c) = Ok false.
Proof.
  intros H. exists (cube_sheet skip), (corner_list skip (V3 1 1 1)), (0, 0, 0)%Z.
  assert (SO : sheet_ok (cube_sheet skip)) by (intros k Hk; assert (k = 0 \/ k = 1 \/ k = 2)%Z as [->|[->| ->]] by lia; cbn; lra).
  assert (CR : cube_room (hs_grid (cube_sheet skip)) skip (0, 0, 0)%Z) by (cbn [cube_room hs_grid cube_sheet]; lia).
  assert (ZL : zlen (corner_list skip (V3 1 1 1)) = (hs_grid (cube_sheet skip) * hs_grid (cube_sheet skip) * hs_grid (cube_sheet skip))%Z) by (rewrite corner_list_len by auto; reflexivity).
  split; [exact SO|]. split; [exact CR|]. split; [exact ZL|].
  split. { apply corner_list_all; intros k Hk; assert (k = 0 \/ k = 1 \/ k = 2)%Z as [->|[->| ->]] by lia; cbn; lra. }
  split.
  - exists (skip, skip, skip). split; [cbn [cube_corner]; lia|]. intros k Hk. cbn [hs_grid cube_sheet]. rewrite corner_list_far by auto.
    exists 0%Z. assert (k = 0 \/ k = 1 \/ k = 2)%Z as [->|[->| ->]] by lia; cbn; lra.
  - assert (E : lattice_index (hs_grid (cube_sheet skip)) (0, 0, 0)%Z = 0%Z) by (cbn [lattice_index]; ring).
    destruct (cube_intersects_ok (cube_sheet skip) skip _ (0, 0, 0)%Z SO CR ZL) as (b & E1 & E2).
    + rewrite E, corner_list_base by auto. intros k Hk; assert (k = 0 \/ k = 1 \/ k = 2)%Z as [->|[->| ->]] by lia; cbn; lra.
    + rewrite E1. f_equal. destruct b; auto. exfalso. destruct E2 as [E2 _]. specialize (E2 eq_refl 0%Z ltac:(lia)).
      rewrite E, corner_list_base in E2 by auto. cbn in E2. destruct (same_arc_ends 10 0 2) as [N _]; [lra|lra|auto].
Qed.

(** ** Pixels *)

Lemma grid_axis_ok g v k : grid_ok g -> in_box_R (hg_box g) v -> (0 <= k < 3)%Z ->
  match grid_index_axis idR g v k with
  | Some i => (0 <= i < vget (hg_pixels g) k)%Z /\ pixel_holds (hg_box g) (vget (hg_origin g) k) (hg_pixelWidth g) (vget v k) i
  | None => forall i, (0 <= i < vget (hg_pixels g) k)%Z -> ~ pixel_holds (hg_box g) (vget (hg_origin g) k) (hg_pixelWidth g) (vget v k) i
  end.
Proof.
  intros (PW & HG) HV Hk. destruct (HG k Hk) as (HN & HS & HL & HO). specialize (HV k Hk). unfold grid_index_axis; rn.
  set (x := vget v k) in *. set (o := vget (hg_origin g) k) in *. set (n := vget (hg_pixels g) k) in *.
  set (sp := vget (hg_span g) k) in *. set (L := hg_box g) in *. set (pw := hg_pixelWidth g) in *. clearbody x o n sp L pw.
  set (d0 := if Rlt_bool (x - o) 0 then x - o + L else x - o).
  assert (D0 : 0 <= d0 < L /\ exists m : Z, d0 = x + IZR m * L - o).
  { unfold d0. destruct (Rlt_bool_spec (x - o) 0); (split; [lra|]); [exists 1%Z|exists 0%Z]; lra. }
  destruct D0 as [D0 (m & Em)]. clearbody d0.
  destruct (Rle_bool_spec sp d0) as [A|A].
  - rewrite (Rlt_bool_true (d0 - L) 0) by lra. cbn [orb]. intros i Hi (q & H1 & H2).
    assert (I0 : 0 <= IZR i) by (apply IZR_le; lia). assert (I1 : IZR i + 1 <= IZR n) by (rewrite <- plus_IZR; apply IZR_le; lia).
    assert (B0 : 0 <= IZR i * pw) by (apply Rmult_le_pos; lra). assert (B1 : (IZR i + 1) * pw <= IZR n * pw) by (apply Rmult_le_compat_r; lra).
    assert (E : x + IZR q * L - o = d0 + IZR (q - m) * L) by (rewrite minus_IZR; lra).
    assert (J : (-1 < q - m < 1)%Z).
    { apply IZR_between with (L := L); [lra|]. split; lra. }
    replace (q - m)%Z with 0%Z in E by lia. lra.
  - rewrite (Rlt_bool_false d0 0), (Rle_bool_false sp d0) by lra. cbn [orb].
    assert (Q0 : 0 <= d0 / pw) by (apply Rmult_le_pos; [lra|left; now apply Rinv_0_lt_compat]).
    assert (Q1 : d0 / pw < IZR n) by (apply (Rmult_lt_reg_r pw); auto; unfold Rdiv; rewrite Rmult_assoc, Rinv_l by lra; lra).
    split; [apply trunc_range; auto|]. exists m.
    pose proof (proj2 (trunc_iff (d0 / pw) (Ztrunc (d0 / pw)) Q0) eq_refl) as [T1 T2]. rewrite plus_IZR in T2.
    apply (Rmult_le_compat_r pw) in T1; [|lra]. apply (Rmult_lt_compat_r pw) in T2; [|lra].
    unfold Rdiv in *. rewrite Rmult_assoc, Rinv_l, Rmult_1_r in T1, T2 by lra. lra.
Qed.

Definition zero3R : vec3 R := V3 0 0 0.

Lemma grid_index_ok g v : grid_ok g -> in_box_R (hg_box g) v ->
  let holds k i := (0 <= i < vget (hg_pixels g) k)%Z /\ pixel_holds (hg_box g) (vget (hg_origin g) k) (hg_pixelWidth g) (vget v k) i in
  (exists i j k, holds 0%Z i /\ holds 1%Z j /\ holds 2%Z k /\
     grid_index idR g v = (i + vget (hg_pixels g) 0 * (j + vget (hg_pixels g) 1 * k))%Z) \/
  ((exists a, (0 <= a < 3)%Z /\ forall i, ~ holds a i) /\ grid_index idR g v = (-1)%Z).
Proof.
  intros HG HV holds.
  pose proof (grid_axis_ok g v 0 HG HV ltac:(lia)) as H0. pose proof (grid_axis_ok g v 1 HG HV ltac:(lia)) as H1.
  pose proof (grid_axis_ok g v 2 HG HV ltac:(lia)) as H2. unfold grid_index.
  destruct (grid_index_axis idR g v 0) as [i|]; [|right; split; [exists 0%Z; split; [lia|]; intros i [A B]; eapply H0; eauto|auto]].
  destruct (grid_index_axis idR g v 1) as [j|]; [|right; split; [exists 1%Z; split; [lia|]; intros j [A B]; eapply H1; eauto|auto]].
  destruct (grid_index_axis idR g v 2) as [k|]; [|right; split; [exists 2%Z; split; [lia|]; intros k [A B]; eapply H2; eauto|auto]].
  left. exists i, j, k. unfold holds. repeat (split; [assumption|]).
  unfold vget; cbn [Z.eqb Pos.eqb]. ring.
Qed.
