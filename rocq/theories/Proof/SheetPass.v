(** One sheet in one box. *)
From Coq Require Import ZArith List Bool Reals Lra Lia ZifyBool ZifyNat Permutation.
From Flocq Require Import Core.Raux.
From Verif Require Import Base.Res Base.ResFacts Base.Num Model.Geom Model.GridDeriv Model.Box Model.Render Model.SheetIO Model.Manager.
From Verif Require Import Spec.Geometry Spec.GeomDefs Spec.Fields Spec.FieldDefs Spec.Work Spec.Deposits Spec.Renders.
From Verif Require Import Proof.GridP Proof.GeomR Proof.SheetScale Proof.SheetCull Proof.SheetFall Proof.SheetFrame Proof.MassP.
Import ListNotations.
Open Scope R_scope.

Lemma convex_minmax w1 w2 w3 w4 a b c d : 0 <= w1 -> 0 <= w2 -> 0 <= w3 -> 0 <= w4 -> w1 + w2 + w3 + w4 = 1 ->
  Rmin (Rmin a b) (Rmin c d) <= w1 * a + w2 * b + w3 * c + w4 * d <= Rmax (Rmax a b) (Rmax c d).
Proof.
  intros H1 H2 H3 H4 HS. set (m := Rmin (Rmin a b) (Rmin c d)). set (M := Rmax (Rmax a b) (Rmax c d)).
  assert (m <= a /\ m <= b /\ m <= c /\ m <= d).
  { unfold m. repeat split; eauto using Rle_trans, Rmin_l, Rmin_r. }
  assert (a <= M /\ b <= M /\ c <= M /\ d <= M).
  { unfold M. repeat split; eauto using Rle_trans, Rmax_l, Rmax_r. }
  assert (E : forall t, t = w1 * t + w2 * t + w3 * t + w4 * t) by (intros; rewrite <- !Rmult_plus_distr_r, HS; ring).
  split.
  - rewrite (E m) at 1. pose proof (Rmult_le_compat_l w1 m a H1). pose proof (Rmult_le_compat_l w2 m b H2).
    pose proof (Rmult_le_compat_l w3 m c H3). pose proof (Rmult_le_compat_l w4 m d H4). lra.
  - rewrite (E M). pose proof (Rmult_le_compat_l w1 a M H1). pose proof (Rmult_le_compat_l w2 b M H2).
    pose proof (Rmult_le_compat_l w3 c M H3). pose proof (Rmult_le_compat_l w4 d M H4). lra.
Qed.

Lemma vget_mix u p q r s a : axis a -> vget (mix u p q r s) a =
  v0 u * vget p a + v1 u * vget q a + v2 u * vget r a + (1 - v0 u - v1 u - v2 u) * vget s a.
Proof. intros Ha. apply axis_cases in Ha. destruct Ha as [-> | [-> | ->]]; reflexivity. Qed.
Lemma vget_affine k t x a : axis a -> vget (affine k t x) a = k * vget x a + vget t a.
Proof. intros Ha. apply axis_cases in Ha. destruct Ha as [-> | [-> | ->]]; reflexivity. Qed.

(** Wrapping moves negative coordinates by one period. *)
Lemma wrap_map (mc : mcarlo R) (t : tetra R) pts : exists g, wrap_points (NF := RNum) mc t pts = map g pts /\
  forall p a, axis a ->
    (vget (g p) a = vget p a \/ vget p a < 0 /\ vget (g p) a = vget p a + IZR (ocells (mc_sub mc))) /\
    (coord_neg (NF := RNum) t a = false -> vget (g p) a = vget p a).
Proof.
  unfold wrap_points. destruct (never_mod mc).
  { exists (fun p => p). rewrite map_id. split; [auto|]. auto. }
  set (L := IZR (ocells (mc_sub mc))).
  set (g1 := fun (j : Z) (p : vec3 R) => if coord_neg (NF := RNum) t j then (if Rlt_bool (vget p j) 0 then vset p j (vget p j + L) else p) else p).
  exists (fun p => g1 2%Z (g1 1%Z (g1 0%Z p))). split.
  - cbn [fold_left]. unfold mod_coord, g1. cbn [nltb nadd nofZ RNum]. fold L.
    destruct (coord_neg t 0), (coord_neg t 1), (coord_neg t 2); rewrite ?map_map, ?map_id; auto.
  - assert (G : forall j p a, axis j -> axis a ->
      (vget (g1 j p) a = if (a =? j)%Z then (if coord_neg (NF := RNum) t j && Rlt_bool (vget p j) 0 then vget p j + L else vget p j) else vget p a)).
    { intros j p a Hj Ha. unfold g1. apply axis_cases in Hj. apply axis_cases in Ha.
      destruct Hj as [-> | [-> | ->]], Ha as [-> | [-> | ->]]; cbn [Z.eqb Pos.eqb];
      match goal with |- context [coord_neg ?t ?j] => destruct (coord_neg t j) end; cbn [andb]; auto;
      match goal with |- context [Rlt_bool ?x 0] => destruct (Rlt_bool x 0) end; reflexivity. }
    intros p a Ha. rewrite !G by auto with axis.
    assert (K : forall j, (coord_neg (NF := RNum) t j && Rlt_bool (vget p j) 0 = true -> vget p j < 0) /\ (coord_neg (NF := RNum) t j = false -> coord_neg (NF := RNum) t j && Rlt_bool (vget p j) 0 = false)).
    { intros j. split; [|intros ->; reflexivity]. rewrite andb_true_iff. intros [_ H]. revert H. case Rlt_bool_spec; [auto|discriminate]. }
    apply axis_cases in Ha. destruct Ha as [-> | [-> | ->]]; cbn [Z.eqb Pos.eqb];
    match goal with |- context [if coord_neg t ?j && ?r then _ else _] => destruct (K j) as [K1 K2]; destruct (coord_neg t j && r) end;
    (split; [now auto|]; intros Hn; first [reflexivity | specialize (K2 Hn); discriminate]).
Qed.

Lemma cell_is_cong n k m o c : (0 < n)%Z -> cell_is n (k + m * n) o c = cell_is n k o c.
Proof. intros Hn. unfold cell_is. replace (k + m * n - (o + c))%Z with (k - (o + c) + m * n)%Z by ring. now rewrite Z.mod_add by lia. Qed.

Section Pass.
Variables (L : R) (skip : Z) (b : rbox R) (f : sheet_file R R) (X : list (vec3 R)).
Hypothesis HS : sheet_ok L skip f X.
Hypothesis HB : box_ok L b.
Variable w : overlap.
Hypothesis HW : box_overlap (ND := RNum) (NF := RNum) (fun x => x) b (sf_hd f) = Ok w.
Let h := sf_hd f.
Let n := rb_cells b.
Let s := IZR n / L.
Let xcb := sheet_cells (ND := RNum) (NF := RNum) (fun x => x) h n.
Let scaled := scale_xs (D := R) (NF := RNum) (fun x => x) w xcb (rb_cw b * IZR n) (sf_xs f).
Let m := (s_seg h + 1)%Z.

(** Origin of the scaled coordinates and range of the scaled sheet. *)
Variable lo : vec3 Z.
Definition shift : vec3 R :=
  V3 (IZR (v0 lo - v0 (origin xcb))) (IZR (v1 lo - v1 (origin xcb))) (IZR (v2 lo - v2 (origin xcb))).
Hypothesis Hlo : forall a, axis a -> low_ok b w a (vget lo a) /\
  (exists K, vget lo a - vget (origin xcb) a + vget (origin (bufCb w)) a = K * n)%Z /\
  forall x X0, 0 <= x < L -> vget (s_origin h) a <= X0 <= vget (s_origin h) a + vget (s_width h) a -> rcong L X0 x ->
    scaled1 L b f w a x = s * X0 + IZR (vget lo a - vget (origin xcb) a) /\
    IZR (vget lo a) <= scaled1 L b f w a x < IZR (vget lo a + vget (width xcb) a).

Lemma vget_shift a : axis a -> vget shift a = IZR (vget lo a - vget (origin xcb) a).
Proof. intros Ha. apply axis_cases in Ha. destruct Ha as [-> | [-> | ->]]; reflexivity. Qed.

Lemma Forall2_nth {A B} (P : A -> B -> Prop) l l' da db : Forall2 P l l' -> forall i, (i < length l)%nat -> P (nth i l da) (nth i l' db).
Proof. induction 1; intros i Hi; [cbn in Hi; lia|]. destruct i; cbn in *; [auto|]. apply IHForall2. lia. Qed.
Lemma Forall2_len {A B} (P : A -> B -> Prop) l l' : Forall2 P l l' -> length l = length l'.
Proof. induction 1; cbn; lia. Qed.

Lemma scaled_len : zlen scaled = (m * m * m)%Z.
Proof.
  unfold scaled, scale_xs, zlen. rewrite map_length. destruct HS as (_ & _ & _ & E1 & E2 & _). unfold zlen in E2. rewrite E2, E1. reflexivity.
Qed.

Lemma vec_eq {A} (u v : vec3 A) : (forall a, axis a -> vget u a = vget v a) -> u = v.
Proof.
  intros H. destruct u as [u0 u1 u2], v as [x0 x1 x2]. pose proof (H 0%Z axis0) as A0. pose proof (H 1%Z axis1) as A1. pose proof (H 2%Z axis2) as A2.
  cbn in A0, A1, A2. congruence.
Qed.

Lemma scaled_nth i : (0 <= i < m * m * m)%Z ->
  nth (Z.to_nat i) scaled zero3 = affine s shift (nth (Z.to_nat i) X zero3) /\
  forall a, axis a -> IZR (vget lo a) <= vget (nth (Z.to_nat i) scaled zero3) a < IZR (vget lo a + vget (width xcb) a).
Proof.
  intros Hi. pose proof scaled_len as SL. destruct HS as (EL & _ & _ & E1 & E2 & HR & HX).
  assert (Hi' : (Z.to_nat i < length (sf_xs f))%nat) by (unfold zlen in E2; rewrite E1 in E2; fold h in E2; fold m in E2; lia).
  pose proof (Forall2_nth _ _ _ zero3 zero3 HX _ Hi') as HU.
  set (x := nth (Z.to_nat i) (sf_xs f) zero3) in *. set (X0 := nth (Z.to_nat i) X zero3) in *.
  assert (EN : forall a, axis a -> vget (nth (Z.to_nat i) scaled zero3) a = scaled1 L b f w a (vget x a)).
  { intros a Ha. unfold scaled, scale_xs. assert (EBW : rb_cw b * IZR n = L) by apply HB. rewrite EBW.
    match goal with |- vget (nth _ (map ?g _) _) _ = _ => rewrite (nth_indep _ zero3 (g zero3)) by (rewrite map_length; auto); rewrite (map_nth g) end.
    fold x. unfold scaled1, is_seg. rewrite (w_cells L b f HB w HW).
    apply axis_cases in Ha. destruct Ha as [-> | [-> | ->]]; destruct (okd w); reflexivity. }
  assert (HAX : forall a, axis a -> scaled1 L b f w a (vget x a) = s * vget X0 a + IZR (vget lo a - vget (origin xcb) a) /\
    IZR (vget lo a) <= scaled1 L b f w a (vget x a) < IZR (vget lo a + vget (width xcb) a)).
  { intros a Ha. destruct (Hlo a Ha) as (_ & _ & G). destruct (HU a Ha) as [U1 U2]. destruct (HR a Ha) as (_ & _ & FX).
    apply G; auto. rewrite Forall_forall in FX. apply (FX x). apply nth_In. auto. }
  split.
  - apply vec_eq. intros a Ha. rewrite EN, vget_affine, vget_shift by auto. apply HAX; auto.
  - intros a Ha. rewrite EN by auto. apply HAX; auto.
Qed.

(** Points of a tetrahedron. *)
Section Point.
Variables (c : cell) (dir : Z) (u : vec3 R).
Hypothesis HR : cube_room m skip c.
Hypothesis HD : (0 <= dir < 6)%Z.
Hypothesis HU : unit_simplex u.
Let A := lattice_index m (cadd c skip (fst (dirs_of dir))).
Let B := lattice_index m (cadd c skip (snd (dirs_of dir))).
Let C := lattice_index m (cadd c skip (V3 1 1 1)%Z).
Let E := lattice_index m c.
Let pa := nth (Z.to_nat A) scaled zero3.
Let pb := nth (Z.to_nat B) scaled zero3.
Let pc := nth (Z.to_nat C) scaled zero3.
Let pd := nth (Z.to_nat E) scaled zero3.
Let x := sample X m skip c dir u.
Let p := mix u pa pb pc pd.

Lemma corner_range : (0 <= A < m * m * m /\ 0 <= B < m * m * m /\ 0 <= C < m * m * m /\ 0 <= E < m * m * m)%Z.
Proof.
  destruct (tetra_idxs_valid _ _ _ _ HR HD) as (A' & B' & C' & D' & EI & _ & _ & HI & _).
  rewrite tetra_idxs_cells in EI by auto. injection EI as E1 E2 E3 E4. cbn [map] in HI.
  inversion_clear HI as [|? ? I0 HI1]. inversion_clear HI1 as [|? ? I1 HI2].
  inversion_clear HI2 as [|? ? I2 HI3]. inversion_clear HI3 as [|? ? I3 _].
  rewrite <- E1 in I0. rewrite <- E2 in I1. rewrite <- E3 in I2. rewrite <- E4 in I3. auto.
Qed.

Lemma point_affine : p = affine s shift x.
Proof.
  destruct corner_range as (RA & RB & RC & RE). unfold p, pa, pb, pc, pd.
  destruct (scaled_nth A RA) as [-> _], (scaled_nth B RB) as [-> _], (scaled_nth C RC) as [-> _], (scaled_nth E RE) as [-> _].
  rewrite mix_affine. reflexivity.
Qed.

Lemma corners_in a : axis a -> Forall (fun q => IZR (vget lo a) <= vget q a < IZR (vget lo a + vget (width xcb) a)) [pa; pb; pc; pd].
Proof.
  intros Ha. destruct corner_range as (RA & RB & RC & RE).
  apply Forall_cons; [apply (scaled_nth A RA); auto|]. apply Forall_cons; [apply (scaled_nth B RB); auto|].
  apply Forall_cons; [apply (scaled_nth C RC); auto|]. apply Forall_cons; [apply (scaled_nth E RE); auto|]. apply Forall_nil.
Qed.

Lemma weights_ok : 0 <= v0 u /\ 0 <= v1 u /\ 0 <= v2 u /\ 0 <= 1 - v0 u - v1 u - v2 u /\ v0 u + v1 u + v2 u + (1 - v0 u - v1 u - v2 u) = 1.
Proof. destruct HU as (? & ? & ? & ?). repeat split; lra. Qed.

Lemma point_in a : axis a -> IZR (vget lo a) <= vget p a < IZR (vget lo a + vget (width xcb) a).
Proof.
  intros Ha. pose proof (corners_in a Ha) as HF.
  inversion_clear HF as [|? ? I0 HI1]. inversion_clear HI1 as [|? ? I1 HI2].
  inversion_clear HI2 as [|? ? I2 HI3]. inversion_clear HI3 as [|? ? I3 _].
  destruct weights_ok as (W1 & W2 & W3 & W4 & W5). unfold p. rewrite vget_mix by auto.
  rewrite Rplus_assoc. apply convex_in; auto.
Qed.

Lemma point_floor a : axis a -> exists K,
  (Zfloor (vget p a) + vget (origin (bufCb w)) a = grid_cell L n (vget x a) + K * n)%Z.
Proof.
  intros Ha. destruct (Hlo a Ha) as (_ & (K & EK) & _). exists K. rewrite point_affine, vget_affine, vget_shift by auto.
  rewrite floor_add. unfold grid_cell. replace (vget x a * IZR n / L) with (s * vget x a) by (unfold s; field; pose proof (L_pos L skip f X HS); lra).
  lia.
Qed.

Lemma point_off a : axis a -> (let y := vget x a * IZR n / L in y <> IZR (Zfloor y)) -> vget p a <> IZR (Zfloor (vget p a)).
Proof.
  intros Ha. cbv zeta. rewrite point_affine, vget_affine, vget_shift by auto. rewrite floor_add, plus_IZR.
  replace (vget x a * IZR n / L) with (s * vget x a) by (unfold s; field; pose proof (L_pos L skip f X HS); lra). lra.
Qed.

Lemma low_bounds a : axis a -> (- n <= vget lo a /\ vget lo a + vget (width xcb) a <= 2 * n)%Z.
Proof. intros Ha. apply (low_room L skip b f X HS HB w HW a (vget lo a) Ha). apply Hlo. auto. Qed.
Lemma low_seg a : axis a -> is_seg w = true -> (vget lo a = 0 /\ vget (width xcb) a = vget (width (bufCb w)) a)%Z.
Proof. intros Ha. apply (low_room L skip b f X HS HB w HW a (vget lo a) Ha). apply Hlo. auto. Qed.

(** A visible point keeps its tetrahedron from being skipped. *)
Lemma seen_cell c' : in_grid (image_size b) c' -> seen L b x c' = true ->
  forall a, axis a -> exists e, (0 <= e < vget (width (rb_cb b)) a)%Z /\ cong n (grid_cell L n (vget x a)) (vget (origin (rb_cb b)) a + e).
Proof.
  pose proof (n_ge L b HB) as Hn. fold n in Hn.
  assert (CI : forall k o y, cell_is n k o y = true -> cong n k (o + y)).
  { intros k o y H. unfold cell_is in H. apply Z.eqb_eq in H. apply Z.mod_divide in H; [|lia]. destruct H as [q Hq]. exists q. lia. }
  assert (DI : forall k o, cong n k (o + (k - o) mod n)).
  { intros k o. exists ((k - o) / n)%Z. pose proof (Z.div_mod (k - o) n ltac:(lia)). lia. }
  unfold image_size, seen. fold n. destruct c' as [[y0 y1] y2]. destruct (rb_proj b) as [q|].
  - intros HI HSn a Ha.
    assert (HA' : let '(i, j, d) := image_axes q in a = i \/ a = j \/ a = d).
    { unfold image_axes. apply axis_cases in Ha. destruct q as [|[]|]; destruct Ha as [-> | [-> | ->]]; auto. }
    destruct (image_axes q) as [[i j] d]. cbn [in_grid] in HI.
    apply andb_prop in HSn. destruct HSn as [HSn HD3]. apply andb_prop in HSn. destruct HSn as [HD1 HD2].
    destruct HA' as [-> |[-> | ->]].
    + exists y0. split; [lia|auto].
    + exists y1. split; [lia|auto].
    + exists ((grid_cell L n (vget x d) - vget (origin (rb_cb b)) d) mod n)%Z. split; [|apply DI].
      pose proof (Z.mod_pos_bound (grid_cell L n (vget x d) - vget (origin (rb_cb b)) d) n ltac:(lia)). lia.
  - cbn [in_grid wcell]. intros HI HSn a Ha.
    apply andb_prop in HSn. destruct HSn as [HSn HD3]. apply andb_prop in HSn. destruct HSn as [HD1 HD2].
    apply axis_cases in Ha. destruct Ha as [-> |[-> | ->]]; [exists y0|exists y1|exists y2]; (split; [cbn [vget Z.eqb Pos.eqb]; lia|auto]).
Qed.

Lemma seen_meets c' t0 : in_grid (image_size b) c' -> seen L b x c' = true ->
  cb_intersect (tetra_cell_bounds (NF := RNum) (tetra_init t0 pa pb pc pd) 1)
    (CB (cb_subtr (domCb w) (bufCb w)) (width (domCb w))) n = true.
Proof.
  intros HI HSn. pose proof (n_ge L b HB) as Hn. fold n in Hn.
  assert (G : forall a, axis a ->
    intersect_axis (fst (cell_bounds1 (NF := RNum) (vget pa a) (vget pb a) (vget pc a) (vget pd a) 1))
      (snd (cell_bounds1 (NF := RNum) (vget pa a) (vget pb a) (vget pc a) (vget pd a) 1))
      (vget (origin (domCb w)) a - vget (origin (bufCb w)) a) (vget (width (domCb w)) a) n = true).
  { intros a Ha. rewrite (w_dom L b f HB w HW). destruct (seen_cell c' HI HSn a Ha) as (e & He & [k1 Hk1]).
    pose proof (corners_in a Ha) as HF.
    inversion_clear HF as [|? ? I0 HI1]. inversion_clear HI1 as [|? ? I1 HI2].
    inversion_clear HI2 as [|? ? I2 HI3]. inversion_clear HI3 as [|? ? I3 _].
    pose proof (box_axis_range L b HB a Ha) as XR. pose proof (buf_axis_range L skip b f X HS HB w HW a Ha) as BR.
    pose proof (sheet_axis_range L skip b f X HS HB a Ha) as SR. fold n in XR, BR, SR. fold h xcb in SR.
    pose proof (low_bounds a Ha) as LB.
    assert (LC : (if is_seg w then vget lo a = 0 else - n <= 2 * vget lo a <= n /\ vget (origin (bufCb w)) a = vget (origin (rb_cb b)) a)%Z).
    { destruct (Hlo a Ha) as (H0 & _). unfold low_ok in H0. fold n in H0. pose proof (w_buf L b f HB w HW) as WB. destruct (is_seg w); auto.
      split; [auto|]. now rewrite WB. }
    destruct weights_ok as (W1 & W2 & W3 & W4 & W5).
    apply (tetra_axis_near n (vget lo a) (vget lo a + vget (width xcb) a) _ _ (vget pa a) (vget pb a) (vget pc a) (vget pd a) (vget p a)
      (vget (origin (rb_cb b)) a - vget (origin (bufCb w)) a + e)); auto; try lia;
      try (destruct (is_seg w); lia).
    - unfold p. rewrite vget_mix by auto. apply convex_minmax; auto.
    - destruct (point_floor a Ha) as [K EK]. exists (k1 + K)%Z. lia. }
  unfold cb_intersect, tetra_cell_bounds, tetra_init, cb_subtr, vmap2. cbn [origin width v0 v1 v2 c0 c1 c2 c3].
  apply andb_true_intro. split; [apply andb_true_intro; split|]; [exact (G 0%Z axis0)|exact (G 1%Z axis1)|exact (G 2%Z axis2)].
Qed.
Variable g : vec3 R -> vec3 R.
Hypothesis Hg : forall p a, axis a -> vget (g p) a = vget p a \/ vget p a < 0 /\ vget (g p) a = vget p a + IZR n.
Hypothesis Hg0 : is_seg w = true -> forall p a, axis a -> vget (g p) a = vget p a.

Lemma wrapped_floor a : axis a -> exists K, (coord_cell (g p) a + vget (origin (bufCb w)) a = grid_cell L n (vget x a) + K * n)%Z.
Proof.
  intros Ha. destruct (point_floor a Ha) as [K EK]. unfold coord_cell. destruct (Hg p a Ha) as [-> |[_ ->]].
  - exists K. exact EK.
  - exists (K + 1)%Z. rewrite floor_add. lia.
Qed.

Lemma wrapped_falls c' : falls w (g p) c' = seen L b x c'.
Proof.
  pose proof (n_ge L b HB) as Hn.
  assert (K : forall a, axis a -> exists K, (coord_cell (g p) a + vget (origin (bufCb w)) a = grid_cell L n (vget x a) + K * n)%Z) by (intros; apply wrapped_floor; auto).
  unfold falls, seen. rewrite (w_cells L b f HB w HW), (w_dom L b f HB w HW). fold n. destruct c' as [[c0' c1'] c2'].
  destruct (overlap_cases L b f HB w HW) as [(-> & EW)|(q & -> & Hq & EW)].
  - destruct (K 0%Z axis0) as [K0 ->], (K 1%Z axis1) as [K1 ->], (K 2%Z axis2) as [K2 ->].
    destruct (image_axes (oproj w)) as [[i j] d].
    rewrite !cell_is_cong by (unfold n; lia). destruct EW as [-> | ->]; reflexivity.
  - assert (EO : oproj w = q) by (destruct EW as [-> | ->]; reflexivity). rewrite EO.
    pose proof (axes_in q) as HA. destruct (image_axes q) as [[i j] d]. destruct HA as (A1 & A2 & A3).
    destruct (K i A1) as [K0 ->], (K j A2) as [K1 ->], (K d A3) as [K2 ->]. rewrite !cell_is_cong by (unfold n; lia).
    replace (grid_cell L n (vget x d) + K2 * n - vget (origin (rb_cb b)) d)%Z with (grid_cell L n (vget x d) - vget (origin (rb_cb b)) d + K2 * n)%Z by ring.
    rewrite Z.mod_add by (unfold n; lia). destruct EW as [-> | ->]; reflexivity.
Qed.

Lemma wrapped_placeable : okd w = Segment3D \/ (forall a, axis a -> let y := vget x a * IZR n / L in y <> IZR (Zfloor y)) ->
  placeable w (g p).
Proof.
  intros HF. pose proof (n_ge L b HB) as Hn. fold n in Hn.
  assert (IB : is_seg w = true -> forall a, axis a -> in_buffer w (g p) a).
  { intros ES a Ha. unfold in_buffer. rewrite (Hg0 ES p a Ha). pose proof (point_in a Ha) as PI. destruct (low_seg a Ha ES) as [E1 E2].
    rewrite E1, E2 in PI. exact PI. }
  assert (FL : forall a, axis a -> (vget lo a <= Zfloor (vget p a) < vget lo a + vget (width xcb) a)%Z).
  { intros a Ha. pose proof (point_in a Ha) as [P1 P2]. split; [apply Zfloor_lub; auto|].
    apply lt_IZR. apply Rle_lt_trans with (vget p a); [apply Zfloor_lb|auto]. }
  assert (NE : okd w <> Segment3D -> forall a off, axis a -> (if is_seg w then - n < off < n else off = 0)%Z -> near w off (vget (g p) a)).
  { intros NE a off Ha Hoff. destruct HF as [HF|HF]; [contradiction|]. pose proof (point_off a Ha (HF a Ha)) as PO.
    pose proof (FL a Ha) as F1. pose proof (low_bounds a Ha) as LB. unfold near. rewrite (w_cells L b f HB w HW). fold n.
    destruct (is_seg w) eqn:ES.
    - destruct (low_seg a Ha ES) as [E1 E2]. rewrite (Hg0 eq_refl p a Ha). split; [right; auto|].
      pose proof (buf_axis_range L skip b f X HS HB w HW a Ha) as BR. fold n in BR. lia.
    - subst off. destruct (Hg p a Ha) as [-> |[Hneg ->]].
      + split; [right; auto|]. lia.
      + rewrite floor_add. split.
        * right. rewrite floor_add, plus_IZR. lra.
        * assert (Zfloor (vget p a) < 0)%Z by (apply lt_IZR; apply Rle_lt_trans with (vget p a); [apply Zfloor_lb|auto]). lia. }
  unfold placeable. pose proof (axes_in (oproj w)) as HA. destruct (image_axes (oproj w)) as [[i j] d]. destruct HA as (A1 & A2 & A3).
  destruct (okd w) eqn:EK.
  - assert (ES : is_seg w = true) by (unfold is_seg; rewrite EK; auto). split; [auto|]. split; [auto|]. apply NE; [discriminate|auto|].
    rewrite ES, (w_dom L b f HB w HW). pose proof (buf_axis_range L skip b f X HS HB w HW d A3). pose proof (box_axis_range L b HB d A3). unfold n in *. lia.
  - assert (ES : is_seg w = true) by (unfold is_seg; rewrite EK; auto). auto with axis.
  - assert (ES : is_seg w = false) by (unfold is_seg; rewrite EK; auto). rewrite ES in NE.
    repeat split; [apply (NE ltac:(discriminate) 0%Z 0%Z)|apply (NE ltac:(discriminate) 0%Z 0%Z)|apply (NE ltac:(discriminate) 0%Z 0%Z)|apply (NE ltac:(discriminate) 1%Z 0%Z)|apply (NE ltac:(discriminate) 1%Z 0%Z)|apply (NE ltac:(discriminate) 1%Z 0%Z)|apply (NE ltac:(discriminate) 2%Z 0%Z)|apply (NE ltac:(discriminate) 2%Z 0%Z)|apply (NE ltac:(discriminate) 2%Z 0%Z)]; auto with axis.
  - assert (ES : is_seg w = false) by (unfold is_seg; rewrite EK; auto). rewrite ES in NE.
    repeat split; [apply (NE ltac:(discriminate) 0%Z 0%Z)|apply (NE ltac:(discriminate) 0%Z 0%Z)|apply (NE ltac:(discriminate) 0%Z 0%Z)|apply (NE ltac:(discriminate) 1%Z 0%Z)|apply (NE ltac:(discriminate) 1%Z 0%Z)|apply (NE ltac:(discriminate) 1%Z 0%Z)|apply (NE ltac:(discriminate) 2%Z 0%Z)|apply (NE ltac:(discriminate) 2%Z 0%Z)|apply (NE ltac:(discriminate) 2%Z 0%Z)]; auto with axis.
Qed.

End Point.
End Pass.
