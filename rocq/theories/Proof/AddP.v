(** Adding a buffer to a grid. *)
From Coq Require Import ZArith List Bool Reals Lra Lia ZifyBool ZifyNat Permutation.
From Verif Require Import Base.Res Base.ResFacts Base.Num Model.Geom Model.GridDeriv Model.Density Model.Box.
From Verif Require Import Spec.Geometry Spec.Fields Spec.FieldDefs Spec.Matrix Spec.Deposits Spec.Work Proof.SumP Proof.DepositP.
Import ListNotations.
Open Scope R_scope.
Local Notation overlap_addR := (overlap_add (D := R) (ND := RNum)).

Lemma add_cell_ok buf g nb ng i k : sized buf nb -> sized g ng -> is_scalar g = is_scalar buf ->
  (0 <= i < nb)%Z -> (0 <= k < ng)%Z ->
  exists g', add_cell (ND := RNum) buf g i k = Ok g' /\ sized g' ng /\ is_scalar g' = is_scalar buf /\
    forall q j, (0 <= j < ng)%Z -> comp q g' j = comp q g j + (if (j =? k)%Z then comp q buf i else 0).
Proof.
  intros HB HG HK Hi Hk. destruct buf as [bv|bv bn]; destruct g as [gv|gv gn]; cbn [is_scalar sized] in *; try discriminate.
  - unfold add_cell. rewrite (get_ok 0) by lia. cbn [bind]. rewrite (get_ok 0) by lia. cbn [bind].
    rewrite set_ok by lia. cbn [bind]. eexists. split; [reflexivity|]. split; [cbn; rewrite zlen_upd; auto|]. split; [reflexivity|].
    intros q j Hj. rewrite !comp_scalar. destruct q; destruct (Z.eqb_spec j k) as [->|Hjk]; try lra.
    + rewrite zn_upd_eq by lia. reflexivity.
    + rewrite zn_upd_neq by lia. lra.
  - destruct HB as [HB1 HB2], HG as [HG1 HG2]. unfold add_cell.
    rewrite (get_ok zero3) by lia. cbn [bind]. rewrite (get_ok zero3) by lia. cbn [bind]. rewrite set_ok by lia. cbn [bind].
    rewrite (get_ok 0%Z) by lia. cbn [bind]. rewrite (get_ok 0%Z) by lia. cbn [bind]. rewrite set_ok by lia. cbn [bind].
    eexists. split; [reflexivity|]. split; [cbn; rewrite !zlen_upd; auto|]. split; [reflexivity|].
    intros q j Hj. destruct q; cbn [comp];
      fold (zn zero3 gv j); fold (zn 0%Z gn j); fold (zn zero3 bv i); fold (zn 0%Z bn i);
      try (match goal with |- context [nth (Z.to_nat j) (upd gv ?p ?x) zero3] =>
             change (nth (Z.to_nat j) (upd gv p x) zero3) with (zn zero3 (upd gv p x) j) end);
      try (match goal with |- context [nth (Z.to_nat j) (upd gn ?p ?x) 0%Z] =>
             change (nth (Z.to_nat j) (upd gn p x) 0%Z) with (zn 0%Z (upd gn p x) j) end);
      destruct (Z.eqb_spec j k) as [->|Hjk]; try lra;
      try (rewrite zn_upd_eq by lia; reflexivity); try (rewrite zn_upd_neq by lia; lra).
    rewrite zn_upd_eq by lia. apply plus_IZR.
Qed.

(** A body that adds [F] to every cell. *)
Definition adds (ng : Z) (sc : bool) (r : contents R -> res (contents R)) (f : component -> Z -> R) : Prop :=
  forall g, sized g ng -> is_scalar g = sc -> exists g', r g = Ok g' /\ sized g' ng /\ is_scalar g' = sc /\
    forall q j, (0 <= j < ng)%Z -> comp q g' j = comp q g j + f q j.

Lemma adds_ok ng sc : adds ng sc (fun g => Ok g) (fun _ _ => 0).
Proof. intros g H1 H2. exists g. repeat split; auto. intros. lra. Qed.

Lemma adds_loop ng sc n body f : (0 <= n)%Z ->
  (forall i, (0 <= i < n)%Z -> adds ng sc (body i) (f i)) ->
  adds ng sc (for_ 0 n body) (fun q j => sum 0 n (fun i => f i q j)).
Proof.
  intros Hn H g H1 H2. apply wp_ok.
  apply (for_inv (fun m g' => sized g' ng /\ is_scalar g' = sc /\
    forall q j, (0 <= j < ng)%Z -> comp q g' j = comp q g j + sum 0 m (fun i => f i q j))); [lia| |].
  - split; [auto|split; [auto|]]. intros. rewrite sum_nil by lia. lra.
  - intros i s Hi (K1 & K2 & K3). apply wp_ok. destruct (H i Hi s K1 K2) as (s' & E1 & E2 & E3 & E4).
    exists s'. split; [auto|]. split; [auto|]. split; [auto|]. intros q j Hj. rewrite E4, K3, sum_last by (auto; lia). lra.
Qed.

Lemma adds_if ng sc (c : bool) r f : (c = false -> adds ng sc r f) ->
  adds ng sc (fun g => if c then Ok g else r g) (fun q j => if c then 0 else f q j).
Proof. destruct c; intros H; [apply adds_ok|apply H; auto]. Qed.

Lemma dom_coord_mod w a b : (0 < ocells w)%Z -> fits_axis w a -> (0 <= b < vget (width (bufCb w)) a)%Z ->
  dom_coord w a b = ((b + (vget (origin (bufCb w)) a - vget (origin (domCb w)) a)) mod ocells w)%Z.
Proof. intros Hc (H1 & H2 & H3) Hb. unfold dom_coord. apply box_bound_mod; auto. lia. Qed.

Lemma same_cell_dom w a b c : (0 < ocells w)%Z -> fits_axis w a ->
  (0 <= b < vget (width (bufCb w)) a)%Z -> (0 <= c < vget (width (domCb w)) a)%Z ->
  same_cell w a b c = (c =? dom_coord w a b)%Z.
Proof.
  intros Hc HF Hb HC. rewrite dom_coord_mod by auto. unfold same_cell. destruct HF as (H1 & H2 & H3).
  set (x := (b + (vget (origin (bufCb w)) a - vget (origin (domCb w)) a))%Z).
  replace (b + vget (origin (bufCb w)) a - (c + vget (origin (domCb w)) a))%Z with (x - c)%Z by (unfold x; lia).
  pose proof (Z.mod_pos_bound x (ocells w) Hc). pose proof (Z.div_mod x (ocells w)).
  destruct (Z.eqb_spec c (x mod ocells w)) as [E|E].
  - apply Z.eqb_eq. replace (x - c)%Z with (0 + x / ocells w * ocells w)%Z by nia. rewrite Z.mod_add by lia. apply Z.mod_0_l; lia.
  - apply Z.eqb_neq. intros K. apply E. apply Z.mod_divide in K; [|lia]. destruct K as (k & K).
    symmetry. replace x with (c + k * ocells w)%Z by lia. rewrite Z.mod_add by lia. apply Z.mod_small. lia.
Qed.

Lemma index3_inj a b c x y z x' y' z' : (0 <= x < a)%Z -> (0 <= y < b)%Z -> (0 <= z < c)%Z ->
  (0 <= x' < a)%Z -> (0 <= y' < b)%Z -> (0 <= z' < c)%Z ->
  (x + y * a + z * (a * b) = x' + y' * a + z' * (a * b))%Z -> x = x' /\ y = y' /\ z = z'.
Proof.
  intros. assert (E : z = z').
  { assert (Hm : (0 <= x + y * a < a * b)%Z) by nia. assert (Hm' : (0 <= x' + y' * a < a * b)%Z) by nia.
    set (m := (a * b)%Z) in *. set (u := (x + y * a)%Z) in *. set (u' := (x' + y' * a)%Z) in *.
    clearbody m u u'. nia. }
  subst z'. assert (E : (x + y * a = x' + y' * a)%Z) by lia. assert (y = y') by nia. subst. lia.
Qed.

Theorem add_segment3D_ok w buf g : okd w = Segment3D -> (0 < ocells w)%Z ->
  fits_axis w 0 -> fits_axis w 1 -> fits_axis w 2 -> is_scalar g = is_scalar buf ->
  sized buf (volume (wcell (width (bufCb w)))) -> sized g (volume (wcell (width (domCb w)))) ->
  exists g', overlap_addR w buf g = Ok g' /\ sized g' (volume (wcell (width (domCb w)))) /\ is_scalar g' = is_scalar buf /\
    forall q x y z, in_grid (wcell (width (domCb w))) (x, y, z) ->
      comp q g' (cell_index (wcell (width (domCb w))) (x, y, z)) =
      comp q g (cell_index (wcell (width (domCb w))) (x, y, z)) +
      sum 0 (v2 (width (bufCb w))) (fun zb => sum 0 (v1 (width (bufCb w))) (fun yb => sum 0 (v0 (width (bufCb w))) (fun xb =>
        if same_cell w 0 xb x && same_cell w 1 yb y && same_cell w 2 zb z
        then comp q buf (cell_index (wcell (width (bufCb w))) (xb, yb, zb)) else 0))).
Proof.
  intros HK Hc F0 F1 F2 HSc HB HG. unfold overlap_add. rewrite HK. unfold add_segment3D.
  set (bw := width (bufCb w)) in *. set (dw := width (domCb w)) in *.
  destruct (F0) as ([B0 _] & [D0 _] & _), (F1) as ([B1 _] & [D1 _] & _), (F2) as ([B2 _] & [D2 _] & _).
  cbn [vget Z.eqb Pos.eqb] in B0, B1, B2, D0, D1, D2. fold bw in B0, B1, B2. fold dw in D0, D1, D2.
  assert (HA : adds (volume (wcell dw)) (is_scalar buf) (fun g =>
    for_ 0 (v2 bw) (fun zBuf g =>
    let zDom := dom_coord w 2 zBuf in
    if (zDom >=? v2 dw)%Z then Ok g else
    let flatDomZ := (zDom * v1 dw * v0 dw)%Z in
    let flatBufZ := (zBuf * v1 bw * v0 bw)%Z in
    for_ 0 (v1 bw) (fun yBuf g =>
      let yDom := dom_coord w 1 yBuf in
      if (yDom >=? v1 dw)%Z then Ok g else
      let flatDomY := (yDom * v0 dw)%Z in
      let flatBufY := (yBuf * v0 bw)%Z in
      for_ 0 (v0 bw) (fun xBuf g =>
        let xDom := dom_coord w 0 xBuf in
        if (xDom >=? v0 dw)%Z then Ok g else
        add_cell (ND := RNum) buf g (xBuf + flatBufY + flatBufZ)%Z (xDom + flatDomY + flatDomZ)%Z) g) g) g)
    (fun q j => sum 0 (v2 bw) (fun zb => if (dom_coord w 2 zb >=? v2 dw)%Z then 0 else
       sum 0 (v1 bw) (fun yb => if (dom_coord w 1 yb >=? v1 dw)%Z then 0 else
       sum 0 (v0 bw) (fun xb => if (dom_coord w 0 xb >=? v0 dw)%Z then 0 else
         if (j =? dom_coord w 0 xb + dom_coord w 1 yb * v0 dw + dom_coord w 2 zb * v1 dw * v0 dw)%Z
         then comp q buf (xb + yb * v0 bw + zb * v1 bw * v0 bw)%Z else 0))))).
  { apply adds_loop; [lia|]. intros zb Hz. cbv zeta. apply adds_if. intros Ez.
    apply adds_loop; [lia|]. intros yb Hy. apply adds_if. intros Ey.
    apply adds_loop; [lia|]. intros xb Hx. apply adds_if. intros Ex.
    intros g1 HS1 HS2.
    assert (HDx : (0 <= dom_coord w 0 xb)%Z) by (rewrite dom_coord_mod; auto; apply Z.mod_pos_bound; lia).
    assert (HDy : (0 <= dom_coord w 1 yb)%Z) by (rewrite dom_coord_mod; auto; apply Z.mod_pos_bound; lia).
    assert (HDz : (0 <= dom_coord w 2 zb)%Z) by (rewrite dom_coord_mod; auto; apply Z.mod_pos_bound; lia).
    rewrite Z.geb_leb in Ex, Ey, Ez. apply Z.leb_gt in Ex, Ey, Ez.
    apply (add_cell_ok buf g1 (volume (wcell bw)) (volume (wcell dw))); auto; unfold volume, wcell.
    - pose proof (cell_index_range3 (v0 bw) (v1 bw) (v2 bw) xb yb zb Hx Hy Hz). lia.
    - pose proof (cell_index_range3 (v0 dw) (v1 dw) (v2 dw) _ _ _ (conj HDx Ex) (conj HDy Ey) (conj HDz Ez)). lia. }
  destruct (HA g HG HSc) as (g' & E1 & E2 & E3 & E4). exists g'. split; [exact E1|]. split; [auto|]. split; [auto|].
  intros q x y z (Hx & Hy & Hz). rewrite E4 by (apply cell_index_range3; auto). f_equal.
  apply sum_ext. intros zb Hzb.
  rewrite (same_cell_dom w 2) by auto.
  rewrite Z.geb_leb. destruct (Z.leb_spec (v2 dw) (dom_coord w 2 zb)).
  { symmetry. apply sum_zero. intros yb _. apply sum_zero. intros xb _.
    replace (z =? dom_coord w 2 zb)%Z with false by lia. now rewrite !andb_false_r. }
  apply sum_ext. intros yb Hyb. rewrite (same_cell_dom w 1) by auto.
  rewrite Z.geb_leb. destruct (Z.leb_spec (v1 dw) (dom_coord w 1 yb)).
  { symmetry. apply sum_zero. intros xb _. replace (y =? dom_coord w 1 yb)%Z with false by lia. now rewrite andb_false_r. }
  apply sum_ext. intros xb Hxb. rewrite (same_cell_dom w 0) by auto.
  rewrite Z.geb_leb. destruct (Z.leb_spec (v0 dw) (dom_coord w 0 xb)).
  { replace (x =? dom_coord w 0 xb)%Z with false by lia. reflexivity. }
  assert (HDx : (0 <= dom_coord w 0 xb)%Z) by (rewrite dom_coord_mod; auto; apply Z.mod_pos_bound; lia).
  assert (HDy : (0 <= dom_coord w 1 yb)%Z) by (rewrite dom_coord_mod; auto; apply Z.mod_pos_bound; lia).
  assert (HDz : (0 <= dom_coord w 2 zb)%Z) by (rewrite dom_coord_mod; auto; apply Z.mod_pos_bound; lia).
  cbn [cell_index wcell].
  replace (xb + yb * v0 bw + zb * v1 bw * v0 bw)%Z with (xb + yb * v0 bw + zb * (v0 bw * v1 bw))%Z by ring.
  match goal with |- (if ?a then _ else _) = (if ?b then _ else _) => replace a with b; [reflexivity|] end.
  destruct (Z.eqb_spec x (dom_coord w 0 xb)), (Z.eqb_spec y (dom_coord w 1 yb)), (Z.eqb_spec z (dom_coord w 2 zb)); cbn [andb]; symmetry;
    [apply Z.eqb_eq; subst; ring|..];
    apply Z.eqb_neq; intros K;
    assert (K' : x = dom_coord w 0 xb /\ y = dom_coord w 1 yb /\ z = dom_coord w 2 zb)
      by (apply (index3_inj (v0 dw) (v1 dw) (v2 dw)); auto; rewrite K; ring); tauto.
Qed.

Theorem add_segment2D_ok w buf g i j k : okd w = Segment2D -> (0 < ocells w)%Z -> (0 <= oproj w <= 2)%Z ->
  image_axes (oproj w) = (i, j, k) -> fits_axis w i -> fits_axis w j -> is_scalar g = is_scalar buf ->
  sized buf (vget (width (bufCb w)) i * vget (width (bufCb w)) j) ->
  sized g (vget (width (domCb w)) i * vget (width (domCb w)) j) ->
  exists g', overlap_addR w buf g = Ok g' /\ sized g' (vget (width (domCb w)) i * vget (width (domCb w)) j) /\ is_scalar g' = is_scalar buf /\
    forall q x y, (0 <= x < vget (width (domCb w)) i)%Z -> (0 <= y < vget (width (domCb w)) j)%Z ->
      comp q g' (x + y * vget (width (domCb w)) i)%Z = comp q g (x + y * vget (width (domCb w)) i)%Z +
      sum 0 (vget (width (bufCb w)) j) (fun yb => sum 0 (vget (width (bufCb w)) i) (fun xb =>
        if same_cell w i xb x && same_cell w j yb y then comp q buf (xb + yb * vget (width (bufCb w)) i)%Z else 0)).
Proof.
  intros HK Hc HP EA F0 F1 HSc HB HG. unfold overlap_add. rewrite HK. unfold add_segment2D.
  rewrite <- image_axes_dims, EA by auto.
  set (bw0 := vget (width (bufCb w)) i) in *. set (dw0 := vget (width (domCb w)) i) in *.
  set (bw1 := vget (width (bufCb w)) j) in *. set (dw1 := vget (width (domCb w)) j) in *.
  destruct (F0) as ([B0 _] & [D0 _] & _), (F1) as ([B1 _] & [D1 _] & _).
  fold bw0 in B0. fold bw1 in B1. fold dw0 in D0. fold dw1 in D1.
  assert (HA : adds (dw0 * dw1) (is_scalar buf) (fun g =>
    for_ 0 bw1 (fun yBuf g =>
      let yDom := dom_coord w j yBuf in
      if (yDom >=? dw1)%Z then Ok g else
      let flatDomY := (yDom * dw0)%Z in
      let flatBufY := (yBuf * bw0)%Z in
      for_ 0 bw0 (fun xBuf g =>
        let xDom := dom_coord w i xBuf in
        if (xDom >=? dw0)%Z then Ok g else
        add_cell (ND := RNum) buf g (xBuf + flatBufY)%Z (xDom + flatDomY)%Z) g) g)
    (fun q t => sum 0 bw1 (fun yb => if (dom_coord w j yb >=? dw1)%Z then 0 else
       sum 0 bw0 (fun xb => if (dom_coord w i xb >=? dw0)%Z then 0 else
         if (t =? dom_coord w i xb + dom_coord w j yb * dw0)%Z then comp q buf (xb + yb * bw0)%Z else 0)))).
  { apply adds_loop; [lia|]. intros yb Hy. cbv zeta. apply adds_if. intros Ey.
    apply adds_loop; [lia|]. intros xb Hx. apply adds_if. intros Ex.
    intros g1 HS1 HS2.
    assert (HDx : (0 <= dom_coord w i xb)%Z) by (rewrite dom_coord_mod; auto; apply Z.mod_pos_bound; lia).
    assert (HDy : (0 <= dom_coord w j yb)%Z) by (rewrite dom_coord_mod; auto; apply Z.mod_pos_bound; lia).
    rewrite Z.geb_leb in Ex, Ey. apply Z.leb_gt in Ex, Ey.
    apply (add_cell_ok buf g1 (bw0 * bw1) (dw0 * dw1)); auto; nia. }
  destruct (HA g HG HSc) as (g' & E1 & E2 & E3 & E4). exists g'. split; [exact E1|]. split; [auto|]. split; [auto|].
  intros q x y Hx Hy. rewrite E4 by nia. f_equal.
  apply sum_ext. intros yb Hyb. rewrite (same_cell_dom w j) by auto.
  rewrite Z.geb_leb. destruct (Z.leb_spec dw1 (dom_coord w j yb)).
  { symmetry. apply sum_zero. intros xb _. replace (y =? dom_coord w j yb)%Z with false by lia. now rewrite andb_false_r. }
  apply sum_ext. intros xb Hxb. rewrite (same_cell_dom w i) by auto.
  rewrite Z.geb_leb. destruct (Z.leb_spec dw0 (dom_coord w i xb)).
  { replace (x =? dom_coord w i xb)%Z with false by lia. reflexivity. }
  assert (HDx : (0 <= dom_coord w i xb)%Z) by (rewrite dom_coord_mod; auto; apply Z.mod_pos_bound; lia).
  assert (HDy : (0 <= dom_coord w j yb)%Z) by (rewrite dom_coord_mod; auto; apply Z.mod_pos_bound; lia).
  match goal with |- (if ?a then _ else _) = (if ?b then _ else _) => replace a with b; [reflexivity|] end.
  destruct (Z.eqb_spec x (dom_coord w i xb)), (Z.eqb_spec y (dom_coord w j yb)); cbn [andb]; symmetry;
    [apply Z.eqb_eq; subst; ring|..]; apply Z.eqb_neq; intros K; assert (y = dom_coord w j yb) by nia; nia.
Qed.

Theorem add_domain_ok w buf g n : (okd w = Domain2D \/ okd w = Domain3D) -> (0 <= n)%Z -> is_scalar g = is_scalar buf ->
  sized buf n -> sized g n ->
  exists g', overlap_addR w buf g = Ok g' /\ sized g' n /\ is_scalar g' = is_scalar buf /\
    forall q j, (0 <= j < n)%Z -> comp q g' j = comp q g j + comp q buf j.
Proof.
  intros HK Hn HSc HB HG.
  assert (E : overlap_addR w buf g = for_ 0 n (fun i g => add_cell (ND := RNum) buf g i i) g).
  { unfold overlap_add, add_domain. assert (contents_len buf = n) by (destruct buf; cbn in *; tauto).
    destruct HK as [-> | ->]; congruence. }
  rewrite E.
  assert (HA : adds n (is_scalar buf) (for_ 0 n (fun i g => add_cell (ND := RNum) buf g i i))
    (fun q j => sum 0 n (fun i => if (j =? i)%Z then comp q buf i else 0))).
  { apply adds_loop; [lia|]. intros i Hi g1 H1 H2. apply (add_cell_ok buf g1 n n); auto. }
  destruct (HA g HG HSc) as (g' & E1 & E2 & E3 & E4). exists g'. split; [exact E1|]. split; [auto|]. split; [auto|].
  intros q j Hj. rewrite E4 by auto. f_equal. rewrite (sum_single _ _ _ j) by (auto; intros; now replace (j =? k)%Z with false by lia).
  now rewrite Z.eqb_refl.
Qed.

Lemma sum_one f : sum 0 1 f = f 0%Z.
Proof. rewrite sum_first, sum_nil by lia. ring. Qed.

Lemma sum_pick3 a b c x y z (f : Z -> Z -> Z -> R) : (0 <= x < a)%Z -> (0 <= y < b)%Z -> (0 <= z < c)%Z ->
  sum 0 c (fun zb => sum 0 b (fun yb => sum 0 a (fun xb =>
    if ((xb =? x) && (yb =? y) && (zb =? z))%Z then f xb yb zb else 0))) = f x y z.
Proof.
  intros Hx Hy Hz. rewrite (sum_single _ _ _ z); auto.
  - rewrite (sum_single _ _ _ y); auto.
    + rewrite (sum_single _ _ _ x); auto; [now rewrite !Z.eqb_refl|].
      intros k _ Hk. now replace (k =? x)%Z with false by lia.
    + intros k _ Hk. apply sum_zero. intros. replace (k =? y)%Z with false by lia. now rewrite andb_false_r.
  - intros k _ Hk. apply sum_zero. intros. apply sum_zero. intros. replace (k =? z)%Z with false by lia. now rewrite andb_false_r.
Qed.

Theorem add_ok w buf g : mergeable w -> is_scalar g = is_scalar buf ->
  sized buf (volume (image_width w (bufCb w))) -> sized g (volume (image_width w (domCb w))) ->
  exists g', overlap_addR w buf g = Ok g' /\ sized g' (volume (image_width w (domCb w))) /\ is_scalar g' = is_scalar buf /\
    forall q c, in_grid (image_width w (domCb w)) c ->
      comp q g' (cell_index (image_width w (domCb w)) c) =
      comp q g (cell_index (image_width w (domCb w)) c) + contribution w q buf c.
Proof.
  unfold mergeable, contribution, image_width. destruct (image_axes (oproj w)) as [[i j] k] eqn:EA.
  intros (Hc & HM) HSc HB HG. destruct (okd w) eqn:EK.
  - destruct HM as (HP & F0 & F1). cbn [volume] in *. rewrite Z.mul_1_r in HB, HG.
    destruct (add_segment2D_ok w buf g i j k) as (g' & E1 & E2 & E3 & E4); auto.
    exists g'. split; [auto|]. split; [cbn [volume]; rewrite Z.mul_1_r; auto|]. split; [auto|].
    intros q [[x y] z] HI. cbn [in_grid] in HI. destruct HI as (Hx & Hy & Hz). assert (z = 0)%Z by lia. subst z. cbn [cell_index]. rewrite !Z.mul_0_l, !Z.add_0_r.
    rewrite E4 by auto. f_equal. rewrite sum_one. apply sum_ext. intros yb _. apply sum_ext. intros xb _.
    rewrite !Z.mul_0_l, !Z.add_0_r. reflexivity.
  - destruct HM as (F0 & F1 & F2). destruct (add_segment3D_ok w buf g) as (g' & E1 & E2 & E3 & E4); auto.
    exists g'. split; [auto|]. split; [auto|]. split; [auto|]. intros q [[x y] z] HI. rewrite E4 by auto. reflexivity.
  - destruct HM as (EB & H0 & H1). rewrite EB in *. cbn [volume] in *.
    destruct (add_domain_ok w buf g (vget (width (domCb w)) i * vget (width (domCb w)) j * 1)) as (g' & E1 & E2 & E3 & E4); auto; try nia.
    exists g'. split; [auto|]. split; [auto|]. split; [auto|].
    intros q [[x y] z] HI. cbn [in_grid] in HI. destruct HI as (Hx & Hy & Hz). rewrite (sum_pick3 _ _ _ x y z) by auto. apply E4.
    apply (cell_index_range3 _ _ 1); auto.
  - destruct HM as (EB & H0 & H1 & H2). rewrite EB in *.
    destruct (add_domain_ok w buf g (volume (wcell (width (domCb w))))) as (g' & E1 & E2 & E3 & E4); auto.
    { cbn. nia. }
    exists g'. split; [auto|]. split; [auto|]. split; [auto|].
    intros q [[x y] z] HI. cbn [wcell]. rewrite (sum_pick3 _ _ _ x y z) by apply HI. apply E4.
    apply cell_index_range3; apply HI.
Qed.

(** Merging several buffers one after the other. *)

Definition rsum (l : list R) : R := fold_right Rplus 0 l.
Lemma rsum_perm l l' : Permutation l l' -> rsum l = rsum l'.
Proof. unfold rsum. induction 1; cbn [fold_right] in *; lra. Qed.
Lemma rsum_seq f n : rsum (map f (seq 0 n)) = sum 0 (Z.of_nat n) (fun i => f (Z.to_nat i)).
Proof.
  assert (K : forall lo, rsum (map f (seq lo n)) = sum (Z.of_nat lo) (Z.of_nat lo + Z.of_nat n) (fun i => f (Z.to_nat i))).
  { induction n as [|n IH]; intros lo; cbn [seq map rsum fold_right].
    - rewrite sum_nil by lia. reflexivity.
    - rewrite sum_first by lia. rewrite Nat2Z.id. f_equal. fold (rsum (map f (seq (S lo) n))). rewrite IH.
      f_equal; lia. }
  apply (K O).
Qed.

Theorem add_each_ok w (bufs : list (contents R)) g : mergeable w ->
  Forall (fun b => is_scalar b = is_scalar g /\ sized b (volume (image_width w (bufCb w)))) bufs ->
  sized g (volume (image_width w (domCb w))) ->
  exists g', each bufs (overlap_addR w) g = Ok g' /\ sized g' (volume (image_width w (domCb w))) /\ is_scalar g' = is_scalar g /\
    forall q c, in_grid (image_width w (domCb w)) c ->
      comp q g' (cell_index (image_width w (domCb w)) c) =
      comp q g (cell_index (image_width w (domCb w)) c) + rsum (map (fun b => contribution w q b c) bufs).
Proof.
  intros HM HF. revert g HF. induction bufs as [|b bufs IH]; intros g HF HG; cbn [each map rsum fold_right].
  - exists g. repeat split; auto. intros. lra.
  - inversion_clear HF as [|? ? [H1 H2] HF'].
    destruct (add_ok w b g HM (eq_sym H1) H2 HG) as (g1 & E1 & E2 & E3 & E4). rewrite E1. cbn [bind].
    destruct (IH g1) as (g' & K1 & K2 & K3 & K4); auto.
    { eapply Forall_impl; [|exact HF']. intros a [A1 A2]. split; [congruence|auto]. }
    exists g'. split; [auto|]. split; [auto|]. split; [congruence|]. intros q c HC.
    rewrite K4, E4 by auto. unfold rsum. lra.
Qed.
