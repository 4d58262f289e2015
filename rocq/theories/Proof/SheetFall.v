(** Points in buffers and cells of images. *)
From Coq Require Import ZArith List Bool Reals Lra Lia ZifyBool ZifyNat.
From Flocq Require Import Core.Raux.
From Verif Require Import Base.Res Base.ResFacts Base.Num Model.Geom Model.GridDeriv Model.Box Model.Render.
From Verif Require Import Spec.Geometry Spec.GeomDefs Spec.Fields Spec.FieldDefs Spec.Matrix Spec.Work Spec.Deposits Spec.Renders.
From Verif Require Import Proof.SumP Proof.DepositP Proof.AddP.
Import ListNotations.
Open Scope R_scope.

(** Cell [c] of the image holds the point [p], given in buffer coordinates. *)
Definition falls (w : overlap) (p : vec3 R) (c : cell) : bool :=
  let n := ocells w in
  let k a := (coord_cell p a + vget (origin (bufCb w)) a)%Z in
  let o a := vget (origin (domCb w)) a in
  let '(i, j, d) := image_axes (oproj w) in
  let '(x, y, z) := c in
  match okd w with
  | Segment3D | Domain3D => cell_is n (k 0%Z) (o 0%Z) x && cell_is n (k 1%Z) (o 1%Z) y && cell_is n (k 2%Z) (o 2%Z) z
  | _ => cell_is n (k i) (o i) x && cell_is n (k j) (o j) y && ((k d - o d) mod n <? vget (width (domCb w)) d)%Z
  end.

(** The sum of [f] over the buffer cells that coincide with [c]. *)
Definition pick (w : overlap) (c : cell) (f : Z -> R) : R :=
  let '(i, j, _) := image_axes (oproj w) in
  let '(x, y, z) := c in
  let bw := image_width w (bufCb w) in
  let '(b0, b1, b2) := bw in
  sum 0 b2 (fun zb => sum 0 b1 (fun yb => sum 0 b0 (fun xb =>
    if match okd w with
       | Segment3D => same_cell w 0 xb x && same_cell w 1 yb y && same_cell w 2 zb z
       | Segment2D => same_cell w i xb x && same_cell w j yb y
       | _ => (xb =? x) && (yb =? y) && (zb =? z)
       end%Z
    then f (cell_index bw (xb, yb, zb)) else 0))).

Lemma contribution_pick w q b c : contribution w q b c = pick w c (comp q b).
Proof. reflexivity. Qed.

Lemma pick_ext w c f g : (forall j, (0 <= j < volume (image_width w (bufCb w)))%Z -> f j = g j) -> pick w c f = pick w c g.
Proof.
  unfold pick. intros H. destruct (image_axes (oproj w)) as [[i j] k], c as [[x y] z].
  destruct (image_width w (bufCb w)) as [[b0 b1] b2] eqn:E. cbn [volume] in H.
  apply sum_ext; intros zb Hz. apply sum_ext; intros yb Hy. apply sum_ext; intros xb Hx.
  match goal with |- (if ?c then _ else _) = _ => destruct c; auto end. apply H. cbn [cell_index].
  apply cell_index_range3; auto.
Qed.

Lemma pick_plus w c f g : pick w c (fun j => f j + g j) = pick w c f + pick w c g.
Proof.
  unfold pick. destruct (image_axes (oproj w)) as [[i j] k], c as [[x y] z].
  destruct (image_width w (bufCb w)) as [[b0 b1] b2] eqn:E.
  rewrite <- sum_plus. apply sum_ext; intros zb Hz. rewrite <- sum_plus. apply sum_ext; intros yb Hy.
  rewrite <- sum_plus. apply sum_ext; intros xb Hx.
  match goal with |- (if ?c then _ else _) = _ => destruct c; lra end.
Qed.

Lemma pick_zero w c f : (forall j, f j = 0) -> pick w c f = 0.
Proof.
  unfold pick. intros H. destruct (image_axes (oproj w)) as [[i j] k], c as [[x y] z].
  destruct (image_width w (bufCb w)) as [[b0 b1] b2] eqn:E.
  apply sum_zero; intros zb Hz. apply sum_zero; intros yb Hy. apply sum_zero; intros xb Hx.
  match goal with |- (if ?c then _ else _) = _ => destruct c; auto end.
Qed.

Lemma buffer_size_volume w : valid_overlap w -> volume (image_width w (bufCb w)) = buffer_size w.
Proof.
  intros (Hc & Hp & Hw). unfold image_width, buffer_size. destruct (okd w) eqn:E.
  - assert (oproj w = 0 \/ oproj w = 1 \/ oproj w = 2)%Z as [-> | [-> | ->]] by (destruct Hp as [?|[?|?]]; [lia|congruence|congruence]);
      cbn [image_axes volume vget Z.eqb Pos.eqb]; nia.
  - destruct (image_axes (oproj w)) as [[? ?] ?]. reflexivity.
  - assert (oproj w = 0 \/ oproj w = 1 \/ oproj w = 2)%Z as [-> | [-> | ->]] by (destruct Hp as [?|[?|?]]; [lia|congruence|congruence]);
      cbn [image_axes volume vget Z.eqb Pos.eqb]; nia.
  - destruct (image_axes (oproj w)) as [[? ?] ?]. reflexivity.
Qed.

(** Widths of domain buffers. *)
Definition thin (w : overlap) : Prop :=
  match okd w with
  | Domain2D | Domain3D => forall a, In a [0; 1; 2]%Z -> (vget (width (domCb w)) a <= ocells w)%Z
  | _ => True
  end.

Lemma cell_is_mod n k o x : (0 < n)%Z -> (0 <= x < n)%Z -> cell_is n (k + o) o x = (k mod n =? x)%Z.
Proof.
  intros Hn Hx. unfold cell_is. replace (k + o - (o + x))%Z with (k - x)%Z by ring.
  apply eq_true_iff_eq. rewrite !Z.eqb_eq. split; intros H.
  - apply Z.mod_divide in H; [|lia]. destruct H as [q Hq]. replace k with (x + q * n)%Z by lia.
    rewrite Z.mod_add by lia. apply Z.mod_small. lia.
  - rewrite Zminus_mod, H, Z.mod_small with (a := x) by lia. rewrite Z.sub_diag. apply Z.mod_0_l. lia.
Qed.

Lemma same_is w a b x : same_cell w a b x = cell_is (ocells w) (b + vget (origin (bufCb w)) a) (vget (origin (domCb w)) a) x.
Proof. unfold same_cell, cell_is. do 2 f_equal. ring. Qed.

Lemma axes_in p : let '(i, j, k) := image_axes p in In i [0; 1; 2]%Z /\ In j [0; 1; 2]%Z /\ In k [0; 1; 2]%Z.
Proof. unfold image_axes. destruct p as [|[]|]; cbn; auto 10. Qed.

Lemma depth_cong n a b : (0 < n)%Z -> a = b -> (a mod n)%Z = (b mod n)%Z.
Proof. now intros _ ->. Qed.

Lemma pick_lands w p c v : valid_overlap w -> mergeable w -> thin w -> placeable w p -> in_grid (image_width w (domCb w)) c ->
  pick w c (fun j => if lands w p j then v else 0) = if falls w p c then v else 0.
Proof.
  intros (Hc & Hp & Hw) HM HT HP HI. unfold pick, falls, lands, landing, mergeable, placeable, image_width, thin in *.
  pose proof (axes_in (oproj w)) as HA. destruct (image_axes (oproj w)) as [[i j] d] eqn:EA, c as [[x y] z].
  destruct HM as [_ HM]. destruct (okd w) eqn:EK.
  - (* Segment2D *)
    destruct HP as (P1 & P2 & _). apply in_buffer_cell in P1; apply in_buffer_cell in P2. destruct P1 as [_ P1], P2 as [_ P2].
    rewrite sum_one. cbn [cell_index].
    replace (coord_cell p d + vget (origin (bufCb w)) d - vget (origin (domCb w)) d)%Z
      with (coord_cell p d - (vget (origin (domCb w)) d - vget (origin (bufCb w)) d))%Z by ring.
    destruct (_ <? vget (width (domCb w)) d)%Z; cbv iota.
    2:{ rewrite andb_false_r. apply sum_zero; intros yb Hy. apply sum_zero; intros xb Hx. match goal with |- (if ?c then _ else _) = _ => destruct c; auto end. }
    rewrite andb_true_r. rewrite <- !same_is.
    rewrite <- (sum_pick3 (vget (width (bufCb w)) i) (vget (width (bufCb w)) j) 1 (coord_cell p i) (coord_cell p j) 0
      (fun xb yb _ => if same_cell w i xb x && same_cell w j yb y then v else 0)) by (auto; lia).
    rewrite sum_one. apply sum_ext; intros yb Hy. apply sum_ext; intros xb Hx.
    destruct (same_cell w i xb x && same_cell w j yb y).
    2:{ match goal with |- _ = (if ?c then _ else _) => destruct c; auto end. }
    match goal with |- (if ?a then _ else _) = (if ?b then _ else _) => replace b with a; [reflexivity|] end.
    rewrite Z.eqb_refl, andb_true_r. apply eq_true_iff_eq. rewrite andb_true_iff, !Z.eqb_eq. split; [|intros [-> ->]; ring].
    intros E. destruct (index3_inj (vget (width (bufCb w)) i) (vget (width (bufCb w)) j) 1 xb yb 0 (coord_cell p i) (coord_cell p j) 0) as (E1 & E2 & _); auto; lia.
  - (* Segment3D *)
    destruct HP as (P1 & P2 & P3). apply in_buffer_cell in P1; apply in_buffer_cell in P2; apply in_buffer_cell in P3.
    destruct P1 as [_ P1], P2 as [_ P2], P3 as [_ P3]. cbn [wcell].
    rewrite <- !same_is.
    rewrite <- (sum_pick3 (v0 (width (bufCb w))) (v1 (width (bufCb w))) (v2 (width (bufCb w))) (coord_cell p 0) (coord_cell p 1) (coord_cell p 2)
      (fun xb yb zb => if same_cell w 0 xb x && same_cell w 1 yb y && same_cell w 2 zb z then v else 0)) by auto.
    apply sum_ext; intros zb Hz. apply sum_ext; intros yb Hy. apply sum_ext; intros xb Hx.
    destruct (same_cell w 0 xb x && same_cell w 1 yb y && same_cell w 2 zb z).
    2:{ match goal with |- _ = (if ?c then _ else _) => destruct c; auto end. }
    match goal with |- (if ?a then _ else _) = (if ?b then _ else _) => replace b with a; [reflexivity|] end.
    cbn [cell_index]. apply eq_true_iff_eq. rewrite !andb_true_iff, !Z.eqb_eq. split; [|intros [[-> ->] ->]; ring].
    intros E. destruct (index3_inj _ _ _ xb yb zb (coord_cell p 0) (coord_cell p 1) (coord_cell p 2) Hx Hy Hz P1 P2 P3); [exact E|tauto].
  - (* Domain2D *)
    destruct HM as (EB & H0 & H1). rewrite EB in *. cbn [in_grid] in HI. destruct HI as (Hx & Hy & Hz).
    destruct HA as (A1 & A2 & A3). pose proof (HT i A1). pose proof (HT j A2).
    rewrite sum_pick3 by auto. rewrite !cell_is_mod by lia. 
    replace (coord_cell p d + vget (origin (domCb w)) d - vget (origin (domCb w)) d)%Z with (coord_cell p d) by ring.
    assert (z = 0)%Z by lia. subst z. cbn [cell_index]. rewrite !Z.mul_0_l, !Z.add_0_r.
    pose proof (Z.mod_pos_bound (coord_cell p i) (ocells w) Hc). pose proof (Z.mod_pos_bound (coord_cell p j) (ocells w) Hc).
    set (a := (coord_cell p i mod ocells w)%Z) in *. set (b := (coord_cell p j mod ocells w)%Z) in *.
    destruct (coord_cell p d mod ocells w <? vget (width (domCb w)) d)%Z; cbv iota; rewrite ?andb_false_r, ?andb_true_r; [|reflexivity].
    destruct ((a <? _) && (b <? _))%Z eqn:EW; cbv iota.
    + match goal with |- (if ?a then _ else _) = (if ?b then _ else _) => replace b with a; [reflexivity|] end.
      apply eq_true_iff_eq. rewrite andb_true_iff, !Z.eqb_eq. split; [|intros [-> ->]; ring].
      intros E. destruct (index3_inj (vget (width (domCb w)) i) (vget (width (domCb w)) j) 1 x y 0 a b 0) as (E1 & E2 & _); auto; lia.
    + destruct ((a =? x) && (b =? y))%Z eqn:ES; auto. lia.
  - (* Domain3D *)
    destruct HM as (EB & H0 & H1 & H2). rewrite EB in *. cbn [in_grid wcell] in HI. destruct HI as (Hx & Hy & Hz).
    pose proof (HT 0%Z ltac:(cbn; auto)) as T0. pose proof (HT 1%Z ltac:(cbn; auto)) as T1. pose proof (HT 2%Z ltac:(cbn; auto)) as T2.
    cbn [vget Z.eqb Pos.eqb] in T0, T1, T2. cbn [wcell].
    rewrite sum_pick3 by auto. rewrite !cell_is_mod by lia. cbn [cell_index].
    pose proof (Z.mod_pos_bound (coord_cell p 0) (ocells w) Hc). pose proof (Z.mod_pos_bound (coord_cell p 1) (ocells w) Hc).
    pose proof (Z.mod_pos_bound (coord_cell p 2) (ocells w) Hc).
    set (a := (coord_cell p 0 mod ocells w)%Z) in *. set (b := (coord_cell p 1 mod ocells w)%Z) in *. set (e := (coord_cell p 2 mod ocells w)%Z) in *.
    destruct ((a <? _) && (b <? _) && (e <? _))%Z eqn:EW; cbv iota.
    + match goal with |- (if ?a then _ else _) = (if ?b then _ else _) => replace b with a; [reflexivity|] end.
      apply eq_true_iff_eq. rewrite !andb_true_iff, !Z.eqb_eq. split; [|intros [[-> ->] ->]; ring].
      intros E. destruct (index3_inj (v0 (width (domCb w))) (v1 (width (domCb w))) (v2 (width (domCb w))) x y z a b e) as (E1 & E2 & E3); auto; lia.
    + destruct ((a =? x) && (b =? y) && (e =? z))%Z eqn:ES; auto. lia.
Qed.

Definition count (f : vec3 R -> bool) (l : list (vec3 R)) : Z := zlen (filter f l).

Lemma pick_list w c (l : list (vec3 R)) v : valid_overlap w -> mergeable w -> thin w -> Forall (placeable w) l ->
  in_grid (image_width w (domCb w)) c ->
  pick w c (fun j => sum 0 (zlen l) (fun i => if lands w (nth (Z.to_nat i) l zero3) j then v else 0)) =
  IZR (count (fun p => falls w p c) l) * v.
Proof.
  intros HV HM HT HF HI. induction l as [|p l IH].
  - unfold count. cbn. rewrite Rmult_0_l. apply pick_zero. reflexivity.
  - inversion_clear HF as [|? ? Hp Hl]. specialize (IH Hl).
    assert (EZ : zlen (p :: l) = (zlen l + 1)%Z) by (unfold zlen; cbn [length]; lia).
    rewrite (pick_ext w c _ (fun j => (if lands w p j then v else 0) + sum 0 (zlen l) (fun i => if lands w (nth (Z.to_nat i) l zero3) j then v else 0))).
    + rewrite pick_plus, IH, pick_lands by auto. unfold count. cbn [filter]. destruct (falls w p c); [|lra].
      assert (EF : zlen (p :: filter (fun p0 => falls w p0 c) l) = (zlen (filter (fun p0 => falls w p0 c) l) + 1)%Z) by (unfold zlen; cbn [length]; lia).
      rewrite EF, plus_IZR. lra.
    + intros j _. rewrite EZ, sum_first by (pose proof (zlen_nonneg l); lia). cbn [Z.to_nat nth]. f_equal.
      rewrite <- (sum_shift 0 (zlen l) 1). apply sum_ext. intros k Hk.
      replace (Z.to_nat (k + 1)) with (S (Z.to_nat k)) by lia. reflexivity.
Qed.

(** A deposit raises what the image gets by the points in the cell. *)
Lemma deposit_image w b xs v : valid_overlap w -> mergeable w -> thin w -> sized b (buffer_size w) -> is_scalar b = true ->
  Forall (placeable w) xs ->
  exists b', interpolate (ND := RNum) (NF := RNum) w b xs v (WScalar []) 0 (zlen xs) 1 = Ok b' /\ sized b' (buffer_size w) /\ is_scalar b' = true /\
    forall c, in_grid (image_width w (domCb w)) c ->
      contribution w Value b' c = contribution w Value b c + IZR (count (fun p => falls w p c) xs) * point_value w v.
Proof.
  intros HV HM HT HS HSc HP.
  destruct (interpolate_ok w b xs v (WScalar [])) as (b' & E1 & E2 & E3 & E4 & _); auto.
  { destruct b; [cbn; auto|discriminate]. }
  exists b'. split; [auto|]. split; [auto|]. split; [congruence|]. intros c HC. rewrite !contribution_pick.
  rewrite (pick_ext w c _ (fun j => comp Value b j + sum 0 (zlen xs) (fun i => if lands w (nth (Z.to_nat i) xs zero3) j then point_value w v else 0))).
  - now rewrite pick_plus, pick_list.
  - intros j Hj. rewrite buffer_size_volume in Hj by auto. rewrite E4 by auto. f_equal. apply sum_ext. intros k _.
    destruct b; [reflexivity|discriminate].
Qed.
