(** Depositing points into buffers. *)
From Coq Require Import ZArith List Bool Reals Lra Lia ZifyBool ZifyNat.
From Flocq Require Import Core.Raux.
From Verif Require Import Base.Res Base.ResFacts Base.Stride Base.Num Model.Geom Model.GridDeriv Model.Density Model.Box.
From Verif Require Import Spec.Geometry Spec.Fields Spec.FieldDefs Spec.Matrix Spec.Deposits Proof.StrideP Proof.SumP.
Import ListNotations.
Open Scope R_scope.
Local Notation interpolateR := (interpolate (D := R) (F := R) (ND := RNum) (NF := RNum)).

Lemma int_floor_regular x : regular x -> int_floor (NF := RNum) x = Zfloor x.
Proof.
  intros H. unfold int_floor. cbn [nltb ntrunc nsub nofZ RNum].
  destruct (Rlt_bool_spec 0 x).
  - apply Ztrunc_floor; lra.
  - destruct H as [H|H]; [lra|]. rewrite Ztrunc_ceil by lra.
    unfold Zceil. replace (- (x - 1)) with (- x + IZR 1) by (simpl; lra).
    pose proof (Zceil_floor_neq x) as K. unfold Zceil in K.
    assert (E : Zfloor (- x + IZR 1) = (Zfloor (- x) + 1)%Z).
    { apply Zfloor_imp. rewrite !plus_IZR. pose proof (Zfloor_lb (- x)). pose proof (Zfloor_ub (- x)). simpl. lra. }
    rewrite E. specialize (K ltac:(intros K'; apply H; congruence)). lia.
Qed.

Lemma box_bound_mod x cells : (0 < cells)%Z -> (- cells <= x < 2 * cells)%Z -> box_bound x cells = (x mod cells)%Z.
Proof.
  intros Hc H. unfold box_bound. destruct (Z.ltb_spec x 0).
  - apply Z.mod_unique with (q := (-1)%Z); lia.
  - rewrite Z.geb_leb. destruct (Z.leb_spec cells x); [|symmetry; apply Z.mod_small; lia].
    apply Z.mod_unique with (q := 1%Z); lia.
Qed.

Lemma comp_scalar q v k : comp q (Scalar v) k = match q with Value => zn 0 v k | _ => 0 end.
Proof. destruct q; reflexivity. Qed.

Lemma deposit_ok b n k v w i m : sized b n -> (0 <= k < n)%Z -> fits b w m -> (0 <= i < m)%Z ->
  exists b', deposit (ND := RNum) b k v w i = Ok b' /\ sized b' n /\ is_scalar b' = is_scalar b /\
    forall q j, (0 <= j < n)%Z -> comp q b' j = comp q b j + (if (j =? k)%Z then amount b q v w i else 0).
Proof.
  intros HS Hk HF Hi. destruct b as [vals|vecs counts]; destruct w as [l|l]; cbn [fits sized] in *; try contradiction.
  - unfold deposit. destruct (Z.eqb_spec (zlen l) 0) as [E|E].
    + rewrite (get_ok 0) by lia. cbn [bind]. rewrite set_ok by lia. cbn [bind].
      eexists. split; [reflexivity|]. split; [cbn; rewrite zlen_upd; auto|]. split; [reflexivity|].
      intros q j Hj. rewrite !comp_scalar. destruct l; [|rewrite zlen_cons in E; pose proof (zlen_nonneg l); lia].
      destruct q; cbn [amount]; destruct (Z.eqb_spec j k) as [->|Hjk]; try lra.
      * rewrite zn_upd_eq by lia. reflexivity.
      * rewrite zn_upd_neq by lia. lra.
    + destruct HF as [HF|HF]; [lia|]. rewrite (get_ok 0) by lia. cbn [bind]. rewrite (get_ok 0) by lia. cbn [bind].
      rewrite set_ok by lia. cbn [bind].
      eexists. split; [reflexivity|]. split; [cbn; rewrite zlen_upd; auto|]. split; [reflexivity|].
      intros q j Hj. rewrite !comp_scalar. destruct l as [|x l]; [cbn in E; lia|].
      destruct q; cbn [amount]; destruct (Z.eqb_spec j k) as [->|Hjk]; try lra.
      * rewrite zn_upd_eq by lia. reflexivity.
      * rewrite zn_upd_neq by lia. lra.
  - destruct HS as [HS1 HS2]. unfold deposit. rewrite (get_ok zero3) by lia. cbn [bind].
    rewrite (get_ok zero3) by lia. cbn [bind]. rewrite set_ok by lia. cbn [bind].
    rewrite (get_ok 0%Z) by lia. cbn [bind]. rewrite set_ok by lia. cbn [bind].
    eexists. split; [reflexivity|]. split; [cbn; rewrite !zlen_upd; auto|]. split; [reflexivity|].
    intros q j Hj. destruct q; cbn [comp amount]; fold (zn zero3 vecs j); fold (zn 0%Z counts j);
      try (match goal with |- context [nth (Z.to_nat j) (upd vecs ?p ?x) zero3] =>
             change (nth (Z.to_nat j) (upd vecs p x) zero3) with (zn zero3 (upd vecs p x) j) end);
      try (match goal with |- context [nth (Z.to_nat j) (upd counts ?p ?x) 0%Z] =>
             change (nth (Z.to_nat j) (upd counts p x) 0%Z) with (zn 0%Z (upd counts p x) j) end);
      destruct (Z.eqb_spec j k) as [->|Hjk]; try lra;
      try (rewrite zn_upd_eq by lia; reflexivity); try (rewrite zn_upd_neq by lia; lra).
    rewrite zn_upd_eq by lia. apply plus_IZR.
Qed.

Lemma is_scalar_amount b b' q v w i : is_scalar b = is_scalar b' -> amount b q v w i = amount b' q v w i.
Proof. destruct b, b'; cbn; intros H; try discriminate; reflexivity. Qed.
Lemma is_scalar_fits b b' w n : is_scalar b = is_scalar b' -> fits b w n -> fits b' w n.
Proof. destruct b, b'; cbn; intros H; try discriminate; auto. Qed.

Lemma deposit_loop (target : vec3 R -> option Z) xs v w n b (body : Z -> contents R -> res (contents R)) :
  sized b n -> fits b w (zlen xs) ->
  (forall p k, In p xs -> target p = Some k -> (0 <= k < n)%Z) ->
  (forall i b, (0 <= i < zlen xs)%Z -> body i b =
     match target (zn zero3 xs i) with Some k => deposit b k v w i | None => Ok b end) ->
  exists b', stride 0 (zlen xs) 1 body b = Ok b' /\ sized b' n /\ is_scalar b' = is_scalar b /\
    forall q j, (0 <= j < n)%Z -> comp q b' j = comp q b j +
      sum 0 (zlen xs) (fun i => if match target (zn zero3 xs i) with Some k => (j =? k)%Z | None => false end
                                then amount b q v w i else 0).
Proof.
  intros HS HF HT HB. rewrite stride_one by apply zlen_nonneg. apply wp_ok.
  apply (for_inv (fun m b' => sized b' n /\ is_scalar b' = is_scalar b /\
    forall q j, (0 <= j < n)%Z -> comp q b' j = comp q b j +
      sum 0 m (fun i => if match target (zn zero3 xs i) with Some k => (j =? k)%Z | None => false end
                                then amount b q v w i else 0))); [apply zlen_nonneg| |].
  - split; [auto|split; [auto|]]. intros. rewrite sum_nil by lia. lra.
  - intros i b1 Hi (H1 & H2 & H3). rewrite HB by lia. apply wp_ok.
    destruct (target (zn zero3 xs i)) as [k|] eqn:E.
    + destruct (deposit_ok b1 n k v w i (zlen xs)) as (b2 & D1 & D2 & D3 & D4); auto.
      * eapply HT; [|exact E]. unfold zn. apply nth_In. unfold zlen in Hi. lia.
      * eapply is_scalar_fits; [|exact HF]. congruence.
      * exists b2. split; [auto|]. split; [auto|]. split; [congruence|]. intros q j Hj.
        rewrite D4, H3 by auto. rewrite sum_last by lia. rewrite E.
        rewrite (is_scalar_amount b1 b) by auto. lra.
    + exists b1. split; [auto|]. split; [auto|]. split; [auto|]. intros q j Hj.
      rewrite H3 by auto. rewrite sum_last by lia. rewrite E. lra.
Qed.

Lemma total_change q b b' n (f : Z -> option Z) (a : Z -> R) m :
  (forall k i, (0 <= i < m)%Z -> f i = Some k -> (0 <= k < n)%Z) ->
  (forall j, (0 <= j < n)%Z -> comp q b' j = comp q b j +
     sum 0 m (fun i => if match f i with Some k => (j =? k)%Z | None => false end then a i else 0)) ->
  total q b' n = total q b n + sum 0 m (fun i => match f i with Some _ => a i | None => 0 end).
Proof.
  intros HF H. unfold total.
  rewrite (sum_ext 0 n (fun k => comp q b' k) _ H). rewrite sum_plus. f_equal. rewrite sum_swap. apply sum_ext. intros i Hi.
  destruct (f i) as [k|] eqn:E; [|apply sum_zero; auto].
  rewrite (sum_single _ _ _ k); [rewrite Z.eqb_refl; reflexivity|apply (HF k i); auto|].
  intros j Hj Hjk. replace (j =? k)%Z with false by lia. reflexivity.
Qed.

Lemma image_axes_dims p : (0 <= p <= 2)%Z -> image_axes p = dims p.
Proof. intros H. assert (p = 0 \/ p = 1 \/ p = 2)%Z as [->|[->| ->]] by lia; reflexivity. Qed.

Lemma in_buffer_cell w p a : in_buffer w p a ->
  ntrunc (Num := RNum) (vget p a) = coord_cell p a /\ (0 <= coord_cell p a < vget (width (bufCb w)) a)%Z.
Proof.
  unfold in_buffer, coord_cell. intros [H1 H2]. split; [apply Ztrunc_floor; auto|]. split.
  - apply Zfloor_lub. exact H1.
  - apply lt_IZR. pose proof (Zfloor_lb (vget p a)). lra.
Qed.

Lemma cell_index_range3 a b c x y z : (0 <= x < a)%Z -> (0 <= y < b)%Z -> (0 <= z < c)%Z ->
  (0 <= x + y * a + z * (a * b) < a * b * c)%Z.
Proof.
  intros Hx Hy Hz. assert (0 <= y * a)%Z by nia. assert (HA : (0 <= a * b)%Z) by nia.
  pose proof (Z.mul_nonneg_nonneg z (a * b) ltac:(lia) HA).
  assert (x + y * a < a * b)%Z by nia.
  pose proof (Z.mul_le_mono_nonneg_r (z + 1) c (a * b) HA ltac:(lia)). lia.
Qed.

Ltac axes w HP :=
  let i := fresh "E" in
  assert (i : oproj w = 0%Z \/ oproj w = 1%Z \/ oproj w = 2%Z)
    by (let K := fresh in destruct HP as [K|[K|K]]; [lia|exfalso; congruence|exfalso; congruence]);
  destruct i as [i|[i|i]]; rewrite ?i in *; cbn [image_axes dims Z.eqb Pos.eqb] in *.

Lemma landing_range w p k : valid_overlap w -> placeable w p -> landing w p = Some k -> (0 <= k < buffer_size w)%Z.
Proof.
  intros (Hc & Hp & Hw) HP HL. unfold landing, placeable, buffer_size in *.
  destruct (okd w) eqn:EK.
  - axes w Hp; [| |]; destruct HP as (H1 & H2 & H3);
      apply in_buffer_cell in H1; apply in_buffer_cell in H2; destruct H1 as [_ H1], H2 as [_ H2];
      match type of HL with (if ?c then _ else _) = _ => destruct c; [|discriminate] end; injection HL as <-; cbn [vget Z.eqb Pos.eqb] in *; nia.
  - destruct (image_axes (oproj w)) as [[i j] k']. destruct HP as (H1 & H2 & H3).
    apply in_buffer_cell in H1; apply in_buffer_cell in H2; apply in_buffer_cell in H3.
    destruct H1 as [_ H1], H2 as [_ H2], H3 as [_ H3]. injection HL as <-. apply cell_index_range3; auto.
  - axes w Hp; [| |];
      match type of HL with (if ?c then _ else _) = _ => destruct c eqn:EB; [|discriminate] end;
      injection HL as <-; apply andb_prop in EB; destruct EB as [EB E3]; apply andb_prop in EB; destruct EB as [E1 E2];
      apply Z.ltb_lt in E1, E2, E3; cbn [vget Z.eqb Pos.eqb] in *.
    + pose proof (Z.mod_pos_bound (coord_cell p 1) (ocells w) Hc). pose proof (Z.mod_pos_bound (coord_cell p 2) (ocells w) Hc). nia.
    + pose proof (Z.mod_pos_bound (coord_cell p 0) (ocells w) Hc). pose proof (Z.mod_pos_bound (coord_cell p 2) (ocells w) Hc). nia.
    + pose proof (Z.mod_pos_bound (coord_cell p 0) (ocells w) Hc). pose proof (Z.mod_pos_bound (coord_cell p 1) (ocells w) Hc). nia.
  - destruct (image_axes (oproj w)) as [[i j] k'].
    match type of HL with (if ?c then _ else _) = _ => destruct c eqn:EB; [|discriminate] end.
    injection HL as <-; apply andb_prop in EB; destruct EB as [EB E3]; apply andb_prop in EB; destruct EB as [E1 E2].
    apply Z.ltb_lt in E1, E2, E3. apply cell_index_range3; split; auto; apply Z.mod_pos_bound; auto.
Qed.

Lemma interpolate_ok w b xs v bw : valid_overlap w -> sized b (buffer_size w) -> fits b bw (zlen xs) ->
  Forall (placeable w) xs ->
  exists b', interpolateR w b xs v bw 0 (zlen xs) 1 = Ok b' /\ sized b' (buffer_size w) /\ is_scalar b' = is_scalar b /\
    (forall q j, (0 <= j < buffer_size w)%Z -> comp q b' j = comp q b j +
      sum 0 (zlen xs) (fun i => if lands w (nth (Z.to_nat i) xs zero3) j then amount b q (point_value w v) bw i else 0)) /\
    (forall q, total q b' (buffer_size w) = total q b (buffer_size w) +
      sum 0 (zlen xs) (fun i => match landing w (nth (Z.to_nat i) xs zero3) with
                                | Some _ => amount b q (point_value w v) bw i | None => 0 end)).
Proof.
  intros HV HS HF HP. rewrite Forall_forall in HP.
  assert (HR : forall p k, In p xs -> landing w p = Some k -> (0 <= k < buffer_size w)%Z).
  { intros p k Hp. apply landing_range; auto. }
  assert (HPI : forall i, (0 <= i < zlen xs)%Z -> placeable w (zn zero3 xs i)).
  { intros i Hi. apply HP. unfold zn. apply nth_In. unfold zlen in Hi. lia. }
  assert (K : exists body, interpolateR w b xs v bw 0 (zlen xs) 1 = stride 0 (zlen xs) 1 body b /\
    (forall i b, (0 <= i < zlen xs)%Z -> body i b =
     match landing w (zn zero3 xs i) with Some k => deposit b k (point_value w v) bw i | None => Ok b end)).
  { destruct HV as (Hc & Hp & Hw). unfold interpolate.
    destruct (okd w) eqn:EK.
    - unfold interpolate_seg2. rewrite <- image_axes_dims by (destruct Hp as [?|[?|?]]; [auto|congruence|congruence]).
      destruct (image_axes (oproj w)) as [[i j] k] eqn:EA.
      eexists. split; [reflexivity|]. intros t b1 Ht. cbn beta. rewrite (get_ok zero3) by lia. cbn [bind].
      specialize (HPI t Ht). set (p := zn zero3 xs t) in *. unfold placeable in HPI. rewrite EA, EK in HPI.
      destruct HPI as (H1 & H2 & H3 & H4).
      apply in_buffer_cell in H1; apply in_buffer_cell in H2. destruct H1 as [E1 H1], H2 as [E2 H2].
      rewrite int_floor_regular by auto. fold (coord_cell p k) in *. rewrite box_bound_mod by auto.
      unfold landing, point_value. rewrite EA, EK.
      pose proof (Z.mod_pos_bound (coord_cell p k - (vget (origin (domCb w)) k - vget (origin (bufCb w)) k)) (ocells w) Hc) as HM.
      rewrite Z.geb_leb. replace (0 <=? _)%Z with true by lia. rewrite andb_true_r.
      destruct (_ <? vget (width (domCb w)) k)%Z; [|reflexivity]. rewrite E1, E2. reflexivity.
    - unfold interpolate_seg3. eexists. split; [reflexivity|]. intros t b1 Ht. cbn beta. rewrite (get_ok zero3) by lia. cbn [bind].
      specialize (HPI t Ht). set (p := zn zero3 xs t) in *. unfold placeable in HPI. rewrite EK in HPI.
      unfold landing, point_value. rewrite EK. destruct (image_axes (oproj w)) as [[i j] k].
      destruct HPI as (H1 & H2 & H3). apply in_buffer_cell in H1; apply in_buffer_cell in H2; apply in_buffer_cell in H3.
      destruct H1 as [E1 H1], H2 as [E2 H2], H3 as [E3 H3]. cbn [vget Z.eqb Pos.eqb] in E1, E2, E3. rewrite E1, E2, E3.
      reflexivity.
    - unfold interpolate_dom2. rewrite <- image_axes_dims by (destruct Hp as [?|[?|?]]; [auto|congruence|congruence]).
      destruct (image_axes (oproj w)) as [[i j] k] eqn:EA.
      eexists. split; [reflexivity|]. intros t b1 Ht. cbn beta. rewrite (get_ok zero3) by lia. cbn [bind].
      specialize (HPI t Ht). set (p := zn zero3 xs t) in *. unfold placeable in HPI. rewrite EA, EK in HPI.
      assert (HA : forall a, near w 0 (vget p a)).
      { intros a. destruct HPI as (H1 & H2 & H3). unfold vget. destruct (a =? 0)%Z; auto. destruct (a =? 1)%Z; auto. }
      assert (HB : forall a, box_bound (int_floor (NF := RNum) (vget p a)) (ocells w) = (coord_cell p a mod ocells w)%Z).
      { intros a. destruct (HA a) as [HA1 HA2]. rewrite int_floor_regular by auto. apply box_bound_mod; auto.
        rewrite Z.sub_0_r in HA2. exact HA2. }
      rewrite !HB. unfold landing, point_value. rewrite EA, EK. cbv zeta.
      destruct (_ <? vget (width (bufCb w)) i)%Z; [|reflexivity].
      destruct (_ <? vget (width (bufCb w)) j)%Z; [|reflexivity].
      destruct (_ <? vget (width (bufCb w)) k)%Z; reflexivity.
    - unfold interpolate_dom3. eexists. split; [reflexivity|]. intros t b1 Ht. cbn beta. rewrite (get_ok zero3) by lia. cbn [bind].
      specialize (HPI t Ht). set (p := zn zero3 xs t) in *. unfold placeable in HPI. rewrite EK in HPI.
      unfold landing, point_value. rewrite EK. destruct (image_axes (oproj w)) as [[i j] k].
      assert (HA : forall a, near w 0 (vget p a)).
      { intros a. destruct HPI as (H1 & H2 & H3). unfold vget. destruct (a =? 0)%Z; auto. destruct (a =? 1)%Z; auto. }
      assert (HB : forall a, box_bound (int_floor (NF := RNum) (vget p a)) (ocells w) = (coord_cell p a mod ocells w)%Z).
      { intros a. destruct (HA a) as [HA1 HA2]. rewrite int_floor_regular by auto. apply box_bound_mod; auto.
        rewrite Z.sub_0_r in HA2. exact HA2. }
      pose proof (HB 0%Z) as HB0. pose proof (HB 1%Z) as HB1. pose proof (HB 2%Z) as HB2. cbn [vget Z.eqb Pos.eqb] in HB0, HB1, HB2.
      rewrite HB0, HB1, HB2. cbv zeta.
      destruct (_ <? v0 (width (bufCb w)))%Z; [|reflexivity].
      destruct (_ <? v1 (width (bufCb w)))%Z; [|reflexivity].
      destruct (_ <? v2 (width (bufCb w)))%Z; reflexivity. }
  destruct K as (body & EB & HB). rewrite EB.
  destruct (deposit_loop (landing w) xs (point_value w v) bw (buffer_size w) b body HS HF HR HB) as (b' & K1 & K2 & K3 & K4).
  exists b'. split; [auto|]. split; [auto|]. split; [auto|]. split; [exact K4|].
  intros q. apply (total_change q b b' (buffer_size w) (fun i => landing w (zn zero3 xs i)) (fun i => amount b q (point_value w v) bw i)).
  - intros k i Hi E. eapply HR; [|exact E]. unfold zn. apply nth_In. unfold zlen in Hi. lia.
  - intros j Hj. apply K4; auto.
Qed.
