(** Cubic splines in exact arithmetic. *)
From Coq Require Import ZArith List Lia Lra Bool Reals Psatz.
From Coq Require Import ZifyBool ZifyNat.
From Flocq Require Import Core.Raux.
From Verif Require Import Base.Res Base.ResFacts Base.Num Model.Interp Model.Spline
  Spec.Interpolation Spec.Cubic Proof.InterpP Proof.TriDiagP.
Import ListNotations.
Open Scope R_scope.
Local Notation zr := (zn 0).

(** Strictly monotone tables. *)
Definition monof (incr : bool) (n : Z) (f : Z -> R) : Prop :=
  forall i, (0 <= i < n - 1)%Z -> if incr then f i < f (i + 1)%Z else f (i + 1)%Z < f i.

Definition ord (incr : bool) (a b : R) : Prop := if incr then a < b else b < a.
Definition btw (incr : bool) (a b x : R) : Prop := if incr then a <= x <= b else b <= x <= a.

Lemma monof_lt incr n f : monof incr n f -> forall i j, (0 <= i < j)%Z -> (j < n)%Z -> ord incr (f i) (f j).
Proof.
  intros M i j Hij Hj. destruct incr; cbn [ord].
  - apply (incf_lt n); auto.
  - assert (incf n (fun k => - f k)) as I by (intros k Hk; specialize (M k Hk); cbn in M; lra).
    pose proof (incf_lt n _ I i j Hij Hj). cbv beta in *. lra.
Qed.

Lemma increasing_monof xs : increasing xs -> monof true (zlen xs) (zr xs).
Proof. intros I i Hi. apply (increasing_incf xs I i Hi). Qed.

Lemma decreasing_monof xs : decreasing xs -> monof false (zlen xs) (zr xs).
Proof.
  induction xs as [|a [|b t] IH]; intros H i Hi.
  - cbn in Hi; lia.
  - cbn in Hi; lia.
  - destruct H as [H1 H2]. rewrite zlen_cons in Hi.
    destruct (Z.eq_dec i 0) as [->|N]; [exact H1|].
    specialize (IH H2 (i - 1)%Z ltac:(lia)).
    unfold zn in *. replace (Z.to_nat i) with (S (Z.to_nat (i - 1))) by lia.
    replace (Z.to_nat (i + 1)) with (S (Z.to_nat (i - 1 + 1))) by lia. exact IH.
Qed.

(** ** Construction *)
Lemma check_sorted_ok (xs : list R) incr : (1 <= zlen xs)%Z -> monof incr (zlen xs) (zr xs) ->
  check_sorted xs incr = Ok tt.
Proof.
  intros N M. unfold check_sorted.
  assert (wp (for_ 0 (zlen xs - 1) (fun i (_ : unit) =>
    b <- get xs (i + 1) ;; a <- get xs i ;;
    if (if incr then (b <? a)%num else (b >? a)%num) then Panic else Ok tt)%res tt) (fun _ => True)) as W.
  { apply (for_inv (fun _ _ => True)); auto; [lia|]. intros i [] Hi _.
    rewrite !(get_ok 0) by lia. cbn [bind]. rn. specialize (M i Hi). destruct incr; rewrite Rlt_bool_false by lra; exact I. }
  apply wp_ok in W. destruct W as [[] [-> _]]. reflexivity.
Qed.

Definition coeff_of (xs ys : list R) (Y : Z -> R) (i : Z) : coeff R :=
  Coeff ((- Y i / 6 + Y (i + 1)%Z / 6) / (zr xs (i + 1)%Z - zr xs i)) (Y i / 2)
    ((zr ys (i + 1)%Z - zr ys i) / (zr xs (i + 1)%Z - zr xs i) +
     (zr xs (i + 1)%Z - zr xs i) * (- Y i / 3 - Y (i + 1)%Z / 6)) (zr ys i).

Record is_spline (sp : spline R) (xs ys : list R) (incr : bool) (Y : Z -> R) : Prop := {
  is_n : (3 <= zlen xs)%Z;
  is_l : zlen ys = zlen xs;
  is_m : monof incr (zlen xs) (zr xs);
  is_xs : sp_xs sp = xs;
  is_ys : sp_ys sp = ys;
  is_incr : sp_incr sp = incr;
  is_lc : zlen (sp_coeffs sp) = (zlen xs - 1)%Z;
  is_c : forall d i, (0 <= i < zlen xs - 1)%Z -> zn d (sp_coeffs sp) i = coeff_of xs ys Y i;
  is_0 : Y 0%Z = 0;
  is_e : Y (zlen xs - 1)%Z = 0;
  is_eq : forall j, (1 <= j < zlen xs - 1)%Z ->
    (zr xs j - zr xs (j - 1)%Z) / 6 * Y (j - 1)%Z + (zr xs (j + 1)%Z - zr xs (j - 1)%Z) / 3 * Y j +
    (zr xs (j + 1)%Z - zr xs j) / 6 * Y (j + 1)%Z =
    (zr ys (j + 1)%Z - zr ys j) / (zr xs (j + 1)%Z - zr xs j) -
    (zr ys j - zr ys (j - 1)%Z) / (zr xs j - zr xs (j - 1)%Z)
}.

Lemma calc_y2s_ok (xs ys y2s : list R) incr : (3 <= zlen xs)%Z -> zlen ys = zlen xs -> zlen y2s = zlen xs ->
  monof incr (zlen xs) (zr xs) ->
  exists z, calc_y2s xs ys y2s = Ok z /\ zlen z = zlen xs /\ zr z 0 = 0 /\ zr z (zlen xs - 1)%Z = 0 /\
    forall j, (1 <= j < zlen xs - 1)%Z ->
    (zr xs j - zr xs (j - 1)%Z) / 6 * zr z (j - 1)%Z + (zr xs (j + 1)%Z - zr xs (j - 1)%Z) / 3 * zr z j +
    (zr xs (j + 1)%Z - zr xs j) / 6 * zr z (j + 1)%Z =
    (zr ys (j + 1)%Z - zr ys j) / (zr xs (j + 1)%Z - zr xs j) -
    (zr ys j - zr ys (j - 1)%Z) / (zr xs j - zr xs (j - 1)%Z).
Proof.
  intros N Ly L2 M. set (n := zlen xs) in *. unfold calc_y2s. fold n. cbv beta zeta. rn.
  pose (fa := fun i => (zr xs (i + 1)%Z - zr xs (i + 1 - 1)%Z) / 6).
  pose (fb := fun i => (zr xs (i + 1 + 1)%Z - zr xs (i + 1 - 1)%Z) / 3).
  pose (fc := fun i => (zr xs (i + 1 + 1)%Z - zr xs (i + 1)%Z) / 6).
  pose (fr := fun i => (zr ys (i + 1 + 1)%Z - zr ys (i + 1)%Z) / (zr xs (i + 1 + 1)%Z - zr xs (i + 1)%Z) -
    (zr ys (i + 1)%Z - zr ys (i + 1 - 1)%Z) / (zr xs (i + 1)%Z - zr xs (i + 1 - 1)%Z)).
  rewrite (tabulate_ok _ fa) by (try lia; intros k Hk; rewrite !(get_ok 0) by lia; reflexivity). cbn [bind].
  rewrite (tabulate_ok _ fb) by (try lia; intros k Hk; rewrite !(get_ok 0) by lia; reflexivity). cbn [bind].
  rewrite (tabulate_ok _ fc) by (try lia; intros k Hk; rewrite !(get_ok 0) by lia; reflexivity). cbn [bind].
  rewrite (tabulate_ok _ fr) by (try lia; intros k Hk; rewrite !(get_ok 0) by lia; reflexivity). cbn [bind].
  rewrite set_ok by lia. cbn [bind]. rewrite set_ok by (rewrite zlen_upd; lia). cbn [bind].
  set (z0 := upd (upd y2s (Z.to_nat 0) 0) (Z.to_nat (n - 1)) 0).
  assert (zlen z0 = n) as Lz0 by (unfold z0; now rewrite !zlen_upd).
  rewrite slice_ok by lia. cbn [bind]. set (mid := firstn _ _).
  assert (zlen mid = (n - 2)%Z) as Lmid by (unfold mid; rewrite zlen_slice; lia).
  assert (forall i, (0 <= i < n - 2)%Z -> fa i <> 0 /\ fb i <> 0 /\ fc i <> 0) as _.
  { intros; unfold fa, fb, fc. split; [|split]; replace (i + 1 - 1)%Z with i by lia;
      pose proof (monof_lt _ _ _ M i (i + 1)%Z ltac:(lia) ltac:(lia));
      pose proof (monof_lt _ _ _ M (i + 1)%Z (i + 1 + 1)%Z ltac:(lia) ltac:(lia)); destruct incr; cbn in *; lra. }
  destruct (tri_diag_total (ztab (n - 2) fa) (ztab (n - 2) fb) (ztab (n - 2) fc) (ztab (n - 2) fr) mid) as [u Hu].
  1-5: pose proof (zlen_ztab (n - 2) fa ltac:(lia)); pose proof (zlen_ztab (n - 2) fb ltac:(lia));
    pose proof (zlen_ztab (n - 2) fc ltac:(lia)); pose proof (zlen_ztab (n - 2) fr ltac:(lia)); unfold zlen in *; lia.
  { intros i Hi. pose proof (zlen_ztab (n - 2) fb ltac:(lia)) as LB. unfold zlen in LB.
    assert (forall f, nth i (ztab (n - 2) f) 0 = f (Z.of_nat i)) as K.
    { intros f. rewrite <- (zn_ztab 0 (n - 2) f (Z.of_nat i)) by lia. unfold zn. now rewrite Nat2Z.id. }
    rewrite !K. generalize (Nat.eqb i 0) (Nat.eqb (S i) (length (ztab (n - 2) fb))). intros e1 e2.
    unfold fa, fb, fc. replace (Z.of_nat i + 1 - 1)%Z with (Z.of_nat i) by lia.
    pose proof (monof_lt _ _ _ M (Z.of_nat i) (Z.of_nat i + 1)%Z ltac:(lia) ltac:(lia)) as M1.
    pose proof (monof_lt _ _ _ M (Z.of_nat i + 1)%Z (Z.of_nat i + 1 + 1)%Z ltac:(lia) ltac:(lia)) as M2.
    generalize dependent (zr xs (Z.of_nat i + 1 + 1)%Z). generalize dependent (zr xs (Z.of_nat i + 1)%Z).
    generalize (zr xs (Z.of_nat i)).
    clear. intros a b M1 c M2.
    assert ((if e1 then 0 else Rabs ((b - a) / 6)) <= Rabs ((b - a) / 6))
      by (destruct e1; [apply Rabs_pos|apply Rle_refl]).
    assert ((if e2 then 0 else Rabs ((c - b) / 6)) <= Rabs ((c - b) / 6))
      by (destruct e2; [apply Rabs_pos|apply Rle_refl]).
    assert (Rabs ((b - a) / 6) + Rabs ((c - b) / 6) < Rabs ((c - a) / 3));
      [|eapply Rle_lt_trans; [apply Rplus_le_compat; eassumption|assumption]].
    clear H H0. destruct incr; cbn in *.
    - rewrite !Rabs_pos_eq; lra.
    - rewrite !Rabs_left; lra. }
  rewrite Hu. cbn [bind]. pose proof (tri_diag_solves _ _ _ _ _ _ Hu) as [Lu SOL].
  assert (length (ztab (n - 2) fr) = Z.to_nat (n - 2)) as LR
    by (pose proof (zlen_ztab (n - 2) fr ltac:(lia)); unfold zlen in *; lia).
  rewrite LR in Lu, SOL.
  assert (zlen u = (n - 2)%Z) as Zu by (unfold zlen; lia).
  set (z := firstn 1 z0 ++ u ++ skipn (Z.to_nat (n - 1)) z0).
  assert (zlen (firstn 1 z0) = 1%Z) as L1 by (apply (zlen_firstn z0 1); lia).
  assert (zlen (skipn (Z.to_nat (n - 1)) z0) = 1%Z) as LE by (rewrite zlen_skipn; lia).
  assert (forall k, (0 <= k < n)%Z -> zr z k = if (k =? 0)%Z then 0 else if (k =? n - 1)%Z then 0 else zr u (k - 1)%Z) as ZE.
  { intros k Hk. unfold z. rewrite zn_app by lia. rewrite L1. destruct (Z.ltb_spec k 1).
    - destruct (Z.eqb_spec k 0); [subst|lia]. change 1%nat with (Z.to_nat 1). rewrite zn_firstn by lia.
      unfold z0. rewrite zn_upd_neq by (rewrite ?zlen_upd; lia). rewrite zn_upd_eq by lia. reflexivity.
    - destruct (Z.eqb_spec k 0); [lia|]. rewrite zn_app by lia. rewrite Zu.
      destruct (Z.ltb_spec (k - 1) (n - 2)), (Z.eqb_spec k (n - 1)); try lia; auto.
      rewrite zn_skipn by lia. subst k. replace (n - 1 + (n - 1 - 1 - (n - 2)))%Z with (n - 1)%Z by lia.
      unfold z0. rewrite zn_upd_eq by (rewrite ?zlen_upd; lia). reflexivity. }
  exists z. split; [reflexivity|]. split; [unfold z; rewrite !zlen_app; lia|].
  split; [rewrite ZE by lia; reflexivity|].
  split; [rewrite ZE by lia; rewrite Z.eqb_refl; destruct (n - 1 =? 0)%Z; reflexivity|].
  intros j Hj. specialize (SOL (Z.to_nat (j - 1)) ltac:(lia)). rewrite zrow in SOL by lia.
  rewrite !Z2Nat.id in SOL by lia.
  assert (nth (Z.to_nat (j - 1)) (ztab (n - 2) fr) 0 = fr (j - 1)%Z) as RF by (apply (zn_ztab 0 (n - 2) fr); lia).
  rewrite RF in SOL. rewrite !zn_ztab in SOL by lia. unfold fa, fb, fc, fr in SOL.
  replace (j - 1 + 1)%Z with j in SOL by lia. rewrite <- SOL. rewrite !ZE by lia.
  replace (j + 1 - 1)%Z with j by lia.
  destruct (Z.eqb_spec (j - 1) 0), (Z.eqb_spec (j - 1) (n - 1)), (Z.eqb_spec j 0), (Z.eqb_spec j (n - 1)),
    (Z.eqb_spec (j + 1) 0), (Z.eqb_spec (j + 1) (n - 1)), (Z.eqb_spec (j - 1) (n - 2 - 1)); try lia; ring.
Qed.

Lemma calc_coeffs_ok (xs ys z : list R) : (1 <= zlen xs)%Z -> zlen ys = zlen xs -> zlen z = zlen xs ->
  calc_coeffs xs ys z (zlen xs - 1) = Ok (ztab (zlen xs - 1) (coeff_of xs ys (zr z))).
Proof.
  intros N Ly Lz. unfold calc_coeffs. rn. apply tabulate_ok; [lia|]. intros k Hk.
  rewrite !(get_ok 0) by lia. reflexivity.
Qed.

Lemma spline_init_ok sp0 (xs ys : list R) incr : (3 <= zlen xs)%Z -> zlen ys = zlen xs ->
  monof incr (zlen xs) (zr xs) ->
  zlen (sp_xs sp0) = zlen xs -> zlen (sp_ys sp0) = zlen xs -> zlen (sp_y2s sp0) = zlen xs ->
  zlen (sp_coeffs sp0) = (zlen xs - 1)%Z ->
  exists sp Y, spline_init sp0 xs ys = Ok sp /\ is_spline sp xs ys incr Y.
Proof.
  intros N Ly M L1 L2 L3 L4. unfold spline_init. rewrite L1, L2, Ly, Z.eqb_refl. cbn [negb orb].
  rewrite !(get_ok 0) by lia. cbn [bind]. rn.
  assert (Rlt_bool (zr xs 0) (zr xs 1) = incr) as EI.
  { specialize (M 0%Z ltac:(lia)). cbn in M. destruct incr; [apply Rlt_bool_true|apply Rlt_bool_false]; lra. }
  rewrite EI. rewrite check_sorted_ok by (auto; lia). cbn [bind].
  destruct (calc_y2s_ok xs ys (sp_y2s sp0) incr N Ly L3 M) as [z [-> [Lz [Z0 [Z1 ZE]]]]]. cbn [bind].
  rewrite L4, calc_coeffs_ok by lia. cbn [bind].
  eexists _, (zr z). split; [reflexivity|].
  split; cbn [sp_xs sp_ys sp_incr sp_coeffs]; auto.
  - apply zlen_ztab. lia.
  - intros d i Hi. apply zn_ztab. lia.
Qed.

Lemma new_spline_ok (xs ys : list R) incr : (3 <= zlen xs)%Z -> zlen ys = zlen xs ->
  monof incr (zlen xs) (zr xs) ->
  exists sp Y, new_spline xs ys = Ok sp /\ is_spline sp xs ys incr Y.
Proof.
  intros N Ly M. unfold new_spline. rewrite Ly, Z.eqb_refl. cbn [negb].
  destruct (Z.leb_spec (zlen xs) 1); [lia|]. apply spline_init_ok; auto; cbn [sp_xs sp_ys sp_y2s sp_coeffs]; auto.
  - rewrite zlen_repeat. reflexivity.
  - rewrite zlen_repeat. unfold zlen in *. lia.
Qed.

(** ** Evaluation *)
Definition cub (xs ys : list R) (Y : Z -> R) (i : Z) : cubic :=
  let k := coeff_of xs ys Y i in Cubic (zr xs i) (cd k) (cc k) (cb k) (ca k).

Fixpoint cubic_dn (k : nat) (p : cubic) : cubic :=
  match k with O => p | S k' => cubic_d (cubic_dn k' p) end.

Lemma deriv_high (z : Z) (a b c d e : R) : (4 <= z)%Z ->
  match z with 0 => a | 1 => b | 2 => c | 3 => d | _ => e end%Z = e.
Proof. destruct z as [|p|p]; try lia. destruct p as [[p|p|]|[p|p|]|]; try lia; auto. Qed.

Lemma cubic_high k p x : (4 <= k)%nat -> cubic_at (cubic_dn k p) x = 0.
Proof.
  intros H.
  assert (forall m p, (q0 p = 0 /\ q1 p = 0 /\ q2 p = 0 /\ q3 p = 0) ->
    q0 (cubic_dn m p) = 0 /\ q1 (cubic_dn m p) = 0 /\ q2 (cubic_dn m p) = 0 /\ q3 (cubic_dn m p) = 0) as Z0.
  { clear. induction m; cbn [cubic_dn]; auto. intros p Hp. specialize (IHm p Hp).
    destruct IHm as [? [A [B C]]]. unfold cubic_d; cbn [q0 q1 q2 q3].
    rewrite A, B, C. split; [ring|]. split; [ring|]. split; ring. }
  assert (forall m p, cubic_dn (m + 4) p = cubic_dn m (cubic_dn 4 p)) as AD.
  { clear. induction m; intros p; [reflexivity|]. cbn [Nat.add cubic_dn]. rewrite IHm. reflexivity. }
  replace k with ((k - 4) + 4)%nat by lia. rewrite AD.
  destruct (Z0 (k - 4)%nat (cubic_dn 4 p)) as [A [B [C D]]].
  { unfold cubic_d; cbn [cubic_dn cubic_d q0 q1 q2 q3]. split; [ring|]. split; [ring|]. split; ring. }
  unfold cubic_at. rewrite A, B, C, D. ring.
Qed.

Section Pieces.
Context {sp : spline R} {xs ys : list R} {incr : bool} {Y : Z -> R} (IS : is_spline sp xs ys incr Y).
Let n := zlen xs.

Lemma dx_nz i : (0 <= i < n - 1)%Z -> zr xs (i + 1)%Z - zr xs i <> 0.
Proof. intros Hi. pose proof (is_m _ _ _ _ _ IS i Hi). destruct incr; lra. Qed.

Lemma cub_left i : cubic_at (cub xs ys Y i) (zr xs i) = zr ys i.
Proof. unfold cubic_at, cub, coeff_of; cbn. ring. Qed.

Lemma cub_right i : (0 <= i < n - 1)%Z -> cubic_at (cub xs ys Y i) (zr xs (i + 1)%Z) = zr ys (i + 1)%Z.
Proof. intros Hi. pose proof (dx_nz i Hi). unfold cubic_at, cub, coeff_of; cbn. field. auto. Qed.

Lemma cub_d2_left i : cubic_at (cubic_d (cubic_d (cub xs ys Y i))) (zr xs i) = Y i.
Proof.
  unfold cubic_at, cub; cbn [cubic_d q_h q0 q1 q2 q3]. generalize (ca (coeff_of xs ys Y i)).
  unfold coeff_of; cbn [cb]. intros. field.
Qed.

Lemma cub_d2_right i : (0 <= i < n - 1)%Z -> cubic_at (cubic_d (cubic_d (cub xs ys Y i))) (zr xs (i + 1)%Z) = Y (i + 1)%Z.
Proof. intros Hi. pose proof (dx_nz i Hi). unfold cubic_at, cub, coeff_of; cbn. field. auto. Qed.

Lemma cub_d1 i : (0 <= i < n - 2)%Z ->
  cubic_at (cubic_d (cub xs ys Y i)) (zr xs (i + 1)%Z) = cubic_at (cubic_d (cub xs ys Y (i + 1)%Z)) (zr xs (i + 1)%Z).
Proof.
  intros Hi. pose proof (dx_nz i ltac:(lia)) as D1. pose proof (dx_nz (i + 1)%Z ltac:(lia)) as D2.
  pose proof (is_eq _ _ _ _ _ IS (i + 1)%Z ltac:(fold n; lia)) as E.
  replace (i + 1 - 1)%Z with i in E by lia.
  unfold cubic_at, cub, coeff_of; cbn.
  generalize dependent (zr xs (i + 1 + 1)%Z). generalize dependent (zr xs (i + 1)%Z).
  generalize (zr xs i) (zr ys i) (zr ys (i + 1)%Z) (zr ys (i + 1 + 1)%Z) (Y i) (Y (i + 1)%Z) (Y (i + 1 + 1)%Z).
  clear. intros x0 y0 y1 y2 Y0 Y1 Y2 x1 D1 x2 D2 E.
  set (s1 := (y1 - y0) / (x1 - x0)) in *. set (s2 := (y2 - y1) / (x2 - x1)) in *.
  assert (3 * ((- Y0 / 6 + Y1 / 6) / (x1 - x0)) * (x1 - x0) ^ 2 = (Y1 - Y0) / 2 * (x1 - x0)) as E3 by (field; auto).
  transitivity (s1 + (x1 - x0) * (- Y0 / 3 - Y1 / 6) + Y0 * (x1 - x0) + (Y1 - Y0) / 2 * (x1 - x0)).
  { rewrite <- E3. field. auto. }
  transitivity (s2 + (x2 - x1) * (- Y1 / 3 - Y2 / 6)); [|field; auto].
  assert (s2 = s1 + ((x1 - x0) / 6 * Y0 + (x2 - x0) / 3 * Y1 + (x2 - x1) / 6 * Y2)) as -> by (rewrite E; ring).
  field.
Qed.

(** Two pieces containing the same point agree there. *)
Lemma pieces_agree (g : Z -> cubic) x i j :
  (forall k, (0 <= k < n - 2)%Z -> cubic_at (g k) (zr xs (k + 1)%Z) = cubic_at (g (k + 1)%Z) (zr xs (k + 1)%Z)) ->
  (0 <= i < n - 1)%Z -> (0 <= j < n - 1)%Z ->
  btw incr (zr xs i) (zr xs (i + 1)%Z) x -> btw incr (zr xs j) (zr xs (j + 1)%Z) x ->
  cubic_at (g i) x = cubic_at (g j) x.
Proof.
  intros G.
  assert (forall i j, (0 <= i < j)%Z -> (j < n - 1)%Z ->
    btw incr (zr xs i) (zr xs (i + 1)%Z) x -> btw incr (zr xs j) (zr xs (j + 1)%Z) x ->
    cubic_at (g i) x = cubic_at (g j) x) as K.
  { clear i j. intros i j Hij Hj B1 B2. destruct (Z.eq_dec j (i + 1)) as [->|NE].
    - assert (x = zr xs (i + 1)%Z) as -> by (destruct incr; cbn in *; lra). apply G. lia.
    - pose proof (monof_lt _ _ _ (is_m _ _ _ _ _ IS) (i + 1)%Z j ltac:(lia) ltac:(fold n; lia)) as O.
      destruct incr; cbn in *; lra. }
  intros Hi Hj B1 B2. destruct (Z.lt_trichotomy i j) as [L|[->|L]]; auto.
  - apply K; auto; lia.
  - symmetry. apply K; auto; lia.
Qed.

Lemma ord_irrefl_b b a : ord b a a -> False.
Proof. destruct b; cbn; lra. Qed.

Lemma sp_bin_search x : btw incr (zr xs 0) (zr xs (n - 1)%Z) x ->
  wp (bin_search (S (length xs)) xs incr x (n - 1))
    (fun i => (0 <= i < n - 1)%Z /\ btw incr (zr xs i) (zr xs (i + 1)%Z) x).
Proof.
  intros X. pose proof (is_n _ _ _ _ _ IS) as N. fold n in N. unfold bin_search.
  apply loop_inv with
    (I := fun '(lo, hi) => (0 <= lo < hi)%Z /\ (hi <= n - 1)%Z /\ btw incr (zr xs lo) (zr xs hi) x)
    (measure := fun '(lo, hi) => Z.to_nat (hi - lo)).
  - intros [lo hi] [H1 [H2 H3]]. rewrite Z.gtb_ltb. destruct (Z.ltb_spec 1 (hi - lo)).
    + assert (Z.quot (lo + hi) 2 = ((lo + hi) / 2)%Z) as Q by (apply Z.quot_div_nonneg; lia).
      rewrite Q. assert (lo < (lo + hi) / 2 < hi)%Z by lia.
      generalize dependent ((lo + hi) / 2)%Z. intros m _ Hm.
      rewrite (get_ok 0) by (fold n; lia). cbn [bind]. rn.
      destruct (Rle_bool_spec (zr xs m) x); destruct incr; cbn [Bool.eqb wp btw] in *;
        (split; [split; [lia|split; [lia|lra]]|lia]).
    + cbn [wp]. split; [lia|]. replace (lo + 1)%Z with hi by lia. exact H3.
  - split; [lia|]. split; [lia|exact X].
  - unfold n, zlen. lia.
Qed.

Lemma sp_guess x g :
  wp (guess_ok xs incr x g)
    (fun b => b = true -> (0 <= g < n - 1)%Z /\ btw incr (zr xs g) (zr xs (g + 1)%Z) x).
Proof.
  unfold guess_ok. rewrite Z.geb_leb. fold n.
  destruct (Z.leb_spec 0 g), (Z.ltb_spec g (n - 1)); cbn [andb]; try (cbn [wp]; discriminate).
  rewrite (get_ok 0) by (fold n; lia). cbn [bind]. rn.
  destruct (Rle_bool_spec (zr xs g) x); destruct incr; cbn [Bool.eqb wp]; try discriminate.
  - rewrite (get_ok 0) by (fold n; lia). cbn [bind wp].
    destruct (Rle_bool_spec x (zr xs (g + 1)%Z)); cbn [Bool.eqb btw]; [|discriminate].
    intros _. split; [lia|lra].
  - rewrite (get_ok 0) by (fold n; lia). cbn [bind wp].
    destruct (Rle_bool_spec x (zr xs (g + 1)%Z)); cbn [Bool.eqb btw]; [discriminate|].
    intros _. split; [lia|lra].
Qed.

Lemma sp_bsearch_ok x : btw incr (zr xs 0) (zr xs (n - 1)%Z) x ->
  exists i, sp_bsearch sp x = Ok i /\ (0 <= i < n - 1)%Z /\ btw incr (zr xs i) (zr xs (i + 1)%Z) x.
Proof.
  intros X. pose proof (is_n _ _ _ _ _ IS) as N. fold n in N. unfold sp_bsearch.
  rewrite (is_xs _ _ _ _ _ IS), (is_incr _ _ _ _ _ IS). rewrite (get_ok 0) by (fold n; lia). cbn [bind].
  set (g := ntrunc _). pose proof (sp_guess x g) as G. apply wp_ok in G. destruct G as [b [-> G]].
  cbn [bind]. destruct b; [exists g; auto|].
  pose proof (sp_bin_search x X) as B. apply wp_ok in B. destruct B as [i [E [Hi Bi]]].
  fold n. rewrite E. cbn [bind]. destruct (Z.eqb_spec i (n - 1)); [lia|]. exists i. auto.
Qed.

Definition cv (k : coeff R) (h x : R) : R :=
  ca k * (x - h) * (x - h) * (x - h) + cb k * (x - h) * (x - h) + cc k * (x - h) + cd k.

Lemma cv_cub i x : cv (coeff_of xs ys Y i) (zr xs i) x = cubic_at (cub xs ys Y i) x.
Proof. unfold cv, cubic_at, cub. cbn [q_h q0 q1 q2 q3]. ring. Qed.

Lemma spline_eval_in x i : (0 <= i < n - 1)%Z -> btw incr (zr xs i) (zr xs (i + 1)%Z) x ->
  spline_eval sp x = Ok (cubic_at (cub xs ys Y i) x).
Proof.
  intros Hi B. pose proof (is_n _ _ _ _ _ IS) as N. fold n in N.
  pose proof (is_m _ _ _ _ _ IS) as M. fold n in M.
  assert (btw incr (zr xs 0) (zr xs (n - 1)%Z) x) as X.
  { assert (zr xs 0 = zr xs i \/ ord incr (zr xs 0) (zr xs i)) as A1.
    { destruct (Z.eq_dec i 0) as [->|]; auto. right. apply (monof_lt _ _ _ M); lia. }
    assert (zr xs (i + 1)%Z = zr xs (n - 1)%Z \/ ord incr (zr xs (i + 1)%Z) (zr xs (n - 1)%Z)) as A2.
    { destruct (Z.eq_dec (i + 1) (n - 1)) as [->|]; auto. right. apply (monof_lt _ _ _ M); lia. }
    destruct incr; cbn in *; lra. }
  assert (forall k, (0 <= k < n - 2)%Z -> cubic_at (cub xs ys Y k) (zr xs (k + 1)%Z) =
    cubic_at (cub xs ys Y (k + 1)%Z) (zr xs (k + 1)%Z)) as CC.
  { intros k Hk. rewrite cub_left. apply cub_right. lia. }
  unfold spline_eval. rewrite (is_xs _ _ _ _ _ IS), (is_ys _ _ _ _ _ IS), (is_incr _ _ _ _ _ IS).
  fold n. rewrite !(get_ok 0) by (fold n; lia). cbn [bind]. rn.
  pose proof (monof_lt _ _ _ M 0%Z (n - 1)%Z ltac:(lia) ltac:(lia)) as O.
  match goal with |- (if ?c then _ else _) = _ => destruct c eqn:EC end.
  - assert (x = zr xs 0 \/ x = zr xs (n - 1)%Z) as [E|E].
    { destruct incr; cbn in X, O; [|exfalso];
      destruct (Rle_bool_spec x (zr xs 0)), (Rle_bool_spec (zr xs (n - 1)%Z) x); cbn in EC; try discriminate; lra. }
    + rewrite Req_bool_true by auto. rewrite (get_ok 0) by (rewrite (is_l _ _ _ _ _ IS); fold n; lia).
      f_equal. rewrite <- (cub_left 0), <- E. apply (pieces_agree (cub xs ys Y)); auto; [lia|].
      rewrite E. pose proof (is_m _ _ _ _ _ IS 0%Z ltac:(fold n; lia)). destruct incr; cbn in *; lra.
    + rewrite Req_bool_false by (destruct incr; cbn in O; lra). rewrite Req_bool_true by auto.
      rewrite (is_l _ _ _ _ _ IS). fold n. rewrite (get_ok 0) by (rewrite (is_l _ _ _ _ _ IS); fold n; lia).
      f_equal. replace (n - 1)%Z with (n - 2 + 1)%Z by lia. rewrite <- cub_right by lia.
      replace (n - 2 + 1)%Z with (n - 1)%Z by lia. rewrite <- E.
      apply (pieces_agree (cub xs ys Y)); auto; [lia|].
      replace (n - 2 + 1)%Z with (n - 1)%Z by lia. rewrite E.
      pose proof (is_m _ _ _ _ _ IS (n - 2)%Z ltac:(fold n; lia)) as M2.
      replace (n - 2 + 1)%Z with (n - 1)%Z in M2 by lia. destruct incr; cbn in *; lra.
  - destruct (sp_bsearch_ok x X) as [j [-> [Hj Bj]]]. cbn [bind].
    rewrite (get_ok 0) by (fold n; lia). cbn [bind].
    rewrite (get_ok (Coeff 0 0 0 0)) by (rewrite (is_lc _ _ _ _ _ IS); fold n; lia). cbn [bind].
    rewrite (is_c _ _ _ _ _ IS) by (fold n; lia). f_equal.
    fold (cv (coeff_of xs ys Y j) (zr xs j) x). rewrite cv_cub.
    apply (pieces_agree (cub xs ys Y)); auto.
Qed.

Lemma spline_eval_out x : ~ btw incr (zr xs 0) (zr xs (n - 1)%Z) x -> spline_eval sp x = Panic.
Proof.
  intros X. pose proof (is_n _ _ _ _ _ IS) as N. fold n in N.
  pose proof (monof_lt _ _ _ (is_m _ _ _ _ _ IS) 0%Z (n - 1)%Z ltac:(lia) ltac:(fold n; lia)) as O.
  unfold spline_eval. rewrite (is_xs _ _ _ _ _ IS), (is_ys _ _ _ _ _ IS), (is_incr _ _ _ _ _ IS).
  fold n. rewrite !(get_ok 0) by (fold n; lia). cbn [bind]. rn.
  assert (x <> zr xs 0) as D1 by (intros ->; apply X; destruct incr; cbn in *; lra).
  assert (x <> zr xs (n - 1)%Z) as D2 by (intros ->; apply X; destruct incr; cbn in *; lra).
  rewrite !Req_bool_false by auto.
  destruct incr; cbn in X, O; destruct (Rle_bool_spec x (zr xs 0)), (Rle_bool_spec (zr xs (n - 1)%Z) x);
    cbn [Bool.eqb orb]; auto; lra.
Qed.

(** Derivatives *)
Definition strictly_in (x : R) : Prop :=
  ord incr (zr xs 0) x /\ ord incr x (zr xs (n - 1)%Z).

Lemma spline_deriv_in x k : strictly_in x ->
  exists i, (0 <= i < n - 1)%Z /\ btw incr (zr xs i) (zr xs (i + 1)%Z) x /\
    spline_deriv sp x (Z.of_nat k) = Ok (cubic_at (cubic_dn k (cub xs ys Y i)) x).
Proof.
  intros [S1 S2]. pose proof (is_n _ _ _ _ _ IS) as N. fold n in N.
  destruct (sp_bsearch_ok x) as [i [E [Hi Bi]]]; [destruct incr; cbn in *; lra|].
  exists i. split; [auto|]. split; [auto|].
  unfold spline_deriv, sp_outside. rewrite (is_xs _ _ _ _ _ IS), (is_incr _ _ _ _ _ IS).
  fold n. rewrite !(get_ok 0) by (fold n; lia). cbn [bind]. rn.
  assert (Bool.eqb (Rlt_bool x (zr xs 0)) incr || Bool.eqb (Rlt_bool (zr xs (n - 1)%Z) x) incr = false) as ->.
  { destruct incr; cbn in S1, S2.
    - rewrite !Rlt_bool_false by lra. reflexivity.
    - rewrite !Rlt_bool_true by lra. reflexivity. }
  rewrite E. cbn [bind]. rewrite (get_ok 0) by (fold n; lia). cbn [bind].
  rewrite (get_ok (Coeff 0 0 0 0)) by (rewrite (is_lc _ _ _ _ _ IS); fold n; lia). cbn [bind].
  rewrite (is_c _ _ _ _ _ IS) by (fold n; lia). f_equal.
  unfold cub. generalize (coeff_of xs ys Y i) (zr xs i). clear. intros q h. cbv zeta.
  destruct (le_lt_dec 4 k) as [H4|H4].
  - rewrite cubic_high by auto. apply deriv_high. lia.
  - destruct k as [|[|[|[|k]]]]; [| | | |lia]; cbn [Z.of_nat Pos.of_succ_nat Pos.succ cubic_dn];
      unfold cubic_at, cubic_d; cbn [q_h q0 q1 q2 q3]; ring.
Qed.
End Pieces.
