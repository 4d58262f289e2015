(** The mean of an image that shows the whole simulation. *)
From Coq Require Import ZArith String List Bool Reals Lra Lia ZifyBool ZifyNat Permutation.
From Verif Require Import Base.Res Base.ResFacts Base.Num Model.Geom Model.GridDeriv Model.Density Model.Box Model.Render Model.SheetIO Model.Manager.
From Verif Require Import Spec.Geometry Spec.GeomDefs Spec.Fields Spec.FieldDefs Spec.Matrix Spec.Work Spec.Deposits Spec.Workspace Spec.Renders.
From Verif Require Import Proof.SumP Proof.AddP Proof.MassP Proof.SheetFall Proof.SheetFrame Proof.ManagerBox Proof.ManagerP.
Import ListNotations.
Open Scope R_scope.

Lemma image_total_ext s f g : (forall c, in_grid s c -> f c = g c) -> image_total s f = image_total s g.
Proof.
  destruct s as [[a b] c]. intros H. unfold image_total. apply sum_ext; intros z Hz. apply sum_ext; intros y Hy. apply sum_ext; intros x Hx.
  apply H. cbn. lia.
Qed.
Lemma image_total_plus s f g : image_total s (fun c => f c + g c) = image_total s f + image_total s g.
Proof.
  destruct s as [[a b] c]. unfold image_total. rewrite <- sum_plus. apply sum_ext; intros z Hz. rewrite <- sum_plus.
  apply sum_ext; intros y Hy. apply sum_plus.
Qed.
Lemma image_total_scal s k f : image_total s (fun c => k * f c) = k * image_total s f.
Proof.
  destruct s as [[a b] c]. unfold image_total. rewrite <- sum_scal. apply sum_ext; intros z Hz. rewrite <- sum_scal.
  apply sum_ext; intros y Hy. apply sum_scal.
Qed.
Lemma image_total_zero s f : (forall c, in_grid s c -> f c = 0) -> image_total s f = 0.
Proof.
  intros H. rewrite (image_total_ext s f (fun c => 0 * 0)); [rewrite image_total_scal; ring|]. intros c Hc. rewrite H by auto. ring.
Qed.

(** A point of the simulation lies in one cell of such an image. *)
Lemma cell_is_iff n k o x : (0 < n)%Z -> (0 <= x < n)%Z -> cell_is n k o x = (x =? (k - o) mod n)%Z.
Proof.
  intros Hn Hx. unfold cell_is. apply Bool.eq_iff_eq_true. rewrite !Z.eqb_eq. split; intros H.
  - apply Z.mod_divide in H; [|lia]. destruct H as [q Hq]. apply (Z.mod_unique_pos _ _ q); lia.
  - rewrite H. replace (k - (o + (k - o) mod n))%Z with ((k - o) - (k - o) mod n)%Z by lia.
    rewrite Zminus_mod_idemp_r. rewrite Z.sub_diag. apply Z.mod_0_l. lia.
Qed.

Section Whole.
Variables (L : R) (b : rbox R).
Hypothesis HB : box_ok L b.
Hypothesis HWh : whole b.
Let n := rb_cells b.

Lemma seen_once x : image_total (image_size b) (fun c => if seen L b x c then 1 else 0) = 1.
Proof.
  assert (Hn : (4 <= n)%Z) by apply HB.
  pose proof (fun k => Z.mod_pos_bound k n ltac:(lia)) as MB.
  set (k := fun a => ((grid_cell L n (vget x a) - vget (origin (rb_cb b)) a) mod n)%Z).
  assert (HK : forall a, (0 <= k a < n)%Z) by (intros; apply MB).
  unfold image_size. destruct (rb_proj b) as [p|] eqn:EP.
  - pose proof (axes_in p) as HA. destruct (image_axes p) as [[i j] d] eqn:EI. destruct HA as (A1 & A2 & A3).
    unfold image_total. rewrite sum_one. rewrite !HWh by auto. fold n.
    rewrite (sum_ext 0 n _ (fun y => sum 0 n (fun x => if ((x =? k i) && (y =? k j))%Z then 1 else 0))).
    + rewrite (sum_single 0 n _ (k j)) by (auto || (intros y Hy Hne; apply sum_zero; intros; replace (y =? k j)%Z with false by lia; now rewrite andb_false_r)).
      rewrite (sum_single 0 n _ (k i)) by (auto || (intros y Hy Hne; replace (y =? k i)%Z with false by lia; reflexivity)).
      now rewrite !Z.eqb_refl.
    + intros y Hy. apply sum_ext. intros x' Hx. unfold seen. rewrite EP, EI. fold n. rewrite !cell_is_iff by lia. rewrite (HWh d) by auto. fold n.
      replace ((grid_cell L n (vget x d) - vget (origin (rb_cb b)) d) mod n <? n)%Z with true by (specialize (HK d); unfold k in HK; lia).
      now rewrite andb_true_r.
  - unfold wcell, image_total. pose proof (HWh 0%Z axis0) as W0. pose proof (HWh 1%Z axis1) as W1. pose proof (HWh 2%Z axis2) as W2.
    cbn [vget Z.eqb Pos.eqb] in W0, W1, W2. rewrite W0, W1, W2. fold n.
    etransitivity; [|exact (sum_pick3 n n n (k 0%Z) (k 1%Z) (k 2%Z) (fun _ _ _ => 1) (HK 0%Z) (HK 1%Z) (HK 2%Z))].
    apply sum_ext; intros z Hz. apply sum_ext; intros y Hy. apply sum_ext; intros x' Hx.
    unfold seen. rewrite EP. fold n. rewrite !cell_is_iff by lia. reflexivity.
Qed.

Lemma count_once X m skip c dir us : image_total (image_size b) (fun c' => IZR (hits L b X m skip ((c, dir), us) c')) = IZR (zlen us).
Proof.
  unfold hits. cbn [fst snd]. induction us as [|u us IH].
  - apply image_total_zero. reflexivity.
  - rewrite (image_total_ext _ _ (fun c' => (if seen L b (sample X m skip c dir u) c' then 1 else 0) +
      IZR (zlen (filter (fun u => seen L b (sample X m skip c dir u) c') us)))).
    + rewrite image_total_plus, IH, seen_once. unfold zlen. cbn [List.length]. rewrite Nat2Z.inj_succ, succ_IZR. ring.
    + intros c' _. cbn [filter]. destruct (seen _ _ _ _); unfold zlen; cbn [List.length]; [|ring].
      rewrite Nat2Z.inj_succ, succ_IZR. ring.
Qed.

Lemma all_count X m skip pts ps : Forall (fun p => zlen (snd p) = pts) ps ->
  image_total (image_size b) (fun c => IZR (all_hits L b X m skip ps c)) = IZR (zlen ps * pts).
Proof.
  intros H. unfold all_hits. induction H as [|[[c dir] us] ps H1 _ IH].
  - apply image_total_zero. reflexivity.
  - cbn [map fold_right]. rewrite (image_total_ext _ _ (fun c' => IZR (hits L b X m skip ((c, dir), us) c') +
      IZR (fold_right Z.add 0%Z (map (fun p => hits L b X m skip p c') ps)))) by (intros; apply plus_IZR).
    rewrite image_total_plus, IH, count_once. cbn [snd] in H1. rewrite H1, <- plus_IZR. f_equal. unfold zlen. cbn [List.length]. lia.
Qed.

(** What one sheet adds to the mean. *)
Lemma sheet_total skip units s ps : (0 < skip <= s_seg (sf_hd (fst s)))%Z -> (s_seg (sf_hd (fst s)) mod skip = 0)%Z -> (0 < s_count (sf_hd (fst s)))%Z ->
  Forall (fun us => zlen us = rb_pts b) units -> uses_of (s_seg (sf_hd (fst s))) skip units ps ->
  image_total (image_size b) (sheet_adds L skip b s ps) / IZR (volume (image_size b)) =
  (IZR (s_seg (sf_hd (fst s))) / IZR (s_count (sf_hd (fst s)))) ^ 3.
Proof.
  intros Hs Hdiv Hc HU (U1 & U2). unfold sheet_adds. cbv zeta. rewrite image_total_scal.
  rewrite (all_count _ _ _ (rb_pts b)).
  2: { rewrite Forall_forall in *. intros p Hp. apply HU, U2, Hp. }
  set (seg := s_seg _) in *. set (cnt := s_count _) in *.
  assert (EL : zlen ps = (seg / skip * (seg / skip) * (seg / skip) * 6)%Z).
  { pose proof (Permutation_length U1) as PL. rewrite map_length, prod_length in PL. rewrite base_cells_length in PL by (apply Z.div_pos; lia).
    unfold zseq in PL. rewrite map_length, seq_length in PL. etransitivity; [exact (f_equal Z.of_nat PL)|]. rewrite Nat2Z.inj_mul, !Z2Nat.id; [reflexivity|lia|]. 
    assert (0 <= seg / skip)%Z by (apply Z.div_pos; lia). set (k := (seg / skip)%Z) in *. nia. }
  assert (ES : IZR seg = IZR skip * IZR (seg / skip)).
  { rewrite <- mult_IZR. f_equal. pose proof (Z.div_exact seg skip ltac:(lia)) as D. apply D. exact Hdiv. }
  match goal with |- context [IZR (?z * rb_pts b)] => replace z with (seg / skip * (seg / skip) * (seg / skip) * 6)%Z by (symmetry; exact EL) end.
  rewrite ES. rewrite !mult_IZR. set (q := IZR (seg / skip)).
  assert (Hn : (4 <= n)%Z) by apply HB. assert (Hp : (0 < rb_pts b)%Z) by apply HB.
  assert (EV : IZR (volume (image_size b)) * IZR (box_depth b) = IZR n ^ 3 /\ IZR (volume (image_size b)) <> 0 /\ IZR (box_depth b) <> 0).
  { assert (N0 : IZR n <> 0) by (apply not_0_IZR; lia).
    unfold image_size, box_depth. destruct (rb_proj b) as [p|] eqn:EP.
    - pose proof (axes_in p) as HA. destruct (image_axes p) as [[i j] d] eqn:EI. destruct HA as (A1 & A2 & A3).
      rewrite !HWh by auto. fold n. cbn [volume]. rewrite !mult_IZR. split; [ring|]. split; [|auto].
      apply Rmult_integral_contrapositive_currified; [apply Rmult_integral_contrapositive_currified; auto|lra].
    - unfold wcell. pose proof (HWh 0%Z axis0) as W0. pose proof (HWh 1%Z axis1) as W1. pose proof (HWh 2%Z axis2) as W2.
      cbn [vget Z.eqb Pos.eqb] in W0, W1, W2. rewrite W0, W1, W2. fold n. cbn [volume]. rewrite !mult_IZR. split; [ring|]. split; [|lra].
      apply Rmult_integral_contrapositive_currified; [apply Rmult_integral_contrapositive_currified; auto|auto]. }
  destruct EV as (V1 & V2 & V3). unfold sample_value. fold n.
  assert (C0 : IZR cnt <> 0) by (apply not_0_IZR; lia). assert (P0 : IZR (rb_pts b) <> 0) by (apply not_0_IZR; lia).
  replace ((IZR n / IZR cnt) ^ 3) with (IZR n ^ 3 / IZR cnt ^ 3) by (field; auto). rewrite <- V1. field. repeat split; auto.
Qed.
End Whole.

Lemma units_len rnd pts : (0 <= pts)%Z -> Forall (fun us => zlen us = pts) (unit_pool rnd pts).
Proof.
  intros H. unfold unit_pool. rewrite Forall_map. apply Forall_forall. intros bi _. unfold distribute_unit, zseq, zlen. rewrite !map_length, seq_length. lia.
Qed.

Fixpoint shares (l : list (sheet_file R R * list (vec3 R))) : R :=
  match l with [] => 0 | s :: l => (IZR (s_seg (sf_hd (fst s))) / IZR (s_count (sf_hd (fst s)))) ^ 3 + shares l end.

Lemma mean_ok L skip units l b b' : box_ok L b -> whole b -> Forall (fun us => zlen us = rb_pts b) units ->
  Forall (fun s => (0 < skip <= s_seg (sf_hd (fst s)))%Z /\ (s_seg (sf_hd (fst s)) mod skip = 0)%Z /\ (0 < s_count (sf_hd (fst s)))%Z) l ->
  rendered L skip units l b b' -> image_mean b' = image_mean b + shares l.
Proof.
  intros HB HW HU HL (R1 & _ & _ & us & R4 & R5). unfold image_mean. assert (EI : image_size b' = image_size b) by (rewrite R1; reflexivity). rewrite EI.
  rewrite (image_total_ext _ _ _ R5), image_total_plus. unfold Rdiv. rewrite Rmult_plus_distr_r. f_equal.
  clear R1 R5 EI. revert us R4. induction HL as [|s l (H1 & H2 & H3) _ IH]; intros us R4; inversion R4 as [|? ps ? us' P1 P2]; subst.
  - cbn [sheets_add shares]. rewrite image_total_zero by auto. ring.
  - cbn [sheets_add shares]. rewrite (image_total_plus _ (sheet_adds L skip b s ps) (sheets_add L skip b l us')), Rmult_plus_distr_r, (IH us' P2). f_equal.
    exact (sheet_total L b HB HW skip units s ps H1 H2 H3 HU P1).
Qed.

(** Sheets that tile the simulation. *)
Lemma shares_tile l seg cnt : (0 < cnt)%Z -> Forall (fun s => s_seg (sf_hd (fst s)) = seg /\ s_count (sf_hd (fst s)) = cnt) l ->
  (zlen l * seg ^ 3 = cnt ^ 3)%Z -> shares l = 1.
Proof.
  intros Hc HL HT. assert (E : shares l = IZR (zlen l) * (IZR seg / IZR cnt) ^ 3).
  { clear HT. induction HL as [|s l (H1 & H2) _ IH]; [unfold zlen; cbn; ring|]. cbn [shares]. rewrite IH, H1, H2.
    replace (zlen (s :: l)) with (zlen l + 1)%Z by (unfold zlen; cbn [List.length]; lia). rewrite plus_IZR. ring. }
  rewrite E. assert (C0 : IZR cnt <> 0) by (apply not_0_IZR; lia).
  replace ((IZR seg / IZR cnt) ^ 3) with (IZR seg ^ 3 / IZR cnt ^ 3) by (field; auto).
  apply (f_equal IZR) in HT. rewrite mult_IZR in HT. rewrite !(pow_IZR _ 3). change (Z.of_nat 3) with 3%Z.
  unfold Rdiv. rewrite <- Rmult_assoc, HT. apply Rinv_r. apply not_0_IZR. nia.
Qed.
