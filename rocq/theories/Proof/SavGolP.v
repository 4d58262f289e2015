(** Savitzky-Golay kernels. *)
From Coq Require Import ZArith List Lia Lra Bool Reals Psatz.
From Coq Require Import ZifyBool ZifyNat.
From Flocq Require Import Core.Raux.
From Verif Require Import Base.Res Base.ResFacts Base.Num Base.IEEE Model.Mat Model.Filter Spec.Matrix Spec.Filtering
  Proof.SumP Proof.FillP Proof.InterpP Proof.TriDiagP Proof.MatP Proof.LUP Proof.LUS Proof.MatThm Proof.FilterP Proof.PolyP.
Import ListNotations.
Open Scope R_scope.
Local Notation zr := (zn 0).
Local Notation zp := (zn 0%Z).

(** ** Power sums *)
Lemma sum_rev n f : (0 <= n)%Z -> sum (- n) 0 f = sum 1 (n + 1) (fun k => f (- k)%Z).
Proof.
  intros H. pattern n. apply natlike_ind; [reflexivity| |exact H].
  intros x Hx IH. unfold Z.succ. rewrite (sum_first (- (x + 1))) by lia. rewrite (sum_last 1 (x + 1)) by lia.
  replace (- (x + 1) + 1)%Z with (- x)%Z by lia. rewrite IH. ring.
Qed.

Lemma power_sum_split n q : (0 <= n)%Z ->
  power_sum n q = sum 1 (n + 1) (fun k => rpow (IZR (- k)) q) + rpow 0 q + sum 1 (n + 1) (fun k => rpow (IZR k) q).
Proof.
  intros H. unfold power_sum. rewrite (sum_split (- n) 0 (n + 1)) by lia. rewrite sum_rev by lia.
  rewrite (sum_first 0) by lia. change (0 + 1)%Z with 1%Z. unfold rpow. ring.
Qed.

Lemma moment_ok n q : (0 <= n)%Z -> (0 <= q)%Z -> moment rpow n q = Ok (power_sum n q).
Proof.
  intros H Hq. unfold moment. rewrite (acc_ok _ (fun k => rpow (IZR k) q)) by (try lia; intros; rn; reflexivity).
  cbn [bind]. rewrite (acc_ok _ (fun k => rpow (IZR (- k)) q)) by (try lia; intros; rn; reflexivity).
  f_equal. rewrite power_sum_split by auto. rn.
  replace (rpow 0 q) with (if (q =? 0)%Z then 1 else 0); [lra|]. unfold rpow. destruct (Z.eqb_spec q 0) as [->|]; [reflexivity|].
  rewrite pow_i by lia. reflexivity.
Qed.

Lemma moment_matrix_ok m n : (0 <= m)%Z -> (0 <= n)%Z ->
  exists vals, moment_matrix rpow m n = Ok (Mat vals (m + 1) (m + 1)) /\
    mat_is (m + 1) (m + 1) vals (fun i j => power_sum n (i + j)).
Proof.
  intros Hm Hn. unfold moment_matrix.
  destruct (zeros_ok ((m + 1) * (m + 1)) ltac:(nia)) as [z [-> [Lz _]]]. cbn [bind].
  rewrite new_matrix_ok by lia. cbn [bind m_w m_h m_vals].
  match goal with |- exists v, bind ?e _ = _ /\ _ =>
    cut (wp e (fun vals => mat_is (m + 1) (m + 1) vals (fun i j => power_sum n (i + j)))) end.
  { intros W. apply wp_ok in W. destruct W as [v [-> W]]. cbn [bind]. eauto. }
  apply (for_post (fun p vals => zlen vals = ((m + 1) * (m + 1))%Z /\
    forall i j, (0 <= i < m + 1)%Z -> (0 <= j < m + 1)%Z -> (i + j < p)%Z -> zr vals (i * (m + 1) + j)%Z = power_sum n (i + j)));
    [lia| | |].
  - split; [auto|]. intros; lia.
  - intros p vals Hp [L V]. rewrite moment_ok by lia. cbn [bind]. cbv zeta.
    set (mm := if (2 * m - p >? p)%Z then p else (2 * m - p)%Z).
    assert (mm = Z.min p (2 * m - p)) as Emm by (unfold mm; rewrite Z.gtb_ltb; destruct (Z.ltb_spec p (2 * m - p)); lia).
    clearbody mm. set (odd := (p - mm)%Z).
    assert (exists e, (0 <= e)%Z /\ p - mm = 2 * e)%Z as [e [He0 He]].
    { destruct (Z_le_gt_dec p m); [exists 0%Z; lia|exists (p - m)%Z; lia]. }
    apply (for_post (fun t vals => zlen vals = ((m + 1) * (m + 1))%Z /\
      (forall i j, (0 <= i < m + 1)%Z -> (0 <= j < m + 1)%Z -> (i + j < p)%Z -> zr vals (i * (m + 1) + j)%Z = power_sum n (i + j)) /\
      (forall i j, (0 <= i < m + 1)%Z -> (0 <= j < m + 1)%Z -> (i + j = p)%Z -> (j - e < t)%Z ->
        zr vals (i * (m + 1) + j)%Z = power_sum n (i + j)))); [lia| | |].
    + split; [auto|]. split; [auto|]. intros i j Hi Hj E1 E2. exfalso. lia.
    + clear vals L V. intros t vals Ht [L [V1 V2]].
      assert (Z.quot (p + (- mm + 2 * t)) 2 = e + t)%Z as ->.
      { replace (p + (- mm + 2 * t))%Z with ((e + t) * 2)%Z by lia. apply Z.quot_mul. lia. }
      assert (Z.quot (p - (- mm + 2 * t)) 2 = p - e - t)%Z as ->.
      { replace (p - (- mm + 2 * t))%Z with ((p - e - t) * 2)%Z by lia. apply Z.quot_mul. lia. }
      assert (0 <= e + t < m + 1 /\ 0 <= p - e - t < m + 1)%Z as [R1 R2] by lia.
      pose proof (idx_range (m + 1) (m + 1) (p - e - t) (e + t) R2 R1) as RG.
      rewrite set_ok by lia. cbn [wp]. split; [rewrite zlen_upd; auto|].
      split; intros i j Hi Hj E1; [|intros E2]; pose proof (idx_range (m + 1) (m + 1) i j Hi Hj); rewrite zn_upd by lia;
        (destruct (Z.eqb_spec (i * (m + 1) + j) ((p - e - t) * (m + 1) + (e + t))) as [E|E];
         [apply idx_inj in E; [|lia|lia]; destruct E as [-> ->]; f_equal; lia|]).
      * apply V1; lia.
      * apply V2; try lia. assert (j <> e + t)%Z; [|lia]. intros ->. apply E. f_equal. f_equal. lia.
    + intros v [L' [V1 V2]]. split; [auto|]. intros i j Hi Hj H. destruct (Z_lt_ge_dec (i + j) p); [apply V1; auto|apply V2; lia].
  - intros v [L V]. split; [auto|]. intros i j Hi Hj. apply V; lia.
Qed.

(** ** The moment matrix is non-singular *)
Lemma moment_nonsingular m n : (0 <= m)%Z -> (m < 2 * n + 1)%Z ->
  nonsingular (m + 1) (fun i j => power_sum n (i + j)).
Proof.
  intros Hm Hn x H.
  set (P := fun k => sum 0 (m + 1) (fun j => x j * IZR k ^ Z.to_nat j)).
  assert (sum (- n) (n + 1) (fun k => P k * P k) = 0) as S0.
  { transitivity (sum 0 (m + 1) (fun i => x i * mat_vec (m + 1) (fun i j => power_sum n (i + j)) x i)).
    2:{ apply sum_zero. intros i Hi. rewrite H by auto. ring. }
    symmetry. unfold mat_vec, power_sum.
    rewrite (sum_ext 0 (m + 1) _ (fun i => sum (- n) (n + 1) (fun k => x i * IZR k ^ Z.to_nat i * P k))).
    - rewrite sum_swap. apply sum_ext. intros k Hk. rewrite sum_scal_r. reflexivity.
    - intros i Hi. rewrite <- sum_scal. unfold P.
      rewrite (sum_ext (- n) (n + 1) _ (fun k => sum 0 (m + 1) (fun j => x i * (x j * (IZR k ^ Z.to_nat (i + j)))))).
      + rewrite sum_swap. apply sum_ext. intros j Hj. rewrite sum_scal. f_equal.
        rewrite Rmult_comm, <- sum_scal. reflexivity.
      + intros k Hk. rewrite <- sum_scal. apply sum_ext. intros j Hj.
        replace (Z.to_nat (i + j)) with (Z.to_nat i + Z.to_nat j)%nat by lia. rewrite pow_add. ring. }
  pose proof (sum_nonneg_0 _ _ _ (fun k _ => Rle_0_sqr (P k)) S0) as PZ. unfold Rsqr in PZ. clear S0.
  set (l := ztab (m + 1) x).
  assert (zlen l = m + 1)%Z as Ll by (apply zlen_ztab; lia).
  assert (forall j, (0 <= j < m + 1)%Z -> coord l j = x j) as Cl by (intros; apply (zn_ztab 0); auto).
  assert (all0 l) as A0.
  { apply (poly_roots (Z.to_nat (2 * n + 1)) l (fun i => IZR (Z.of_nat i - n))).
    - unfold zlen in Ll. lia.
    - intros i j Hij E. apply eq_IZR in E. lia.
    - intros i Hi. rewrite poly_sum, Ll. rewrite (sum_ext _ _ _ (fun j => x j * IZR (Z.of_nat i - n) ^ Z.to_nat j)).
      + specialize (PZ (Z.of_nat i - n)%Z ltac:(lia)). cbv beta in PZ. apply Rmult_integral in PZ. unfold P in PZ. tauto.
      + intros j Hj. now rewrite Cl. }
  intros j Hj. rewrite <- Cl by auto. apply A0. apply (zn_In 0). lia.
Qed.

(** ** The first pivot is row 0 *)
Lemma cheb n f g : (forall a b, 0 <= (f a - f b) * (g a - g b)) ->
  sum (- n) (n + 1) f * sum (- n) (n + 1) g <= sum (- n) (n + 1) (fun _ => 1) * sum (- n) (n + 1) (fun k => f k * g k).
Proof.
  intros H. set (lo := (- n)%Z). set (hi := (n + 1)%Z).
  assert (0 <= sum lo hi (fun a => sum lo hi (fun b => (f a - f b) * (g a - g b)))) as P.
  { apply sum_nonneg. intros a _. apply sum_nonneg. intros b _. apply H. }
  rewrite (sum_ext lo hi _ (fun a => f a * g a * sum lo hi (fun _ => 1) - f a * sum lo hi g - g a * sum lo hi f
      + sum lo hi (fun b => f b * g b))) in P.
  2:{ intros a _. rewrite (sum_ext lo hi _ (fun b => (f a * g a * 1 - f a * g b - g a * f b) + f b * g b)) by (intros; ring).
      rewrite sum_plus, !sum_minus, !sum_scal. ring. }
  rewrite sum_plus, !sum_minus, !sum_scal_r in P.
  rewrite (sum_ext lo hi (fun _ => sum lo hi (fun b => f b * g b)) (fun _ => sum lo hi (fun b => f b * g b) * 1)) in P by (intros; ring).
  rewrite sum_scal in P. nra.
Qed.

Lemma pow_even_mono a b q : Z.even q = true -> (0 <= q)%Z -> Rabs a <= Rabs b -> rpow a q <= rpow b q.
Proof.
  intros E Hq L. rewrite Z.even_spec in E. destruct E as [h ->]. unfold rpow.
  replace (Z.to_nat (2 * h)) with (2 * Z.to_nat h)%nat by lia.
  rewrite !pow_mult. apply pow_incr. split; [apply pow2_ge_0|]. rewrite <- (pow2_abs a), <- (pow2_abs b).
  apply pow_incr. split; [apply Rabs_pos|auto].
Qed.

Lemma power_sum_odd n q : (0 <= n)%Z -> (0 <= q)%Z -> Z.odd q = true -> power_sum n q = 0.
Proof.
  intros Hn Hq O. rewrite power_sum_split by auto. rewrite <- sum_ext with (f := fun k => - rpow (IZR k) q).
  - rewrite sum_opp. unfold rpow at 2. rewrite pow_i; [lra|]. destruct (Z.eq_dec q 0); [subst; discriminate|lia].
  - intros k Hk. unfold rpow. rewrite opp_IZR. replace (- IZR k) with (-1 * IZR k) by ring. rewrite Rpow_mult_distr.
    rewrite Z.odd_spec in O. destruct O as [h ->]. replace (Z.to_nat (2 * h + 1)) with (S (2 * Z.to_nat h)) by lia.
    rewrite pow_1_odd. ring.
Qed.

Lemma power_sum_nonneg n q : (0 <= n)%Z -> (0 <= q)%Z -> 0 <= power_sum n q.
Proof.
  intros Hn Hq. destruct (Z.odd q) eqn:O; [rewrite power_sum_odd by auto; lra|].
  apply sum_nonneg. intros k _. assert (Z.even q = true) as E by (rewrite <- Z.negb_odd, O; auto).
  pose proof (pow_even_mono 0 (IZR k) q E Hq) as P. rewrite Rabs_R0 in P. specialize (P (Rabs_pos _)).
  unfold rpow in *. assert (0 <= 0 ^ Z.to_nat q) by (apply pow_le; lra). lra.
Qed.

Lemma power_sum_cheb n i j : (0 <= n)%Z -> (0 <= i)%Z -> (0 <= j)%Z -> Z.even i = true -> Z.even j = true ->
  power_sum n i * power_sum n j <= power_sum n 0 * power_sum n (i + j).
Proof.
  intros Hn Hi Hj Ei Ej. unfold power_sum.
  assert (sum (- n) (n + 1) (fun k => IZR k ^ Z.to_nat i) * sum (- n) (n + 1) (fun k => IZR k ^ Z.to_nat j) <=
    sum (- n) (n + 1) (fun _ => 1) * sum (- n) (n + 1) (fun k => IZR k ^ Z.to_nat i * IZR k ^ Z.to_nat j)) as C.
  { apply cheb. intros a b. destruct (Rle_dec (Rabs (IZR a)) (Rabs (IZR b))) as [L|L].
    - pose proof (pow_even_mono _ _ i Ei Hi L). pose proof (pow_even_mono _ _ j Ej Hj L). unfold rpow in *. nra.
    - assert (Rabs (IZR b) <= Rabs (IZR a)) as L' by lra.
      pose proof (pow_even_mono _ _ i Ei Hi L'). pose proof (pow_even_mono _ _ j Ej Hj L'). unfold rpow in *. nra. }
  rewrite (sum_ext (- n) (n + 1) (fun k => IZR k ^ Z.to_nat (i + j)) (fun k => IZR k ^ Z.to_nat i * IZR k ^ Z.to_nat j)).
  - exact C.
  - intros k _. replace (Z.to_nat (i + j)) with (Z.to_nat i + Z.to_nat j)%nat by lia. apply pow_add.
Qed.

Lemma max_n_attained k f : (0 < k)%nat -> (forall i, 0 <= f i) -> exists j, (0 <= j < Z.of_nat k)%Z /\ max_n k f = f j.
Proof.
  intros H P. induction k as [|k IH]; [lia|]. cbn [max_n]. destruct k as [|k].
  - exists 0%Z. split; [lia|]. cbn [max_n]. change (Z.of_nat 0) with 0%Z. apply Rmax_right. apply P.
  - destruct (IH ltac:(lia)) as [j [Hj E]]. rewrite E. unfold Rmax. destruct (Rle_dec (f j) (f (Z.of_nat (S k)))).
    + exists (Z.of_nat (S k)). split; [lia|auto].
    + exists j. split; [lia|auto].
Qed.

Lemma first_ratio m n i : (0 <= m)%Z -> (0 <= n)%Z -> (m < 2 * n + 1)%Z -> (0 <= i < m + 1)%Z ->
  let A := fun i j => power_sum n (i + j) in
  1 / row_max (m + 1) A i * Rabs (A i 0%Z) <= 1 / row_max (m + 1) A 0%Z * Rabs (A 0%Z 0%Z).
Proof.
  intros Hm Hn Hmn Hi A.
  assert (forall r, (0 <= r < m + 1)%Z -> 0 < row_max (m + 1) A r) as RP.
  { intros r Hr. apply row_max_pos. apply nonsingular_rows; auto; [lia|]. apply moment_nonsingular; auto. }
  assert (forall i j, (0 <= i)%Z -> (0 <= j)%Z -> 0 <= A i j) as AP by (intros; apply power_sum_nonneg; lia).
  rewrite !(Rabs_pos_eq (A _ _)) by (apply AP; lia).
  assert (0 < 1 / row_max (m + 1) A i) as Q1 by (apply Rdiv_lt_0_compat; [lra|apply RP; auto]).
  assert (0 < 1 / row_max (m + 1) A 0) as Q0 by (apply Rdiv_lt_0_compat; [lra|apply RP; lia]).
  destruct (Z.odd i) eqn:O.
  { unfold A at 2. rewrite Z.add_0_r, power_sum_odd by (auto; lia). rewrite Rmult_0_r.
    apply Rmult_le_pos; [lra|apply AP; lia]. }
  assert (Z.even i = true) as Ei by (rewrite <- Z.negb_odd, O; auto).
  destruct (max_n_attained (Z.to_nat (m + 1)) (fun j => Rabs (A 0%Z j)) ltac:(lia) (fun j => Rabs_pos _)) as [j [Hj E]].
  fold (row_max (m + 1) A 0) in E. rewrite Rabs_pos_eq in E by (apply AP; lia).
  pose proof (RP 0%Z ltac:(lia)) as R0. pose proof (RP i Hi) as Ri.
  assert (Z.even j = true) as Ej.
  { destruct (Z.even j) eqn:Ev; auto. exfalso. rewrite E in R0. unfold A in R0. cbn [Z.add] in R0.
    rewrite power_sum_odd in R0; try lia; [lra|]. now rewrite <- Z.negb_even, Ev. }
  pose proof (max_n_ge (Z.to_nat (m + 1)) (fun j => Rabs (A i j)) j ltac:(lia)) as G. cbv beta in G.
  fold (row_max (m + 1) A i) in G. rewrite Rabs_pos_eq in G by (apply AP; lia).
  pose proof (power_sum_cheb n i j Hn ltac:(lia) ltac:(lia) Ei Ej) as C.
  assert (A i 0%Z * row_max (m + 1) A 0 <= A 0%Z 0%Z * row_max (m + 1) A i) as K.
  { rewrite E. unfold A at 1 2 3. rewrite !Z.add_0_r, Z.add_0_l. eapply Rle_trans; [exact C|].
    apply Rmult_le_compat_l; [apply power_sum_nonneg; lia|exact G]. }
  unfold Rdiv. rewrite !Rmult_1_l. apply (Rmult_le_reg_r (row_max (m + 1) A i)); [auto|].
  apply (Rmult_le_reg_r (row_max (m + 1) A 0)); [auto|].
  replace (/ row_max (m + 1) A i * A i 0%Z * row_max (m + 1) A i * row_max (m + 1) A 0) with (A i 0%Z * row_max (m + 1) A 0) by (field; lra).
  replace (/ row_max (m + 1) A 0 * A 0%Z 0%Z * row_max (m + 1) A i * row_max (m + 1) A 0) with (A 0%Z 0%Z * row_max (m + 1) A i) by (field; lra).
  exact K.
Qed.

Lemma bind_inv {A B} (r : res A) (k : A -> res B) b : bind r k = Ok b -> exists a, r = Ok a /\ k a = Ok b.
Proof. destruct r; cbn [bind]; try discriminate. eauto. Qed.

Lemma set_inv {A} (l : list A) i v l' : set l i v = Ok l' -> (0 <= i < zlen l)%Z /\ l' = upd l (Z.to_nat i) v.
Proof.
  intros H. unfold set in H. destruct (Z.ltb_spec i 0), (Z.leb_spec (zlen l) i); cbn [orb] in H; try discriminate.
  split; [lia|congruence].
Qed.

Lemma search_first n m f vv : (0 < n)%Z -> mat_is n n m f -> zlen vv = n ->
  (forall i, (0 <= i < n)%Z -> zr vv i * Rabs (f i 0%Z) <= zr vv 0 * Rabs (f 0%Z 0%Z)) ->
  lu_search n 0 m vv 0 = Ok 0%Z.
Proof.
  intros Hn M Lv H. unfold lu_search.
  match goal with |- bind ?e _ = _ => cut (wp e (fun p => snd p = 0%Z)) end.
  { intros W. apply wp_ok in W. destruct W as [[b im] [-> W]]. cbn [snd] in W. subst. reflexivity. }
  apply (for_post (fun q p => snd p = 0%Z /\ ((0 < q)%Z -> zr vv 0 * Rabs (f 0%Z 0%Z) <= fst p))); [lia| | |].
  - split; [reflexivity|]. lia.
  - intros i [b im] Hi [E B]. cbn [fst snd] in *. rewrite (get_ok 0) by lia. cbn [bind].
    rewrite (mat_is_get _ _ _ _ i 0 M) by lia. cbn [bind wp]. cbv zeta. rn.
    destruct (Rlt_bool_spec b (zr vv i * Rabs (f i 0%Z))) as [G|G]; cbn [fst snd].
    + destruct (Z.eq_dec i 0) as [->|]; [split; [auto|intros; lra]|].
      specialize (B ltac:(lia)). specialize (H i ltac:(lia)). lra.
    + split; [auto|]. intros _. destruct (Z.eq_dec i 0) as [->|]; [lra|]. apply B. lia.
  - intros p [E _]. exact E.
Qed.

Lemma first_pivot n m f luf : (0 < n)%Z -> zlen m = (n * n)%Z -> mat_is n n m f ->
  (forall i, (0 <= i < n)%Z -> row_max n f i <> 0) ->
  (forall i, (0 <= i < n)%Z -> 1 / row_max n f i * Rabs (f i 0%Z) <= 1 / row_max n f 0 * Rabs (f 0%Z 0%Z)) ->
  lu (Mat m n n) = Ok luf -> zp (lu_pivot luf) 0 = 0%Z.
Proof.
  intros Hn L M NZ H E. unfold lu in E. cbn [m_w m_h m_vals] in E. rewrite Z.eqb_refl in E. cbn [negb] in E.
  destruct (zeros_ok (n * n) ltac:(nia)) as [z [Ez [Lz Zz]]]. rewrite Ez in E. subst z. cbn [bind] in E.
  rewrite copy_full in E by (rewrite L; lia).
  apply bind_inv in E. destruct E as [[[v pv] d] [EF E]]. injection E as <-. cbn [lu_pivot].
  unfold factorize in EF. destruct (scale_ok n Hn m f M NZ) as [vv [ES [Lv Vv]]]. rewrite ES in EF. cbn [bind] in EF.
  apply bind_inv in EF. destruct EF as [[[[[v' vv'] pv'] d'] im'] [EL EF]]. injection EF as <- <- <-.
  apply (for_ok_inv (fun k '(m', vv', pv, d, im) =>
    zlen pv = n /\ (k = 0%Z -> m' = m /\ vv' = vv /\ im = 0%Z) /\ ((1 <= k)%Z -> zp pv 0 = 0%Z))) in EL.
  - destruct EL as [_ [_ EL]]. apply EL. lia.
  - lia.
  - split; [rewrite zlen_repeat; lia|]. split; [auto|]. lia.
  - intros k [[[[m0 vv0] pv0] d0] im0] s' Hk [Lp [I0 I1]] EB. unfold lu_column in EB.
    apply bind_inv in EB. destruct EB as [im1 [E1 EB]].
    apply bind_inv in EB. destruct EB as [[[m1 vv1] d1] [E2 EB]].
    apply bind_inv in EB. destruct EB as [pv1 [E3 EB]].
    apply bind_inv in EB. destruct EB as [p [E4 EB]].
    apply bind_inv in EB. destruct EB as [m2 [E5 EB]].
    apply bind_inv in EB. destruct EB as [m3 [E6 EB]]. injection EB as <-.
    apply set_inv in E3. destruct E3 as [R3 ->]. split; [rewrite zlen_upd; auto|]. split; [intros; lia|]. intros _.
    destruct (Z.eq_dec k 0) as [->|].
    + destruct (I0 eq_refl) as [-> [-> ->]]. rewrite (search_first n m f vv Hn M Lv) in E1.
      * injection E1 as <-. now rewrite zn_upd_eq by lia.
      * intros i Hi. rewrite !Vv by lia. apply H; auto.
    + rewrite zn_upd_neq by lia. apply I1. lia.
Qed.

(** ** What the solve returns for the first unit vector *)
Lemma order_fix0 p k : p 0%Z = 0%Z -> (forall l, (0 <= l < Z.of_nat k)%Z -> (l <= p l)%Z) -> order p k 0 = 0%Z.
Proof.
  intros P0 P. induction k as [|k IH]; [reflexivity|]. cbn [order].
  assert (transp (Z.of_nat k) (p (Z.of_nat k)) 0 = 0%Z) as ->; [|apply IH; intros; apply P; lia].
  unfold transp. destruct k as [|k]; [change (Z.of_nat 0) with 0%Z; rewrite P0; reflexivity|].
  destruct (Z.eqb_spec 0 (Z.of_nat (S k))); [lia|]. destruct (Z.eqb_spec 0 (p (Z.of_nat (S k)))) as [E|]; [|reflexivity].
  specialize (P (Z.of_nat (S k)) ltac:(lia)). lia.
Qed.

Lemma scatter_unit0 p k i : (forall l, (0 <= l < Z.of_nat k)%Z -> (l <= p l)%Z) -> p 0%Z = 0%Z ->
  scatter p (fun l => if (l =? 0)%Z then 1 else 0) (fun l => if (l =? 0)%Z then 1 else 0) k i = if (i =? 0)%Z then 1 else 0.
Proof.
  intros P P0. induction k as [|k IH]; [reflexivity|]. cbn [scatter]. rewrite IH by (intros; apply P; lia).
  destruct (Z.eqb_spec i (p (Z.of_nat k))) as [->|]; [|reflexivity].
  destruct k as [|k]; [change (Z.of_nat 0) with 0%Z; now rewrite P0|].
  specialize (P (Z.of_nat (S k)) ltac:(lia)).
  destruct (Z.eqb_spec (Z.of_nat (S k)) 0), (Z.eqb_spec (p (Z.of_nat (S k))) 0); try lia; reflexivity.
Qed.

Lemma order_inj p k : (forall l, (0 <= l < Z.of_nat k)%Z -> (l <= p l)%Z) -> forall i j, order p k i = order p k j -> i = j.
Proof.
  induction k as [|k IH]; intros P i j; cbn [order]; auto. intros E. apply IH in E; [|intros; apply P; lia].
  revert E. unfold transp. set (a := Z.of_nat k). set (b := p a).
  destruct (Z.eqb_spec i a), (Z.eqb_spec i b), (Z.eqb_spec j a), (Z.eqb_spec j b); lia.
Qed.

Lemma order_surj p k n : (Z.of_nat k <= n)%Z -> (forall l, (0 <= l < Z.of_nat k)%Z -> (l <= p l < n)%Z) ->
  forall r, (0 <= r < n)%Z -> exists i, (0 <= i < n)%Z /\ order p k i = r.
Proof.
  induction k as [|k IH]; intros K P r Hr; [exists r; auto|].
  destruct (IH ltac:(lia) ltac:(intros; apply P; lia) r Hr) as [i [Hi E]].
  exists (transp (Z.of_nat k) (p (Z.of_nat k)) i). cbn [order].
  specialize (P (Z.of_nat k) ltac:(lia)). split.
  - unfold transp. destruct (Z.eqb_spec i (Z.of_nat k)), (Z.eqb_spec i (p (Z.of_nat k))); lia.
  - rewrite <- E. f_equal. unfold transp.
    destruct (Z.eqb_spec i (Z.of_nat k)), (Z.eqb_spec i (p (Z.of_nat k)));
      repeat match goal with |- context [(?a =? ?b)%Z] => destruct (Z.eqb_spec a b) end; lia.
Qed.

(** ** Kernels *)
Definition unit_vec (ld l : Z) : R := if (l =? ld)%Z then 1 else 0.

Lemma savgol_moments m n ld : (0 <= m)%Z -> (0 <= n)%Z -> (m < 2 * n + 1)%Z -> (0 <= ld <= m)%Z ->
  (forall vals luf, mat_is (m + 1) (m + 1) vals (fun i j => power_sum n (i + j)) -> lu (Mat vals (m + 1) (m + 1)) = Ok luf ->
     ld = 0%Z \/ forall l, (0 <= l < m + 1)%Z -> zp (lu_pivot luf) l = l) ->
  exists cs, savgol rpow (2 * n + 1) m ld = Ok cs /\ zlen cs = (2 * n + 1)%Z /\
    forall q, (0 <= q <= m)%Z -> sum (- n) (n + 1) (fun k => coord cs (k + n) * IZR k ^ Z.to_nat q) = unit_vec ld q.
Proof.
  intros Hm Hn Hmn Hd NX. unfold savgol. cbv zeta.
  replace (Z.quot (2 * n + 1) 2) with n by (rewrite Z.quot_div_nonneg by lia; apply Z.div_unique with 1%Z; lia).
  destruct (moment_matrix_ok m n Hm Hn) as [vals [-> MV]]. cbn [bind].
  set (A := fun i j => power_sum n (i + j)) in *.
  assert (zlen vals = ((m + 1) * (m + 1))%Z) as Lv by apply MV.
  assert (forall i j, (0 <= i < m + 1)%Z -> (0 <= j < m + 1)%Z -> entry (m + 1) vals i j = A i j) as EA by (apply MV).
  pose proof (moment_nonsingular m n Hm Hmn) as NSA. fold A in NSA.
  assert (nonsingular (m + 1) (entry (m + 1) vals)) as NS.
  { intros x Hx. apply NSA. intros i Hi. rewrite <- (Hx i Hi). unfold mat_vec. apply sum_ext. intros k Hk. now rewrite EA. }
  assert (forall i, (0 <= i < m + 1)%Z -> row_max (m + 1) A i <> 0) as RM by (intros; apply nonsingular_rows; auto; lia).
  destruct (lu_ok (m + 1) ltac:(lia) vals Lv NS) as [luf [f [EL O]]]. rewrite EL. cbn [bind].
  destruct (zeros_ok (m + 1) ltac:(lia)) as [z [-> [Lz Zz]]]. cbn [bind]. rewrite set_ok by lia. cbn [bind]. rn.
  set (b := upd z (Z.to_nat ld) 1).
  assert (zlen b = m + 1)%Z as Lb by (unfold b; rewrite zlen_upd; auto).
  assert (forall l, (0 <= l < m + 1)%Z -> zr b l = unit_vec ld l) as Vb.
  { intros l Hl. unfold b, unit_vec. rewrite zn_upd by lia. destruct (Z.eqb_spec l ld); auto. rewrite Zz. apply zn_repeat. lia. }
  assert (exists x, lu_solve_vector luf b b = Ok x /\ zlen x = (m + 1)%Z /\
    forall i, (0 <= i < m + 1)%Z -> mat_vec (m + 1) A (zr x) i = unit_vec ld i) as [x [-> [Lx SX]]].
  { destruct (solve_ok (m + 1) ltac:(lia) _ luf f b b O Lb Lb) as [x [E [Lx P]]]. exists x. split; [auto|]. split; [auto|].
    assert (forall i, (0 <= i < m + 1)%Z -> mat_vec (m + 1) (entry (m + 1) vals) (zr x) i = mat_vec (m + 1) A (zr x) i) as EM.
    { intros i Hi. unfold mat_vec. apply sum_ext. intros k Hk. now rewrite EA. }
    pose proof (lo_piv _ _ _ _ O) as PV.
    destruct (NX vals luf MV EL) as [->|ID].
    - assert (zp (lu_pivot luf) 0 = 0%Z) as P0.
      { apply (first_pivot (m + 1) vals A luf); auto; [lia|]. intros i Hi. apply first_ratio; auto. }
      assert (forall l, (0 <= l < Z.of_nat (Z.to_nat (m + 1)))%Z -> (l <= zp (lu_pivot luf) l < m + 1)%Z) as PV'
        by (intros; apply PV; lia).
      intros r Hr. destruct (order_surj (zp (lu_pivot luf)) (Z.to_nat (m + 1)) (m + 1) ltac:(lia) PV' r Hr) as [i [Hi Er]].
      rewrite <- EM by auto. rewrite <- Er. rewrite P by auto.
      transitivity (unit_vec 0 i).
      + change (unit_vec 0 i) with (if (i =? 0)%Z then 1 else 0). rewrite <- (scatter_unit0 (zp (lu_pivot luf)) (Z.to_nat (m + 1)) i) by (auto; intros; apply PV'; auto).
        assert (forall k, (Z.of_nat k <= m + 1)%Z -> scatter (zp (lu_pivot luf)) (zr b) (zr b) k i =
           scatter (zp (lu_pivot luf)) (fun l => if (l =? 0)%Z then 1 else 0) (fun l => if (l =? 0)%Z then 1 else 0) k i) as K.
        { induction k as [|k IH]; intros HK; cbn [scatter]; [apply Vb; auto|].
          rewrite IH by lia. rewrite Vb by lia. reflexivity. }
        apply K. lia.
      + unfold unit_vec. pose proof (order_fix0 (zp (lu_pivot luf)) (Z.to_nat (m + 1)) P0 ltac:(intros; apply PV'; auto)) as F0.
        destruct (Z.eqb_spec i 0) as [->|NE]; [rewrite F0; reflexivity|].
        destruct (Z.eqb_spec (order (zp (lu_pivot luf)) (Z.to_nat (m + 1)) i) 0) as [E0|]; [|reflexivity].
        exfalso. apply NE. apply (order_inj (zp (lu_pivot luf)) (Z.to_nat (m + 1))); [intros; apply PV'; auto|]. now rewrite E0, F0.
    - intros i Hi. rewrite <- EM by auto. specialize (P i Hi). rewrite order_id in P by (intros; apply ID; lia).
      rewrite scatter_id in P by (intros; try apply ID; lia). rewrite P. apply Vb. auto. }
  cbn [bind]. destruct (zeros_ok (2 * n + 1) ltac:(lia)) as [cs0 [-> [Lc0 _]]]. cbn [bind].
  set (G := fun k => sum 0 (m + 1) (fun l => zr x l * IZR k ^ Z.to_nat l)).
  match goal with |- exists c, ?e = _ /\ _ => assert (wp e (fun cs => zlen cs = (2 * n + 1)%Z /\
    forall k, (- n <= k < n + 1)%Z -> coord cs (k + n) = G k)) as W end.
  { apply (for_inv (fun k cs => zlen cs = (2 * n + 1)%Z /\ forall k', (- n <= k' < k)%Z -> coord cs (k' + n) = G k')).
    - lia.
    - split; [auto|]. intros; lia.
    - intros k cs Hk [L V]. rewrite (get_ok 0) by lia. cbn [bind].
      match goal with |- wp (bind ?e _) _ => assert (wp e (fun p => fst p = G k)) as WG end.
      { unfold G. apply (for_post (fun q p => fst p = sum 0 q (fun l => zr x l * IZR k ^ Z.to_nat l) /\ snd p = IZR k ^ Z.to_nat (q - 1)));
          [lia| | |].
        - cbn [fst snd]. split; [|reflexivity]. rewrite sum_first, sum_nil by lia. cbn [Z.to_nat pow]. ring.
        - intros q [s fc] Hq [E1 E2]. cbn [fst snd] in *. rewrite (get_ok 0) by lia. cbn [bind wp fst snd].
          rewrite sum_last by lia. subst. split.
          + f_equal. f_equal. rewrite <- (pow_1 (IZR k)) at 2. rewrite <- pow_add. f_equal. lia.
          + rewrite <- (pow_1 (IZR k)) at 2. rewrite <- pow_add. f_equal. lia.
        - intros p [E _]. exact E. }
      apply wp_ok in WG. destruct WG as [[s fc] [-> WG]]. cbn [fst] in WG. subst s. cbn [bind].
      rewrite set_ok by lia. cbn [wp]. split; [rewrite zlen_upd; auto|]. intros k' Hk'.
      change (coord (upd cs (Z.to_nat (k + n)) (G k)) (k' + n)) with (zr (upd cs (Z.to_nat (k + n)) (G k)) (k' + n)).
      rewrite zn_upd by lia. destruct (Z.eqb_spec (k' + n) (k + n)); [f_equal; lia|]. apply V. lia. }
  apply wp_ok in W. destruct W as [cs [-> [L V]]]. exists cs. split; [auto|]. split; [auto|]. intros q Hq.
  rewrite <- SX by lia. unfold mat_vec, A, power_sum.
  rewrite (sum_ext (- n) (n + 1) _ (fun k => sum 0 (m + 1) (fun l => zr x l * IZR k ^ Z.to_nat (q + l)))).
  - rewrite sum_swap. apply sum_ext. intros l Hl. rewrite sum_scal. ring.
  - intros k Hk. rewrite V by auto. unfold G. rewrite <- sum_scal_r. apply sum_ext. intros l Hl.
    replace (Z.to_nat (q + l)) with (Z.to_nat q + Z.to_nat l)%nat by lia. rewrite pow_add. ring.
Qed.

(** A kernel with these moments applied to a polynomial. *)
Lemma moments_poly cs m n ld a : zlen cs = (2 * n + 1)%Z -> (zlen a <= m + 1)%Z -> (0 <= ld)%Z ->
  (forall q, (0 <= q <= m)%Z -> sum (- n) (n + 1) (fun k => coord cs (k + n) * IZR k ^ Z.to_nat q) = unit_vec ld q) ->
  sum 0 (2 * n + 1) (fun j => coord cs j * poly a (IZR (j - n))) = coord a ld.
Proof.
  intros L La Hd M. transitivity (sum (- n) (n + 1) (fun k => coord cs (k + n) * poly a (IZR k))).
  { replace 0%Z with (- n + n)%Z by lia. replace (2 * n + 1)%Z with (n + 1 + n)%Z by lia. rewrite <- (sum_shift (- n) (n + 1) n).
    apply sum_ext. intros k Hk. repeat f_equal. lia. }
  rewrite (sum_ext _ _ _ (fun k => sum 0 (zlen a) (fun q => coord a q * (coord cs (k + n) * IZR k ^ Z.to_nat q)))).
  2:{ intros k Hk. rewrite poly_sum, <- sum_scal. apply sum_ext. intros; ring. }
  rewrite sum_swap. rewrite (sum_ext _ _ _ (fun q => coord a q * unit_vec ld q)).
  2:{ intros q Hq. rewrite sum_scal. f_equal. apply M. lia. }
  destruct (Z_lt_ge_dec ld (zlen a)) as [H|H].
  - rewrite (sum_single _ _ _ ld) by first [lia | intros k Hk NE; unfold unit_vec; destruct (Z.eqb_spec k ld); [lia|ring]].
    unfold unit_vec. rewrite Z.eqb_refl. ring.
  - unfold coord at 2. rewrite nth_overflow by (unfold zlen in H; lia). apply sum_zero.
    intros q Hq. unfold unit_vec. destruct (Z.eqb_spec q ld); [lia|ring].
Qed.

Lemma smooth_poly cs m n ld a x0 h xs i : zlen cs = (2 * n + 1)%Z -> (0 <= n)%Z -> (zlen a <= m + 1)%Z -> (0 <= ld)%Z ->
  (forall q, (0 <= q <= m)%Z -> sum (- n) (n + 1) (fun k => coord cs (k + n) * IZR k ^ Z.to_nat q) = unit_vec ld q) ->
  (forall j, (0 <= j < zlen xs)%Z -> coord xs j = poly a (x0 + h * IZR j)) -> (n <= i < zlen xs - n)%Z ->
  INR (fact (Z.to_nat ld)) * smoothed cs n (coord xs) i = h ^ Z.to_nat ld * poly (dpoly_n (Z.to_nat ld) a) (x0 + h * IZR i).
Proof.
  intros L Hn La Hd M X Hi.
  destruct (poly_shift a (x0 + h * IZR i) h) as [a' [La' E]].
  assert (smoothed cs n (coord xs) i = coord a' ld) as ->.
  { unfold smoothed. fold (zlen cs). rewrite L. rewrite <- (moments_poly cs m n ld a' L) by (auto; unfold zlen in *; lia).
    apply sum_ext. intros j Hj. f_equal. rewrite X by lia. rewrite E. f_equal. rewrite !minus_IZR, !plus_IZR. ring. }
  unfold coord. rewrite <- dpoly_n_0. rewrite (dpoly_n_shift _ a a' (x0 + h * IZR i) h 1) by (intros; rewrite E; ring).
  rewrite Rmult_0_r, Rplus_0_r. ring.
Qed.

Lemma width_facts w : (0 < w)%Z -> Z.odd w = true -> Z.rem w 2 = 1%Z /\ Z.quot w 2 = (w / 2)%Z /\ w = (2 * (w / 2) + 1)%Z /\ (0 <= w / 2)%Z.
Proof.
  intros H O. destruct (odd_width w H O) as [R1 [R2 R3]]. rewrite Z.quot_div_nonneg in * by lia. auto.
Qed.

Lemma savgol_thm m w a x0 h xs b : (0 <= m < w)%Z -> Z.odd w = true -> (zlen a <= m + 1)%Z -> (w <= zlen xs)%Z ->
  (forall j, (0 <= j < zlen xs)%Z -> coord xs j = poly a (x0 + h * IZR j)) ->
  exists k out, new_savgol rpow m w = Ok k /\ zlen (k_cs k) = w /\ convolve k xs b = Ok out /\ zlen out = zlen xs /\
    forall i, (w / 2 <= i < zlen xs - w / 2)%Z -> coord out i = poly a (x0 + h * IZR i).
Proof.
  intros Hm O La Lx X. destruct (width_facts w ltac:(lia) O) as [R1 [R2 [R3 R4]]]. set (n := (w / 2)%Z) in *.
  unfold new_savgol. rewrite R1, R2. cbn [Z.eqb Pos.eqb negb]. destruct (Z.leb_spec w m); [lia|].
  destruct (savgol_moments m n 0 ltac:(lia) R4 ltac:(lia) ltac:(lia)) as [cs [E [Lc M]]]; [auto|].
  rewrite <- R3 in E. rewrite E. cbn [bind].
  destruct (convolve_interior cs n xs b R4 ltac:(lia) ltac:(lia)) as [out [E2 [Lo V]]].
  exists (Kernel cs n), out. cbn [k_cs]. split; [auto|]. split; [lia|]. split; [auto|]. split; [auto|]. intros i Hi. rewrite V by lia.
  pose proof (smooth_poly cs m n 0 a x0 h xs i Lc R4 La ltac:(lia) M X ltac:(lia)) as P.
  cbn [Z.to_nat fact pow dpoly_n] in P. change (INR 1) with 1 in P. lra.
Qed.

Lemma factorial_ok d : (0 <= d)%Z -> exists f, factorial d = Ok f /\ IZR f = INR (fact (Z.to_nat d)).
Proof.
  intros H. unfold factorial.
  destruct (Z_le_gt_dec d 1) as [L|L].
  { rewrite for_empty by lia. exists 1%Z. split; [auto|]. assert (d = 0 \/ d = 1)%Z as [-> | ->] by lia; reflexivity. }
  match goal with |- exists f, ?e = _ /\ _ => assert (wp e (fun f => IZR f = INR (fact (Z.to_nat d)))) as W end.
  { apply (for_post (fun i f => IZR f = INR (fact (Z.to_nat (i - 1))))); [lia|reflexivity| |].
    - intros i f Hi E. cbn [wp]. rewrite mult_IZR, E. replace (Z.to_nat (i + 1 - 1)) with (S (Z.to_nat (i - 1))) by lia.
      change (fact (S (Z.to_nat (i - 1)))) with (S (Z.to_nat (i - 1)) * fact (Z.to_nat (i - 1)))%nat. rewrite mult_INR.
      rewrite (INR_IZR_INZ (S _)). replace (Z.of_nat (S (Z.to_nat (i - 1)))) with i by lia. ring.
    - intros s E. replace (d + 1 - 1)%Z with d in E by lia. exact E. }
  apply wp_ok in W. exact W.
Qed.

Lemma smoothed_scale cs cs' c e i v : zlen cs' = zlen cs -> (forall j, (0 <= j < zlen cs)%Z -> coord cs' j = coord cs j * v) ->
  smoothed cs' c e i = smoothed cs c e i * v.
Proof.
  intros L H. unfold smoothed. rewrite <- sum_scal_r. unfold zlen in *. rewrite L. apply sum_ext. intros j Hj. rewrite H by auto. ring.
Qed.

Lemma savgol_deriv_thm d m w a x0 h xs b : (0 <= d <= m)%Z -> (m < w)%Z -> Z.odd w = true -> (zlen a <= m + 1)%Z -> (w <= zlen xs)%Z ->
  h <> 0 ->
  (forall vals luf, zlen vals = ((m + 1) * (m + 1))%Z ->
     (forall i j, (0 <= i < m + 1)%Z -> (0 <= j < m + 1)%Z -> entry (m + 1) vals i j = power_sum (w / 2) (i + j)) ->
     lu (Mat vals (m + 1) (m + 1)) = Ok luf -> forall l, (0 <= l < m + 1)%Z -> nth (Z.to_nat l) (lu_pivot luf) 0%Z = l) ->
  (forall j, (0 <= j < zlen xs)%Z -> coord xs j = poly a (x0 + h * IZR j)) ->
  exists k out, new_savgol_deriv rpow h d m w = Ok k /\ zlen (k_cs k) = w /\ convolve k xs b = Ok out /\ zlen out = zlen xs /\
    forall i, (w / 2 <= i < zlen xs - w / 2)%Z -> coord out i = poly (dpoly_n (Z.to_nat d) a) (x0 + h * IZR i).
Proof.
  intros Hd Hm O La Lx Hh NX X. destruct (width_facts w ltac:(lia) O) as [R1 [R2 [R3 R4]]]. set (n := (w / 2)%Z) in *.
  unfold new_savgol_deriv. rewrite R1, R2. cbn [Z.eqb Pos.eqb negb]. rewrite Z.gtb_ltb.
  destruct (Z.ltb_spec m d); [lia|]. destruct (Z.leb_spec w m); [lia|].
  destruct (savgol_moments m n d ltac:(lia) R4 ltac:(lia) ltac:(lia)) as [cs [E [Lc M]]].
  { intros vals luf [Lv MV] EL. right. apply (NX vals luf Lv MV EL). }
  rewrite <- R3 in E. rewrite E. cbn [bind].
  destruct (factorial_ok d ltac:(lia)) as [f [-> Ef]]. cbn [bind]. rn.
  assert (wp (for_ 0 (zlen cs) (fun i cs => c <- get cs i;; set cs i (c * (IZR f / rpow h d))) cs) (fun cs' =>
    zlen cs' = zlen cs /\ forall i, (0 <= i < zlen cs)%Z -> coord cs' i = coord cs i * (IZR f / rpow h d))) as W.
  { eapply wp_mono; [apply (fill_gen 0 _ (fun i => coord cs i * (IZR f / rpow h d))); try lia|].
    - intros i o Hi L V. rewrite (get_ok 0) by lia. cbn [bind]. rewrite V by lia. zcases. reflexivity.
    - intros o [L V]. split; [auto|]. intros i Hi. change (coord o i) with (zn 0 o i). rewrite V by lia. zcases. reflexivity. }
  apply wp_ok in W. destruct W as [cs' [-> [Lc' Vc']]]. cbn [bind].
  destruct (convolve_interior cs' n xs b R4 ltac:(lia) ltac:(lia)) as [out [E2 [Lo V]]].
  exists (Kernel cs' n), out. cbn [k_cs]. split; [auto|]. split; [lia|]. split; [auto|]. split; [auto|]. intros i Hi. rewrite V by lia.
  rewrite (smoothed_scale cs cs' n _ i _ Lc' Vc'). rewrite Ef.
  pose proof (smooth_poly cs m n d a x0 h xs i Lc R4 La ltac:(lia) M X ltac:(lia)) as P.
  unfold rpow. assert (h ^ Z.to_nat d <> 0) by (apply pow_nonzero; auto).
  apply (Rmult_eq_reg_l (h ^ Z.to_nat d)); [|auto]. rewrite <- P. field. auto.
Qed.

(** ** No exchange for orders up to 1, and the general failure. *)
Lemma no_exchange_1 n vals luf : (1 <= n)%Z -> zlen vals = 4%Z ->
  (forall i j, (0 <= i < 2)%Z -> (0 <= j < 2)%Z -> entry 2 vals i j = power_sum n (i + j)) ->
  lu (Mat vals 2 2) = Ok luf -> forall l, (0 <= l < 2)%Z -> nth (Z.to_nat l) (lu_pivot luf) 0%Z = l.
Proof.
  intros Hn L V E l Hl.
  assert (mat_is 2 2 vals (fun i j => power_sum n (i + j))) as M by (split; auto).
  assert (nonsingular 2 (fun i j => power_sum n (i + j))) as NSA by (apply (moment_nonsingular 1 n); lia).
  assert (nonsingular 2 (entry 2 vals)) as NS.
  { intros x Hx. apply NSA. intros i Hi. rewrite <- (Hx i Hi). unfold mat_vec. apply sum_ext. intros k Hk. now rewrite V. }
  destruct (lu_ok 2 ltac:(lia) vals L NS) as [luf' [f [E' O]]]. rewrite E in E'. injection E' as <-.
  pose proof (lo_piv _ _ _ _ O) as PV. assert (l = 0 \/ l = 1)%Z as [-> | ->] by lia.
  - apply (first_pivot 2 vals (fun i j => power_sum n (i + j)) luf); auto; [lia| |].
    + intros. apply nonsingular_rows; auto; lia.
    + intros i Hi. apply (first_ratio 1 n); lia.
  - pose proof (PV 1%Z ltac:(lia)). unfold zn in *. lia.
Qed.

Lemma savgol_deriv_bad :
  match (k <- new_savgol_deriv (fun (x : f64) q => Nat.iter (Z.to_nat q) (nmul x) (nofZ 1)) (nofZ 1) 2 4 5 ;;
         out <- convolve k (map nofZ [4; 1; 0; 1; 4]%Z) Extension ;;
         get out 2)%res with
  | Ok y => nltb (nabs y) (f64lit 1 (-40)) = true
  | _ => False
  end.
Proof. vm_compute. reflexivity. Qed.
