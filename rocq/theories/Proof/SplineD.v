(** Splines: the natural spline, derivatives and integrals. *)
From Coq Require Import ZArith List Lia Lra Bool Reals Psatz.
From Coq Require Import ZifyBool ZifyNat.
From Flocq Require Import Core.Raux.
From Coquelicot Require Import Coquelicot.
From Verif Require Import Base.Res Base.ResFacts Base.Num Model.Interp Model.Spline
  Spec.Interpolation Spec.Cubic Proof.InterpP Proof.TriDiagP Proof.SplineP.
Import ListNotations.
Open Scope R_scope.
Local Notation zr := (zn 0).

Lemma zr_nat (l : list R) i : zr l (Z.of_nat i) = nth i l 0.
Proof. unfold zn. now rewrite Nat2Z.id. Qed.

Lemma zr_nat_S (l : list R) i : zr l (Z.of_nat i + 1)%Z = nth (S i) l 0.
Proof. replace (Z.of_nat i + 1)%Z with (Z.of_nat (S i)) by lia. apply zr_nat. Qed.

Lemma mono_exists (xs : list R) : increasing xs \/ decreasing xs -> exists incr, monof incr (zlen xs) (zr xs).
Proof.
  intros [I|D]; [exists true; apply increasing_monof; auto|exists false; apply decreasing_monof; auto].
Qed.

Lemma between_btw incr a b x : ord incr a b -> between a b x -> btw incr a b x.
Proof. unfold between. destruct incr; cbn; lra. Qed.

Lemma natural_of_is sp xs ys incr Y : is_spline sp xs ys incr Y ->
  natural_spline xs ys (fun i => cub xs ys Y (Z.of_nat i)).
Proof.
  intros IS. pose proof (is_n _ _ _ _ _ IS) as N. unfold zlen in N.
  unfold natural_spline. split; [|split; [|split]].
  - intros i Hi. split; [rewrite <- !zr_nat; apply cub_left|].
    rewrite <- !zr_nat_S. eapply cub_right; eauto. unfold zlen. lia.
  - intros i Hi. rewrite <- !zr_nat_S.
    replace (Z.of_nat (S i)) with (Z.of_nat i + 1)%Z by lia. split.
    + eapply cub_d1; eauto. unfold zlen. lia.
    + rewrite cub_d2_left. eapply cub_d2_right; eauto. unfold zlen. lia.
  - rewrite <- zr_nat, cub_d2_left. apply (is_0 _ _ _ _ _ IS).
  - replace (Z.of_nat (length xs - 2)) with (zlen xs - 2)%Z by (unfold zlen; lia).
    replace (nth (length xs - 1) xs 0) with (zr xs (zlen xs - 2 + 1)%Z)
      by (unfold zn, zlen; f_equal; lia).
    rewrite (cub_d2_right IS) by (unfold zlen; lia).
    replace (zlen xs - 2 + 1)%Z with (zlen xs - 1)%Z by lia. apply (is_e _ _ _ _ _ IS).
Qed.

Lemma spline_natural xs ys : increasing xs \/ decreasing xs -> (3 <= length xs)%nat -> length ys = length xs ->
  exists sp ps, new_spline xs ys = Ok sp /\ natural_spline xs ys ps /\
    (forall i x, (S i < length xs)%nat -> between (nth i xs 0) (nth (S i) xs 0) x ->
       spline_eval sp x = Ok (cubic_at (ps i) x)) /\
    (forall x, ~ between (nth 0 xs 0) (nth (length xs - 1) xs 0) x -> spline_eval sp x = Panic).
Proof.
  intros M N L. destruct (mono_exists _ M) as [incr M'].
  destruct (new_spline_ok xs ys incr) as [sp [Y [E IS]]]; [unfold zlen; lia|unfold zlen; lia|auto|].
  exists sp, (fun i => cub xs ys Y (Z.of_nat i)). split; [auto|]. split; [eapply natural_of_is; eauto|]. split.
  - intros i x Hi B. eapply spline_eval_in; eauto; [unfold zlen; lia|].
    rewrite zr_nat, zr_nat_S. apply between_btw; auto.
    pose proof (monof_lt _ _ _ M' (Z.of_nat i) (Z.of_nat i + 1)%Z ltac:(lia) ltac:(unfold zlen; lia)) as O.
    rewrite zr_nat, zr_nat_S in O. exact O.
  - intros x NB. eapply spline_eval_out; eauto. intros B. apply NB.
    replace (zr xs (zlen xs - 1)%Z) with (nth (length xs - 1) xs 0) in B by (unfold zn, zlen; f_equal; lia).
    change (zr xs 0) with (nth 0 xs 0) in B. unfold between. destruct incr; cbn in B; lra.
Qed.

(** Two-point tables: construction panics. *)
Lemma spline_two xs ys : length xs = 2%nat -> new_spline (F := R) xs ys = Panic.
Proof.
  intros L. destruct xs as [|a [|b [|? ?]]]; try discriminate. clear L.
  destruct ys as [|c [|d [|e ys]]].
  - reflexivity.
  - reflexivity.
  - cbv -[Rlt_bool Rle_bool Rminus Rdiv Ropp Rplus Rmult IZR].
    destruct (Rlt_bool a b), (Rlt_bool b a); reflexivity.
  - unfold new_spline. destruct (Z.eqb_spec (zlen [a; b]) (zlen (c :: d :: e :: ys))) as [E|E]; [|reflexivity].
    rewrite !zlen_cons, zlen_nil in E. pose proof (zlen_nonneg ys). lia.
Qed.

(** ** Derivatives *)
Lemma cubic_derive p x : is_derive (cubic_at p) x (cubic_at (cubic_d p) x).
Proof. unfold cubic_at, cubic_d; cbn [q_h q0 q1 q2 q3]. auto_derive; [auto|]. ring. Qed.

Lemma cubic_deriv_lim p x : derivable_pt_lim (cubic_at p) x (cubic_at (cubic_d p) x).
Proof. apply is_derive_Reals. apply cubic_derive. Qed.

(** A common bound for finitely many. *)
Lemma common_delta (P : Z -> R -> Prop) n :
  (forall k d d', P k d -> 0 < d' <= d -> P k d') ->
  (forall k, (0 <= k < n)%Z -> exists d, 0 < d /\ P k d) ->
  exists d, 0 < d /\ forall k, (0 <= k < n)%Z -> P k d.
Proof.
  intros DC H.
  assert (forall m, exists d, 0 < d /\ forall k, (0 <= k < n)%Z -> (k < Z.of_nat m)%Z -> P k d) as K.
  { induction m as [|m [d [D K]]]; [exists 1; split; [lra|intros; lia]|].
    destruct (Z_lt_le_dec (Z.of_nat m) n) as [L|L].
    - destruct (H (Z.of_nat m) ltac:(lia)) as [e [E Q]]. exists (Rmin d e).
      split; [apply Rmin_pos; auto|]. intros k Hk Hm.
      destruct (Z.eq_dec k (Z.of_nat m)) as [->|NE].
      + eapply DC; eauto. split; [apply Rmin_pos; auto|apply Rmin_r].
      + apply (DC k d); [apply K; lia|]. split; [apply Rmin_pos; auto|apply Rmin_l].
    - exists d. split; auto. intros k Hk Hm. apply K; lia. }
  destruct (K (Z.to_nat n)) as [d [D Q]]. exists d. split; auto. intros k Hk. apply Q; lia.
Qed.

Section Deriv.
Context {sp : spline R} {xs ys : list R} {incr : bool} {Y : Z -> R} (IS : is_spline sp xs ys incr Y).
Let n := zlen xs.
Let inp k x := btw incr (zr xs k) (zr xs (k + 1)%Z) x.
Let g (m : nat) (k : Z) := cubic_dn m (cub xs ys Y k).

Lemma knots_apart x : exists d, 0 < d /\ forall k, (0 <= k < n)%Z -> zr xs k <> x -> d <= Rabs (zr xs k - x).
Proof.
  apply (common_delta (fun k d => zr xs k <> x -> d <= Rabs (zr xs k - x))).
  - intros k d d' H1 H2 H3. specialize (H1 H3). lra.
  - intros k Hk. destruct (Req_dec (zr xs k) x) as [E|E].
    + exists 1. split; [lra|]. intros; contradiction.
    + exists (Rabs (zr xs k - x)). split; [apply Rabs_pos_lt; lra|]. intros; lra.
Qed.

Lemma near_piece x d t k : (forall k, (0 <= k < n)%Z -> zr xs k <> x -> d <= Rabs (zr xs k - x)) ->
  Rabs (t - x) < d -> (0 <= k < n - 1)%Z -> inp k t -> inp k x.
Proof.
  intros K T Hk B. unfold inp in *.
  pose proof (K k ltac:(lia)) as K1. pose proof (K (k + 1)%Z ltac:(lia)) as K2.
  unfold Rabs in *. destruct incr; cbn in *.
  - split.
    + destruct (Rle_dec (zr xs k) x); auto. specialize (K1 ltac:(lra)).
      destruct (Rcase_abs (zr xs k - x)), (Rcase_abs (t - x)); lra.
    + destruct (Rle_dec x (zr xs (k + 1)%Z)); auto. specialize (K2 ltac:(lra)).
      destruct (Rcase_abs (zr xs (k + 1)%Z - x)), (Rcase_abs (t - x)); lra.
  - split.
    + destruct (Rle_dec (zr xs (k + 1)%Z) x); auto. specialize (K2 ltac:(lra)).
      destruct (Rcase_abs (zr xs (k + 1)%Z - x)), (Rcase_abs (t - x)); lra.
    + destruct (Rle_dec x (zr xs k)); auto. specialize (K1 ltac:(lra)).
      destruct (Rcase_abs (zr xs k - x)), (Rcase_abs (t - x)); lra.
Qed.

Lemma near_strict x d t : (forall k, (0 <= k < n)%Z -> zr xs k <> x -> d <= Rabs (zr xs k - x)) ->
  Rabs (t - x) < d -> strictly_in (xs := xs) (incr := incr) x -> strictly_in (xs := xs) (incr := incr) t.
Proof.
  intros K T [S1 S2]. pose proof (is_n _ _ _ _ _ IS) as N. fold n in N.
  unfold strictly_in. fold n in S2 |- *.
  pose proof (K 0%Z ltac:(lia)) as K1. pose proof (K (n - 1)%Z ltac:(lia)) as K2.
  assert (zr xs 0 <> x) as D1 by (intros E; rewrite E in S1; destruct incr; cbn in S1; lra).
  assert (zr xs (n - 1)%Z <> x) as D2 by (intros E; rewrite E in S2; destruct incr; cbn in S2; lra).
  specialize (K1 D1). specialize (K2 D2).
  unfold Rabs in *. destruct incr; cbn in *;
  destruct (Rcase_abs (zr xs 0 - x)), (Rcase_abs (zr xs (n - 1)%Z - x)), (Rcase_abs (t - x)); lra.
Qed.

Lemma glue_deriv (f : R -> R) m x l : strictly_in (xs := xs) (incr := incr) x ->
  (forall t, strictly_in (xs := xs) (incr := incr) t -> exists k, (0 <= k < n - 1)%Z /\ inp k t /\ f t = cubic_at (g m k) t) ->
  (forall k, (0 <= k < n - 1)%Z -> inp k x -> f x = cubic_at (g m k) x /\ cubic_at (g (S m) k) x = l) ->
  derivable_pt_lim f x l.
Proof.
  intros SX FT FX eps E.
  destruct (knots_apart x) as [d [D K]].
  destruct (common_delta (fun k e => inp k x -> forall h, h <> 0 -> Rabs h < e ->
    Rabs ((cubic_at (g m k) (x + h) - cubic_at (g m k) x) / h - l) < eps) (n - 1)) as [e [Ep KE]].
  - intros k a b H1 H2 H3 h H4 H5. apply H1; auto. lra.
  - intros k Hk. destruct (cubic_deriv_lim (g m k) x eps E) as [dl DL].
    exists dl. split; [apply cond_pos|]. intros B h Hh1 Hh2.
    destruct (FX k Hk B) as [_ <-]. apply DL; auto.
  - assert (0 < Rmin d e) as MP by (apply Rmin_pos; auto).
    exists (mkposreal _ MP). cbn [pos]. intros h H1 H2.
    assert (Rabs h < d) as H3 by (eapply Rlt_le_trans; [exact H2|apply Rmin_l]).
    assert (Rabs h < e) as H4 by (eapply Rlt_le_trans; [exact H2|apply Rmin_r]).
    assert (Rabs (x + h - x) < d) as H5 by (replace (x + h - x) with h by ring; auto).
    pose proof (near_strict x d (x + h) K H5 SX) as ST.
    destruct (FT _ ST) as [k [Hk [B EQ]]]. rewrite EQ.
    pose proof (near_piece x d (x + h) k K H5 Hk B) as BX.
    destruct (FX k Hk BX) as [-> _]. apply KE; auto.
Qed.

Lemma g_agree m x i j : (m <= 2)%nat -> (0 <= i < n - 1)%Z -> (0 <= j < n - 1)%Z -> inp i x -> inp j x ->
  cubic_at (g m i) x = cubic_at (g m j) x.
Proof.
  intros Hm Hi Hj B1 B2. apply (pieces_agree IS (g m)); auto. intros k Hk. unfold g.
  destruct m as [|[|[|m]]]; cbn [cubic_dn]; [| | |lia].
  - rewrite cub_left. apply (cub_right IS). fold n. lia.
  - apply (cub_d1 IS). fold n. lia.
  - rewrite cub_d2_left. apply (cub_d2_right IS). fold n. lia.
Qed.

Lemma deriv_fun m t : strictly_in (xs := xs) (incr := incr) t -> exists k, (0 <= k < n - 1)%Z /\ inp k t /\
  value (spline_deriv sp t (Z.of_nat m)) = cubic_at (g m k) t.
Proof.
  intros S. destruct (spline_deriv_in IS t m S) as [k [Hk [B E]]]. exists k. split; [auto|]. split; [auto|].
  rewrite E. reflexivity.
Qed.

Lemma spline_deriv_correct x : strictly_in (xs := xs) (incr := incr) x ->
  spline_deriv sp x 0 = spline_eval sp x /\
  (forall m, (m <= 1)%nat -> exists v, spline_deriv sp x (Z.of_nat (S m)) = Ok v /\
     derivable_pt_lim (fun t => value (spline_deriv sp t (Z.of_nat m))) x v) /\
  ((forall k, (0 <= k < n)%Z -> x <> zr xs k) -> exists v, spline_deriv sp x 3 = Ok v /\
     derivable_pt_lim (fun t => value (spline_deriv sp t 2)) x v) /\
  (forall m, (4 <= m)%nat -> spline_deriv sp x (Z.of_nat m) = Ok 0).
Proof.
  intros S. split; [|split; [|split]].
  - destruct (spline_deriv_in IS x 0 S) as [k [Hk [B E]]]. cbn [Z.of_nat cubic_dn] in E. rewrite E.
    symmetry. apply (spline_eval_in IS); auto.
  - intros m Hm. destruct (spline_deriv_in IS x (Datatypes.S m) S) as [i [Hi [B E]]].
    eexists. split; [exact E|]. apply (glue_deriv _ m); auto.
    + intros t ST. apply deriv_fun. auto.
    + intros k Hk BK. split.
      * destruct (deriv_fun m x S) as [j [Hj [Bj ->]]]. apply g_agree; auto; lia.
      * apply g_agree; auto; lia.
  - intros NK. destruct (spline_deriv_in IS x 3 S) as [i [Hi [B E]]].
    eexists. split; [exact E|]. apply (glue_deriv _ 2); auto.
    + intros t ST. apply (deriv_fun 2). auto.
    + intros k Hk BK. split.
      * destruct (deriv_fun 2 x S) as [j [Hj [Bj EJ]]]. cbn [Z.of_nat] in EJ. change (Z.pos (Pos.of_succ_nat 1)) with 2%Z in EJ.
        rewrite EJ. apply g_agree; auto.
      * destruct (Z.eq_dec k i) as [->|NE]; [reflexivity|]. exfalso.
        pose proof (is_m _ _ _ _ _ IS) as M. fold n in M, Hi. unfold inp in BK.
        pose proof (NK i ltac:(lia)) as A1. pose proof (NK (i + 1)%Z ltac:(lia)) as A2.
        pose proof (NK k ltac:(lia)) as A3. pose proof (NK (k + 1)%Z ltac:(lia)) as A4.
        destruct (Z_lt_le_dec k i) as [L|L].
        -- assert (zr xs (k + 1)%Z = zr xs i \/ ord incr (zr xs (k + 1)%Z) (zr xs i)) as O.
           { destruct (Z.eq_dec (k + 1) i) as [->|]; auto. right. apply (monof_lt _ _ _ M); lia. }
           destruct incr; cbn in *; lra.
        -- assert (zr xs (i + 1)%Z = zr xs k \/ ord incr (zr xs (i + 1)%Z) (zr xs k)) as O.
           { destruct (Z.eq_dec (i + 1) k) as [->|]; auto. right. apply (monof_lt _ _ _ M); lia. }
           destruct incr; cbn in *; lra.
  - intros m Hm. destruct (spline_deriv_in IS x m S) as [i [Hi [B E]]]. rewrite E. now rewrite cubic_high.
Qed.
End Deriv.

Lemma deriv_negative sp (x : R) m v : (m < 0)%Z -> spline_deriv sp x m = Ok v -> v = 0.
Proof.
  intros H. unfold spline_deriv. destruct (sp_outside sp x) as [[]| | |]; cbn [bind]; try discriminate.
  destruct (sp_bsearch sp x); cbn [bind]; try discriminate.
  destruct (get (sp_xs sp) a); cbn [bind]; try discriminate.
  destruct (get (sp_coeffs sp) a); cbn [bind]; try discriminate.
  destruct m; try lia. rn. intros E. injection E as <-. reflexivity.
Qed.

Lemma strictly_of xs incr x : (2 <= length xs)%nat -> monof incr (zlen xs) (zr xs) ->
  strictly_between (nth 0 xs 0) (nth (length xs - 1) xs 0) x -> strictly_in (xs := xs) (incr := incr) x.
Proof.
  intros N M SB.
  pose proof (monof_lt _ _ _ M 0%Z (zlen xs - 1)%Z ltac:(unfold zlen; lia) ltac:(lia)) as O.
  unfold strictly_in. replace (zr xs (zlen xs - 1)%Z) with (nth (length xs - 1) xs 0) in * by (unfold zn, zlen; f_equal; lia).
  change (zr xs 0) with (nth 0 xs 0) in *. unfold strictly_between in SB. destruct incr; cbn in *; lra.
Qed.

Lemma spline_derivs xs ys sp x : increasing xs \/ decreasing xs -> (3 <= length xs)%nat -> length ys = length xs ->
  new_spline xs ys = Ok sp -> strictly_between (nth 0 xs 0) (nth (length xs - 1) xs 0) x ->
  spline_deriv sp x 0 = spline_eval sp x /\
  (forall m, (m <= 1)%nat -> exists v, spline_deriv sp x (Z.of_nat (S m)) = Ok v /\
     derivable_pt_lim (fun t => value (spline_deriv sp t (Z.of_nat m))) x v) /\
  (~ In x xs -> exists v, spline_deriv sp x 3 = Ok v /\
     derivable_pt_lim (fun t => value (spline_deriv sp t 2)) x v) /\
  (forall m, (4 <= m)%nat -> spline_deriv sp x (Z.of_nat m) = Ok 0).
Proof.
  intros M N L E SB. destruct (mono_exists _ M) as [incr M'].
  destruct (new_spline_ok xs ys incr) as [sp' [Y [E' IS]]]; [unfold zlen; lia|unfold zlen; lia|auto|].
  rewrite E in E'. injection E' as <-.
  destruct (spline_deriv_correct IS x (strictly_of xs incr x ltac:(lia) M' SB)) as [A [B [C D]]].
  split; [auto|]. split; [auto|]. split; [|auto]. intros NI. apply C. intros k Hk EQ. apply NI.
  rewrite EQ. apply zn_In. auto.
Qed.

(** ** Integrals *)
Definition anti (p : cubic) (x : R) : R :=
  q0 p * (x - q_h p) + q1 p * (x - q_h p) ^ 2 / 2 + q2 p * (x - q_h p) ^ 3 / 3 + q3 p * (x - q_h p) ^ 4 / 4.

Lemma anti_derive p x : is_derive (anti p) x (cubic_at p x).
Proof. unfold anti, cubic_at. auto_derive; [auto|]. field. Qed.

Lemma cubic_RInt p a b : is_RInt (cubic_at p) a b (anti p b - anti p a).
Proof.
  apply (is_RInt_derive (V := R_CompleteNormedModule)).
  - intros x _. apply anti_derive.
  - intros x _. apply (@ex_derive_continuous R_AbsRing R_NormedModule). eexists. apply cubic_derive.
Qed.

Section Integ.
Context {sp : spline R} {xs ys : list R} {Y : Z -> R} (IS : is_spline sp xs ys true Y).
Let n := zlen xs.
Let f t := value (spline_eval sp t).

Lemma integ_anti k lo : (0 <= k < n - 1)%Z -> forall hi, lo = zr xs k ->
  integ_term (coeff_of xs ys Y k) lo hi = anti (cub xs ys Y k) hi - anti (cub xs ys Y k) lo.
Proof.
  intros Hk hi ->. unfold integ_term, anti, cub; rn. cbn [q_h q0 q1 q2 q3].
  generalize (coeff_of xs ys Y k). intros c. field.
Qed.

Lemma piece_RInt k a b : (0 <= k < n - 1)%Z -> zr xs k <= a <= b -> b <= zr xs (k + 1)%Z ->
  is_RInt f a b (anti (cub xs ys Y k) b - anti (cub xs ys Y k) a).
Proof.
  intros Hk A B. apply (is_RInt_ext (cubic_at (cub xs ys Y k))); [|apply cubic_RInt].
  rewrite Rmin_left, Rmax_right by lra. intros x Hx. unfold f.
  rewrite (spline_eval_in IS x k Hk); [reflexivity|]. cbn. lra.
Qed.

(** The term computed by the code for a piece, when [lo] is one of its ends. *)
Lemma term_RInt k lo hi : (0 <= k < n - 1)%Z -> zr xs k <= lo <= hi -> hi <= zr xs (k + 1)%Z ->
  lo = zr xs k \/ lo = hi -> is_RInt f lo hi (integ_term (coeff_of xs ys Y k) lo hi).
Proof.
  intros Hk A B [E|E].
  - rewrite integ_anti by auto. apply piece_RInt; auto.
  - subst hi. replace (integ_term (coeff_of xs ys Y k) lo lo) with 0; [apply (@is_RInt_point R_NormedModule f)|].
    unfold integ_term; rn. field.
Qed.

Lemma middle_sum s0 lo hi : (0 <= lo <= hi)%Z -> (hi <= n - 1)%Z ->
  exists S, for_ lo hi (fun i sum =>
    k <- get (sp_coeffs sp) i ;; x0 <- get (sp_xs sp) i ;; x1 <- get (sp_xs sp) (i + 1) ;;
    Ok (sum + integ_term k x0 x1)%num)%res s0 = Ok (s0 + S) /\ is_RInt f (zr xs lo) (zr xs hi) S.
Proof.
  intros H1 H2.
  set (body := fun i sum => _).
  assert (wp (for_ lo hi body s0) (fun s => exists S, s = s0 + S /\ is_RInt f (zr xs lo) (zr xs hi) S)) as W.
  { apply (for_inv (fun i s => exists S, s = s0 + S /\ is_RInt f (zr xs lo) (zr xs i) S)); [lia| |].
    - exists 0. split; [ring|]. apply (@is_RInt_point R_NormedModule f).
    - intros i s Hi [S [-> RI]]. unfold body. rewrite (is_xs _ _ _ _ _ IS).
      rewrite (get_ok (Coeff 0 0 0 0)) by (rewrite (is_lc _ _ _ _ _ IS); fold n; lia). cbn [bind].
      rewrite !(get_ok 0) by (fold n; lia). cbn [bind wp]. rewrite (is_c _ _ _ _ _ IS) by (fold n; lia). rn.
      exists (S + integ_term (coeff_of xs ys Y i) (zr xs i) (zr xs (i + 1)%Z)). split; [ring|].
      apply (@is_RInt_Chasles R_NormedModule f _ (zr xs i)); auto. pose proof (is_m _ _ _ _ _ IS i ltac:(fold n; lia)) as M.
      apply term_RInt; [lia|lra|lra|auto]. }
  apply wp_ok in W. destruct W as [s [-> [S [-> RI]]]]. eauto.
Qed.

Lemma integrate_knot m lo hi : (0 <= m < n)%Z -> lo = zr xs m -> lo <= hi <= zr xs (n - 1)%Z ->
  exists v, spline_integrate sp lo hi = Ok v /\ is_RInt f lo hi v.
Proof.
  intros Hm EL HI. pose proof (is_n _ _ _ _ _ IS) as N. fold n in N.
  pose proof (increasing_incf xs) as _.
  assert (incf n (zr xs)) as If by (intros k Hk; apply (is_m _ _ _ _ _ IS k Hk)).
  assert (zr xs 0 <= lo <= zr xs (n - 1)%Z) as RL.
  { split; [rewrite EL; apply (incf_le n); auto; lia|lra]. }
  assert (zr xs 0 <= hi <= zr xs (n - 1)%Z) as RH by lra.
  destruct (sp_bsearch_ok IS lo RL) as [i [Ei [Hi Bi]]]. destruct (sp_bsearch_ok IS hi RH) as [j [Ej [Hj Bj]]].
  fold n in Hi, Hj. cbn in Bi, Bj.
  unfold spline_integrate, integ_ordered, sp_outside. rn. rewrite Rlt_bool_false by lra.
  rewrite (is_incr _ _ _ _ _ IS), (is_xs _ _ _ _ _ IS). fold n. rewrite !(get_ok 0) by (fold n; lia). cbn [bind].
  rewrite !Rlt_bool_false by lra. cbn [Bool.eqb orb]. rewrite Ei, Ej. cbn [bind].
  assert (lo = zr xs i \/ lo = zr xs (i + 1)%Z) as LC.
  { destruct (Req_dec lo (zr xs i)) as [A|A]; auto. destruct (Req_dec lo (zr xs (i + 1)%Z)) as [B|B]; auto. exfalso.
    assert (i < m)%Z by (apply (incf_inv n (zr xs) If); try lia; lra).
    assert (m < i + 1)%Z by (apply (incf_inv n (zr xs) If); try lia; lra). lia. }
  destruct (Z.eqb_spec i j) as [E|E].
  - subst j. rewrite (get_ok (Coeff 0 0 0 0)) by (rewrite (is_lc _ _ _ _ _ IS); fold n; lia). cbn [bind].
    rewrite (is_c _ _ _ _ _ IS) by (fold n; lia). eexists; split; [reflexivity|].
    apply term_RInt; [auto|lra|lra|]. destruct LC as [LC|LC]; [auto|right; lra].
  - assert (i < j)%Z as LT.
    { destruct (Z_lt_le_dec i j); auto. exfalso.
      assert (j + 1 <= i)%Z by lia.
      pose proof (incf_le n (zr xs) If (j + 1)%Z i ltac:(lia) ltac:(lia)).
      assert (lo = hi) by lra. subst hi. rewrite Ei in Ej. injection Ej as ->. lia. }
    assert (forall q, (0 <= q < n - 1)%Z -> get (sp_coeffs sp) q = Ok (coeff_of xs ys Y q)) as GC.
    { intros q Hq. rewrite (get_ok (Coeff 0 0 0 0)) by (rewrite (is_lc _ _ _ _ _ IS); fold n; lia).
      now rewrite (is_c _ _ _ _ _ IS) by (fold n; lia). }
    rewrite (GC i Hi), (GC j Hj). cbn [bind].
    rewrite (get_ok 0 xs (i + 1)) by (fold n; lia). rewrite (get_ok 0 xs j) by (fold n; lia). cbn [bind].
    match goal with |- context [for_ _ _ _ ?s] => destruct (middle_sum s (i + 1) j ltac:(lia) ltac:(lia)) as [S [ES RS]] end.
    rewrite (is_xs _ _ _ _ _ IS) in ES. rn. rewrite ES. eexists; split; [reflexivity|].
    set (t1 := integ_term (coeff_of xs ys Y i) lo (zr xs (i + 1)%Z)).
    set (t2 := integ_term (coeff_of xs ys Y j) (zr xs j) hi).
    replace (t1 + t2 + S) with (plus (plus t1 S) t2) by (unfold plus; cbn; ring).
    apply (@is_RInt_Chasles R_NormedModule f _ (zr xs j)); [apply (@is_RInt_Chasles R_NormedModule f _ (zr xs (i + 1)%Z)); auto|].
    + apply term_RInt; [auto|lra|lra|]. destruct LC; auto.
    + apply term_RInt; [auto|lra|lra|auto].
Qed.

(** Inside one piece the code uses the wrong origin. *)
Lemma integrate_inside lo hi k : (0 <= k < n - 1)%Z -> zr xs k < lo <= hi -> hi < zr xs (k + 1)%Z ->
  spline_integrate sp lo hi = Ok (integ_term (coeff_of xs ys Y k) lo hi) /\
  is_RInt f lo hi (anti (cub xs ys Y k) hi - anti (cub xs ys Y k) lo).
Proof.
  intros Hk A B. pose proof (is_n _ _ _ _ _ IS) as N. fold n in N.
  assert (incf n (zr xs)) as If by (intros q Hq; apply (is_m _ _ _ _ _ IS q Hq)).
  pose proof (incf_le n (zr xs) If 0%Z k ltac:(lia) ltac:(lia)).
  pose proof (incf_le n (zr xs) If (k + 1)%Z (n - 1)%Z ltac:(lia) ltac:(lia)).
  split; [|apply piece_RInt; auto; lra].
  destruct (sp_bsearch_ok IS lo) as [i [Ei [Hi Bi]]]; [cbn; fold n; lra|].
  destruct (sp_bsearch_ok IS hi) as [j [Ej [Hj Bj]]]; [cbn; fold n; lra|].
  fold n in Hi, Hj. cbn in Bi, Bj.
  assert (i = k) as ->.
  { assert (i < k + 1)%Z by (apply (incf_inv n (zr xs) If); try lia; lra).
    assert (k < i + 1)%Z by (apply (incf_inv n (zr xs) If); try lia; lra). lia. }
  assert (j = k) as ->.
  { assert (j < k + 1)%Z by (apply (incf_inv n (zr xs) If); try lia; lra).
    assert (k < j + 1)%Z by (apply (incf_inv n (zr xs) If); try lia; lra). lia. }
  unfold spline_integrate, integ_ordered, sp_outside. rn. rewrite Rlt_bool_false by lra.
  rewrite (is_incr _ _ _ _ _ IS), (is_xs _ _ _ _ _ IS). fold n. rewrite !(get_ok 0) by (fold n; lia). cbn [bind].
  rewrite !Rlt_bool_false by lra. cbn [Bool.eqb orb]. rewrite Ei, Ej. cbn [bind]. rewrite Z.eqb_refl.
  rewrite (get_ok (Coeff 0 0 0 0)) by (rewrite (is_lc _ _ _ _ _ IS); fold n; lia). cbn [bind].
  rewrite (is_c _ _ _ _ _ IS) by (fold n; lia). reflexivity.
Qed.
End Integ.

Lemma spline_integral_knot xs ys sp m hi : increasing xs -> (3 <= length xs)%nat -> length ys = length xs ->
  new_spline xs ys = Ok sp -> (m < length xs)%nat -> nth m xs 0 <= hi <= last xs 0 ->
  exists v, spline_integrate sp (nth m xs 0) hi = Ok v /\
    is_RInt (fun t => value (spline_eval sp t)) (nth m xs 0) hi v /\
    (nth m xs 0 < hi -> spline_integrate sp hi (nth m xs 0) = Ok (- v)).
Proof.
  intros M N L E Hm HI.
  destruct (new_spline_ok xs ys true) as [sp' [Y [E' IS]]];
    [unfold zlen; lia|unfold zlen; lia|apply increasing_monof; auto|].
  rewrite E in E'. injection E' as <-. rewrite last_zn in HI.
  destruct (integrate_knot IS (Z.of_nat m) (nth m xs 0) hi) as [v [EV RI]];
    [unfold zlen; lia|symmetry; apply zr_nat|auto|].
  exists v. split; [auto|]. split; [auto|]. intros LT.
  unfold spline_integrate in *. rn. rewrite Rlt_bool_false in EV by lra. rewrite Rlt_bool_true by lra.
  rewrite EV. reflexivity.
Qed.

(** A straight line through three points, integrated from 1/4 to 1/2. *)
Lemma spline_integral_bad : exists xs ys sp lo hi v w,
  increasing xs /\ length ys = length xs /\ new_spline xs ys = Ok sp /\
  hd 0 xs <= lo <= hi /\ hi <= last xs 0 /\
  spline_integrate sp lo hi = Ok v /\ is_RInt (fun t => value (spline_eval sp t)) lo hi w /\ v <> w.
Proof.
  assert (increasing [0; 1; 2]) as I by (cbn; lra).
  destruct (new_spline_ok [0; 1; 2] [0; 1; 2] true) as [sp [Y [E IS]]];
    [cbn; lia|reflexivity|apply increasing_monof; auto|].
  pose proof (is_eq _ _ _ _ _ IS 1%Z ltac:(cbn; lia)) as EQ.
  pose proof (is_0 _ _ _ _ _ IS) as Y0. pose proof (is_e _ _ _ _ _ IS) as Y2.
  change (Y 2%Z = 0) in Y2.
  change (1 - 1)%Z with 0%Z in EQ. change (1 + 1)%Z with 2%Z in EQ.
  change (zr [0; 1; 2] 0) with 0 in EQ. change (zr [0; 1; 2] 1) with 1 in EQ. change (zr [0; 1; 2] 2) with 2 in EQ.
  rewrite Y0, Y2 in EQ. assert (Y 1%Z = 0) as Y1.
  { replace ((2 - 1) / (2 - 1)) with 1 in EQ by field. replace ((1 - 0) / (1 - 0)) with 1 in EQ by field. lra. }
  destruct (integrate_inside IS (1 / 4) (1 / 2) 0) as [V W].
  { cbn; lia. } { change (zr [0; 1; 2] 0) with 0. lra. }
  { change (zr [0; 1; 2] (0 + 1)) with 1. lra. }
  exists [0; 1; 2], [0; 1; 2], sp, (1 / 4), (1 / 2). do 2 eexists.
  split; [auto|]. split; [reflexivity|]. split; [exact E|]. split; [cbn; lra|]. split; [cbn; lra|].
  split; [exact V|]. split; [exact W|].
  assert (coeff_of [0; 1; 2] [0; 1; 2] Y 0 = Coeff 0 0 1 0) as CE.
  { unfold coeff_of. change (0 + 1)%Z with 1%Z. rewrite Y0, Y1.
    change (zr [0; 1; 2] 1) with 1. change (zr [0; 1; 2] 0) with 0. f_equal; field. }
  unfold cub. rewrite CE. unfold integ_term, anti; rn. cbn [ca cb cc cd q_h q0 q1 q2 q3].
  change (zr [0; 1; 2] 0) with 0. lra.
Qed.
