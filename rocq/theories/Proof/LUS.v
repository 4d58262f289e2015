(** Consequences of the LU invariant: factorisation, determinant, solving. *)
From Coq Require Import ZArith List Lia Lra Bool Reals Psatz.
From Coq Require Import ZifyBool ZifyNat.
From Flocq Require Import Core.Raux.
From Verif Require Import Base.Res Base.ResFacts Base.Num Model.Mat Spec.Matrix Proof.SumP Proof.InterpP Proof.MatP Proof.LUP Proof.DetP.
Import ListNotations.
Open Scope R_scope.
Local Notation zr := (zn 0).
Local Notation zp := (zn 0%Z).

(** ** Fewer equations than unknowns *)
Lemma sum_skip n c g : (0 <= c <= Z.of_nat n)%Z ->
  sum 0 (Z.of_nat (S n)) g = g c + sum 0 (Z.of_nat n) (fun j => g (skip c j)).
Proof.
  intros Hc. rewrite (sum_split 0 c (Z.of_nat (S n))) by lia. rewrite (sum_first c) by lia.
  rewrite (sum_split 0 c (Z.of_nat n)) by lia.
  rewrite (sum_ext 0 c (fun j => g (skip c j)) g) by (intros k Hk; unfold skip; destruct (Z.ltb_spec k c); [auto|lia]).
  rewrite (sum_ext c (Z.of_nat n) (fun j => g (skip c j)) (fun j => g (j + 1)%Z))
    by (intros k Hk; unfold skip; destruct (Z.ltb_spec k c); [lia|auto]).
  rewrite (sum_shift c (Z.of_nat n) 1 g). replace (Z.of_nat n + 1)%Z with (Z.of_nat (S n)) by lia. ring.
Qed.

Lemma find_nonzero (g : Z -> R) n : (forall j, (0 <= j < Z.of_nat n)%Z -> g j = 0) \/
  exists j, (0 <= j < Z.of_nat n)%Z /\ g j <> 0.
Proof.
  induction n as [|n [IH|[j [Hj IH]]]]; [left; intros; lia| |right; exists j; split; [lia|auto]].
  destruct (Req_dec (g (Z.of_nat n)) 0) as [E|E].
  - left. intros j Hj. destruct (Z.eq_dec j (Z.of_nat n)) as [->|]; auto. apply IH; lia.
  - right. exists (Z.of_nat n). split; [lia|auto].
Qed.

Lemma homogeneous q : forall n E, (q < n)%nat -> exists x, (exists j, (0 <= j < Z.of_nat n)%Z /\ x j <> 0) /\
  forall i, (0 <= i < Z.of_nat q)%Z -> sum 0 (Z.of_nat n) (fun j => E i j * x j) = 0.
Proof.
  induction q as [|q IH]; intros n E H.
  - exists (fun _ => 1). split; [exists 0%Z; split; [lia|lra]|intros; lia].
  - destruct n as [|n]; [lia|].
    destruct (find_nonzero (E (Z.of_nat q)) (S n)) as [Z0|[c [Hc NZ]]].
    + destruct (IH (S n) E ltac:(lia)) as [x [X1 X2]]. exists x. split; [auto|]. intros i Hi.
      destruct (Z.eq_dec i (Z.of_nat q)) as [->|]; [|apply X2; lia].
      apply sum_zero. intros k Hk. rewrite Z0 by lia. ring.
    + set (p := E (Z.of_nat q) c) in *.
      destruct (IH n (fun i j => E i (skip c j) - E i c / p * E (Z.of_nat q) (skip c j)) ltac:(lia)) as [y [[jy [Hjy Y1]] Y2]].
      set (s := sum 0 (Z.of_nat n) (fun j => E (Z.of_nat q) (skip c j) * y j)).
      set (x := fun j => if (j =? c)%Z then - s / p else if (j <? c)%Z then y j else y (j - 1)%Z).
      assert (forall j, x (skip c j) = y j) as XS.
      { intros j. unfold x, skip. destruct (Z.ltb_spec j c).
        - destruct (Z.eqb_spec j c); [lia|]. destruct (Z.ltb_spec j c); [auto|lia].
        - destruct (Z.eqb_spec (j + 1) c); [lia|]. destruct (Z.ltb_spec (j + 1) c); [lia|]. f_equal. lia. }
      exists x. split.
      * exists (skip c jy). rewrite XS. split; [|auto]. unfold skip. destruct (Z.ltb_spec jy c); lia.
      * intros i Hi. rewrite (sum_skip n c) by lia.
        rewrite (sum_ext 0 (Z.of_nat n) _ (fun j => E i (skip c j) * y j)) by (intros; now rewrite XS).
        assert (x c = - s / p) as -> by (unfold x; now rewrite Z.eqb_refl).
        destruct (Z.eq_dec i (Z.of_nat q)) as [->|].
        { fold s p. field. auto. }
        specialize (Y2 i ltac:(lia)). cbv beta in Y2.
        rewrite (sum_ext 0 (Z.of_nat n) _ (fun j => E i (skip c j) * y j - E i c / p * (E (Z.of_nat q) (skip c j) * y j))) in Y2
          by (intros; ring).
        rewrite sum_minus, sum_scal in Y2. fold s in Y2.
        replace (sum 0 (Z.of_nat n) (fun j => E i (skip c j) * y j)) with (E i c / p * s) by lra. field. auto.
Qed.

Lemma nonsingular_rows n A r : (0 < n)%Z -> nonsingular n A -> (0 <= r < n)%Z -> row_max n A r <> 0.
Proof.
  intros Hn NS Hr Z0. rewrite row_max_zero in Z0 by auto.
  destruct (homogeneous (Z.to_nat (n - 1)) (Z.to_nat n) (fun i j => A (skip r i) j) ltac:(lia)) as [x [[j [Hj X1]] X2]].
  replace (Z.of_nat (Z.to_nat n)) with n in * by lia. replace (Z.of_nat (Z.to_nat (n - 1))) with (n - 1)%Z in * by lia. apply X1. apply (NS x); [|auto]. intros i Hi. unfold mat_vec.
  destruct (Z.eq_dec i r) as [->|].
  - apply sum_zero. intros k Hk. rewrite Z0 by auto. ring.
  - rewrite <- (X2 (if (i <? r)%Z then i else (i - 1)%Z)) by (destruct (Z.ltb_spec i r); lia).
    apply sum_ext. intros k Hk. f_equal. f_equal. unfold skip.
    destruct (Z.ltb_spec i r); [destruct (Z.ltb_spec i r)|destruct (Z.ltb_spec (i - 1) r)]; lia.
Qed.

Section Solve.
Variable n : Z.
Hypothesis Hn : (0 < n)%Z.

Definition low (k : Z) (f : Z -> Z -> R) (i j : Z) : R := if ((j <? k) && (j <? i))%Z then 0 else f i j.

Lemma det_step k f im : (0 <= k < n)%Z -> (k <= im < n)%Z -> f im k <> 0 ->
  det (Z.to_nat n) (low (k + 1) (step_f f k im)) =
  (if (im =? k)%Z then 1 else -1) * det (Z.to_nat n) (low k f).
Proof.
  intros Hk Him NZ. set (g := fun i j => f (transp k im i) j).
  assert (g k k = f im k) as GK by (unfold g, transp; now rewrite Z.eqb_refl).
  assert (step_f f k im = elim g k) as ->.
  { change (step_f f k im) with (elim (if Req_bool (g k k) 0 then fupd g k k tiny else g) k).
    rewrite GK. destruct (Req_bool_spec (f im k) 0); [contradiction|reflexivity]. }
  rewrite (det_ext _ _ (fun i j => low k g i j - (if (k <? i)%Z then g i k / g k k else 0) * low k g k j)).
  2:{ intros i j Hi Hj. unfold low, elim.
      destruct (Z.ltb_spec j (k + 1)), (Z.ltb_spec j i), (Z.ltb_spec j k), (Z.ltb_spec k i), (Z.eqb_spec j k), (Z.ltb_spec k j);
        subst; cbn [andb]; try lia; try ring. field. rewrite GK; auto. }
  rewrite (det_elim _ (low k g) k) by first [lia|destruct (Z.ltb_spec k k); [lia|auto]].
  rewrite (det_ext _ (low k g) (fun i j => low k f (transp k im i) j)).
  2:{ intros i j Hi Hj. unfold low, g, transp.
      destruct (Z.eqb_spec i k) as [->|]; [|destruct (Z.eqb_spec i im) as [->|]; auto].
      - destruct (Z.ltb_spec j k), (Z.ltb_spec j im); cbn [andb]; try lia; auto.
      - destruct (Z.ltb_spec j k), (Z.ltb_spec j im); cbn [andb]; try lia; auto. }
  destruct (Z.eqb_spec im k) as [->|].
  - rewrite Rmult_1_l. apply det_ext. intros. now rewrite transp_same.
  - rewrite det_swap by lia. ring.
Qed.

Lemma exchange_sign_ext p q k : (forall l, (0 <= l < Z.of_nat k)%Z -> p l = q l) -> exchange_sign p k = exchange_sign q k.
Proof.
  induction k as [|k IH]; intros H; [reflexivity|]. cbn [exchange_sign]. rewrite IH by (intros; apply H; lia).
  rewrite (H (Z.of_nat k)) by lia. reflexivity.
Qed.

Lemma exchange_sign_sq p k : exchange_sign p k * exchange_sign p k = 1.
Proof.
  induction k as [|k IH]; cbn [exchange_sign]; [ring|].
  destruct (p (Z.of_nat k) =? Z.of_nat k)%Z; (etransitivity; [|exact IH]); ring.
Qed.

Lemma factorize_ok m piv0 : zlen m = (n * n)%Z -> zlen piv0 = n -> nonsingular n (entry n m) ->
  exists m' piv d f vv, factorize n m piv0 = Ok (m', piv, d) /\ mat_is n n m' f /\ zlen piv = n /\
    inv n (entry n m) n f vv (zp piv) /\ d = exchange_sign (zp piv) (Z.to_nat n) /\
    det (Z.to_nat n) (entry n m) = d * prod_n (Z.to_nat n) (fun l => f l l).
Proof.
  intros Lm Lp NS. set (A := entry n m) in *. unfold factorize.
  pose proof (mat_is_entry n n m Lm) as M. fold A in M.
  assert (forall r, (0 <= r < n)%Z -> row_max n A r <> 0) as NZ by (intros; now apply nonsingular_rows).
  destruct (scale_ok n Hn m A M NZ) as [vv [-> [Lv V]]]. cbn [bind].
  match goal with |- exists m' piv d f vv, bind ?e _ = _ /\ _ => cut (wp e (fun '(m', vv, piv, d, _) => exists f,
    mat_is n n m' f /\ zlen piv = n /\ inv n A n f vv (zp piv) /\ d = exchange_sign (zp piv) (Z.to_nat n) /\
    det (Z.to_nat n) A = d * prod_n (Z.to_nat n) (fun l => f l l))) end.
  { intros W. apply wp_ok in W. destruct W as [[[[[m' vv'] piv] d] im] [-> [f W]]]. cbn [bind].
    exists m', piv, d, f, vv'. split; [reflexivity|]. exact W. }
  apply (for_post (fun k '(m', vv, piv, d, im) => exists f, mat_is n n m' f /\ zlen vv = n /\ zlen piv = n /\ (0 <= im < n)%Z /\
    inv n A k f vv (zp piv) /\ d = exchange_sign (zp piv) (Z.to_nat k) /\
    det (Z.to_nat n) A = d * det (Z.to_nat n) (low k f))); [lia| | |].
  - exists A. split; [auto|]. split; [auto|]. split; [auto|]. split; [lia|]. split; [|split].
    + constructor; try (intros; lia).
      * intros i j Hi Hj. cbn [Z.to_nat order]. rewrite sum_nil by lia.
        destruct (Z.leb_spec 0 i), (Z.leb_spec 0 j); cbn [andb]; try lia. ring.
      * intros i Hi. cbn [Z.to_nat order]. rewrite V by auto. field. auto.
    + rn. reflexivity.
    + rn. rewrite Rmult_1_l. apply det_ext. intros i j Hi Hj. unfold low.
      destruct (Z.ltb_spec j 0); [lia|]. reflexivity.
  - intros k [[[[m' vv'] piv] d] im0] Hk [f [Mf [Lv' [Lp' [Hi [I [D DET]]]]]]].
    destruct (column_nonzero n A k f vv' (zp piv) Hk NS I) as [i0 [Hi0 NZ0]].
    destruct (column_ok n Hn m' f vv' piv d im0 k Mf Lv' Lp' Hk Hi) as [im [m2 [vv2 [-> [Him [M2 [L2 [V2 ALT]]]]]]]].
    cbn [wp]. destruct ALT as [[RG [POS MX]]|[_ ALL]].
    2:{ exfalso. specialize (ALL i0 Hi0). pose proof (inv_vv _ _ _ _ _ _ I i0 Hi0) as VI.
        assert (0 < row_max n A (order (zp piv) (Z.to_nat k) i0)) as P.
        { apply row_max_pos, NZ. apply order_range; auto; try lia.
          intros l Hl. pose proof (inv_piv _ _ _ _ _ _ I l ltac:(lia)). lia. }
        assert (0 < zr vv' i0) as PV.
        { apply Rmult_lt_reg_r with (row_max n A (order (zp piv) (Z.to_nat k) i0)); auto. rewrite VI. lra. }
        pose proof (Rmult_lt_0_compat _ _ PV (Rabs_pos_lt _ NZ0)). lra. }
    assert (f im k <> 0) as NZI by (intros E; rewrite E, Rabs_R0 in POS; lra).
    exists (step_f f k im). split; [auto|]. split; [auto|]. split; [now rewrite zlen_upd|]. split; [auto|].
    assert (forall l, (0 <= l < k)%Z -> zp (upd piv (Z.to_nat k) im) l = zp piv l) as PE
      by (intros l Hl; apply zn_upd_neq; lia).
    assert (zp (upd piv (Z.to_nat k) im) k = im) as PK by (apply zn_upd_eq; lia).
    split; [|split].
    + eapply inv_step; eauto.
    + replace (Z.to_nat (k + 1)) with (S (Z.to_nat k)) by lia. cbn [exchange_sign].
      rewrite Z2Nat.id, PK by lia. rewrite (exchange_sign_ext _ (zp piv)) by (intros; apply PE; lia).
      rewrite <- D. rn. destruct (im =? k)%Z; ring.
    + rewrite det_step by auto. rewrite DET. rn. destruct (im =? k)%Z; ring.
  - intros [[[[m' vv'] piv] d] im] [f [Mf [_ [Lp' [_ [I [D DET]]]]]]]. exists f.
    split; [auto|]. split; [auto|]. split; [auto|]. split; [auto|]. rewrite DET. f_equal.
    rewrite det_upper.
    + apply prod_ext. intros i Hi. unfold low. destruct (Z.ltb_spec i i); [lia|]. rewrite andb_false_r. reflexivity.
    + intros i j Hj Hi'. unfold low. destruct (Z.ltb_spec j n), (Z.ltb_spec j i); try lia; auto.
Qed.

Lemma prod_nz k f : (forall l, (0 <= l < Z.of_nat k)%Z -> f l <> 0) -> prod_n k f <> 0.
Proof.
  induction k as [|k IH]; intros H; cbn [prod_n]; [lra|]. apply Rmult_integral_contrapositive_currified; [apply IH; intros|]; apply H; lia.
Qed.

(** ** Factors of a matrix *)
Record lu_of (A : Z -> Z -> R) (luf : lufactors R) (f : Z -> Z -> R) : Prop := {
  lo_w : m_w (lu_m luf) = n;
  lo_h : m_h (lu_m luf) = n;
  lo_vals : mat_is n n (m_vals (lu_m luf)) f;
  lo_len : zlen (lu_pivot luf) = n;
  lo_piv : forall l, (0 <= l < n)%Z -> (l <= zp (lu_pivot luf) l < n)%Z;
  lo_dec : forall i j, (0 <= i < n)%Z -> (0 <= j < n)%Z ->
    A (order (zp (lu_pivot luf)) (Z.to_nat n) i) j = sum 0 n (fun l => lower f i l * upper f l j);
  lo_nz : forall l, (0 <= l < n)%Z -> f l l <> 0;
  lo_bound : forall i l, (0 <= l < i)%Z -> (i < n)%Z ->
    Rabs (f i l) * row_max n A (order (zp (lu_pivot luf)) (Z.to_nat n) l) <=
    row_max n A (order (zp (lu_pivot luf)) (Z.to_nat n) i);
  lo_sign : lu_d luf = exchange_sign (zp (lu_pivot luf)) (Z.to_nat n);
  lo_det : det (Z.to_nat n) A = lu_d luf * prod_n (Z.to_nat n) (fun l => f l l) }.

Lemma copy_full (m : list R) k : zlen m = Z.of_nat k ->
  firstn (length (repeat 0 k)) m ++ skipn (length m) (repeat 0 k) = m.
Proof.
  intros L. unfold zlen in L. rewrite repeat_length.
  replace k with (length m) by lia. rewrite firstn_all.
  rewrite skipn_all2 by (rewrite repeat_length; lia). now rewrite app_nil_r.
Qed.

Lemma lu_ok m : zlen m = (n * n)%Z -> nonsingular n (entry n m) ->
  exists luf f, lu (Mat m n n) = Ok luf /\ lu_of (entry n m) luf f.
Proof.
  intros L NS. unfold lu. cbn [m_w m_h m_vals]. rewrite Z.eqb_refl. cbn [negb].
  destruct (zeros_ok (n * n) ltac:(nia)) as [z [-> [Lz ->]]]. cbn [bind].
  rewrite copy_full by (rewrite L; lia).
  destruct (factorize_ok m (repeat 0%Z (Z.to_nat n)) L) as [m' [piv [d [f [vv [E [M [Lp [I [D DET]]]]]]]]]];
    [rewrite zlen_repeat; lia|auto|].
  rewrite E. cbn [bind]. exists (LUF (Mat m' n n) piv d), f. split; [reflexivity|].
  constructor; cbn [lu_m m_w m_h m_vals lu_pivot lu_d]; auto.
  - intros l Hl. apply (inv_piv _ _ _ _ _ _ I). lia.
  - intros i j Hi Hj. rewrite (inv_dec _ _ _ _ _ _ I) by auto.
    destruct (Z.leb_spec n i); [lia|]. cbn [andb]. ring.
  - apply (inv_nz _ _ _ _ _ _ I).
  - intros i l Hl Hi. apply (inv_bound _ _ _ _ _ _ I); lia.
Qed.

Lemma lu_total m : zlen m = (n * n)%Z ->
  (forall i, (0 <= i < n)%Z -> exists j, (0 <= j < n)%Z /\ entry n m i j <> 0) -> exists luf, lu (Mat m n n) = Ok luf.
Proof.
  intros L NZ. unfold lu. cbn [m_w m_h m_vals]. rewrite Z.eqb_refl. cbn [negb].
  destruct (zeros_ok (n * n) ltac:(nia)) as [z [-> [Lz ->]]]. cbn [bind].
  rewrite copy_full by (rewrite L; lia).
  destruct (factorize_total n Hn m (repeat 0%Z (Z.to_nat n)) L) as [m' [piv [d E]]];
    [rewrite zlen_repeat; lia| |rewrite E; cbn [bind]; eauto].
  intros i Hi Z0. rewrite row_max_zero in Z0 by auto. destruct (NZ i Hi) as [j [Hj NE]]. auto.
Qed.

Lemma lu_zero_row m i : zlen m = (n * n)%Z -> (0 <= i < n)%Z -> (forall j, (0 <= j < n)%Z -> entry n m i j = 0) ->
  lu (Mat m n n) = Panic.
Proof.
  intros L Hi Z0. unfold lu. cbn [m_w m_h m_vals]. rewrite Z.eqb_refl. cbn [negb].
  destruct (zeros_ok (n * n) ltac:(nia)) as [z [-> [Lz ->]]]. cbn [bind].
  rewrite copy_full by (rewrite L; lia). unfold factorize.
  rewrite (scale_panic n Hn m (entry n m) i); auto; [now apply mat_is_entry|]. apply row_max_zero; auto.
Qed.

Lemma determinant_ok m : zlen m = (n * n)%Z -> nonsingular n (entry n m) ->
  determinant (Mat m n n) = Ok (det (Z.to_nat n) (entry n m)) /\ det (Z.to_nat n) (entry n m) <> 0.
Proof.
  intros L NS. unfold determinant. destruct (lu_ok m L NS) as [luf [f [-> O]]]. cbn [bind].
  unfold lu_determinant. rewrite (lo_w _ _ _ O). split.
  - match goal with |- ?e = Ok ?v => cut (wp e (fun d => d = v)) end.
    { intros W. apply wp_ok in W. destruct W as [d [-> ->]]. auto. }
    rewrite (lo_det _ _ _ O).
    apply (for_post (fun k d => d = lu_d luf * prod_n (Z.to_nat k) (fun l => f l l))); [lia|cbn; ring| |auto].
    intros k d Hk ->. rewrite (mat_is_get _ _ _ _ k k (lo_vals _ _ _ O)) by lia. cbn [bind wp]. rn.
    replace (Z.to_nat (k + 1)) with (S (Z.to_nat k)) by lia. cbn [prod_n]. rewrite Z2Nat.id by lia. ring.
  - rewrite (lo_det _ _ _ O). apply Rmult_integral_contrapositive_currified.
    + rewrite (lo_sign _ _ _ O). intros E. pose proof (exchange_sign_sq (zp (lu_pivot luf)) (Z.to_nat n)) as Q. rewrite E in Q. lra.
    + apply prod_nz. intros l Hl. apply (lo_nz _ _ _ O). lia.
Qed.

(** ** Substitution *)
Lemma forward_ok A luf f bs ys : lu_of A luf f -> zlen bs = n -> zlen ys = n ->
  exists y, forward_subst n (lu_pivot luf) (m_vals (lu_m luf)) bs ys = Ok y /\ zlen y = n /\
    forall i, (0 <= i < n)%Z -> sum 0 n (fun l => lower f i l * zr y l) = scatter (zp (lu_pivot luf)) (zr bs) (zr ys) (Z.to_nat n) i.
Proof.
  intros O Lb Ly. unfold forward_subst. set (piv := lu_pivot luf) in *. pose proof (lo_len _ _ _ O) as Lp. fold piv in Lp.
  match goal with |- exists y, bind ?e _ = _ /\ _ => cut (wp e (fun y => zlen y = n /\
    forall i, (0 <= i < n)%Z -> zr y i = scatter (zp piv) (zr bs) (zr ys) (Z.to_nat n) i)) end.
  2:{ apply (for_inv (fun k y => zlen y = n /\ forall i, (0 <= i < n)%Z -> zr y i = scatter (zp piv) (zr bs) (zr ys) (Z.to_nat k) i)).
      - lia.
      - split; auto.
      - intros k y Hk [L P]. rewrite (get_ok 0%Z) by lia. cbn [bind]. rewrite (get_ok 0) by lia. cbn [bind].
        pose proof (lo_piv _ _ _ O k Hk) as RP. fold piv in RP. rewrite set_ok by lia. cbn [wp]. rewrite zlen_upd.
        split; [auto|]. intros i Hi. rewrite zn_upd by lia. replace (Z.to_nat (k + 1)) with (S (Z.to_nat k)) by lia.
        cbn [scatter]. rewrite Z2Nat.id by lia. rewrite P by auto. reflexivity. }
  intros W. apply wp_ok in W. destruct W as [y0 [-> [L0 P0]]]. cbn [bind].
  set (c := scatter (zp piv) (zr bs) (zr ys) (Z.to_nat n)) in *.
  match goal with |- exists y, ?e = _ /\ _ => cut (wp e (fun y => zlen y = n /\
    forall i, (0 <= i < n)%Z -> sum 0 n (fun l => lower f i l * zr y l) = c i)) end.
  { intros W. apply wp_ok in W. exact W. }
  apply (for_post (fun k y => zlen y = n /\ (forall i, (k <= i < n)%Z -> zr y i = c i) /\
    forall i, (0 <= i < k)%Z -> zr y i = c i - sum 0 i (fun l => f i l * zr y l))); [lia| | |].
  - split; [auto|]. split; [auto|]. intros; lia.
  - intros k y Hk [L [P1 P2]].
    apply wp_bind. apply (wp_mono _ (fun s => s = sum 0 k (fun l => f k l * zr y l))).
    + apply (for_post (fun j s => s = sum 0 j (fun l => f k l * zr y l))); [lia|now rewrite sum_nil by lia| |auto].
      intros j s Hj ->. rewrite (mat_is_get _ _ _ _ k j (lo_vals _ _ _ O)) by lia. cbn [bind].
      rewrite (get_ok 0) by lia. cbn [bind wp]. rn. rewrite sum_last by lia. reflexivity.
    + intros s ->. rewrite (get_ok 0) by lia. cbn [bind]. rewrite set_ok by lia. cbn [wp]. rewrite zlen_upd. rn.
      split; [auto|]. split.
      * intros i Hi. rewrite zn_upd_neq by lia. apply P1. lia.
      * intros i Hi.
        rewrite (sum_ext 0 i (fun l => f i l * zr (upd y (Z.to_nat k) _) l) (fun l => f i l * zr y l))
          by (intros l Hl; rewrite zn_upd_neq by lia; auto).
        destruct (Z.eq_dec i k) as [->|]; [rewrite zn_upd_eq, P1 by lia; auto|].
        rewrite zn_upd_neq by lia. apply P2. lia.
  - intros y [L [_ P]]. split; [auto|]. intros i Hi.
    rewrite (sum_sub 0 n 0 (i + 1)) by first [lia|intros l Hl Hl'; unfold lower; destruct (Z.ltb_spec l i), (Z.eqb_spec l i); [lia|lia|lia|ring]].
    rewrite sum_last by lia. unfold lower at 2. destruct (Z.ltb_spec i i); [lia|]. rewrite Z.eqb_refl.
    rewrite (P i) by auto.
    rewrite (sum_ext 0 i _ (fun l => f i l * zr y l)) by (intros l Hl; unfold lower; destruct (Z.ltb_spec l i); [auto|lia]).
    ring.
Qed.

Lemma back_ok A luf f ys : lu_of A luf f -> zlen ys = n ->
  exists x, back_subst n (m_vals (lu_m luf)) ys = Ok x /\ zlen x = n /\
    forall i, (0 <= i < n)%Z -> sum 0 n (fun j => upper f i j * zr x j) = zr ys i.
Proof.
  intros O Ly. unfold back_subst.
  match goal with |- exists y, ?e = _ /\ _ => cut (wp e (fun x => zlen x = n /\
    forall i, (-1 < i < n)%Z -> f i i * zr x i = zr ys i - sum (i + 1) n (fun l => f i l * zr x l))) end.
  { intros W. apply wp_ok in W. destruct W as [x [-> [L P]]]. exists x. split; [auto|]. split; [auto|]. intros i Hi.
    rewrite (sum_sub 0 n i n) by first [lia|intros l Hl Hl'; unfold upper; destruct (Z.leb_spec i l); [lia|ring]].
    rewrite sum_first by lia. unfold upper at 1. destruct (Z.leb_spec i i); [|lia]. rewrite P by lia.
    rewrite (sum_ext (i + 1) n (fun l => upper f i l * zr x l) (fun l => f i l * zr x l))
      by (intros l Hl; unfold upper; destruct (Z.leb_spec i l); [auto|lia]).
    ring. }
  eapply wp_mono.
  - apply (for_down_inv (fun k x => zlen x = n /\ (forall i, (0 <= i <= k)%Z -> zr x i = zr ys i) /\
    forall i, (k < i < n)%Z -> f i i * zr x i = zr ys i - sum (i + 1) n (fun l => f i l * zr x l))); [lia| |].
    + split; [auto|]. split; [auto|]. intros; lia.
    + intros k x Hk [L [P1 P2]].
      apply wp_bind. apply (wp_mono _ (fun s => s = sum (k + 1) n (fun l => f k l * zr x l))).
      * apply (for_post (fun j s => s = sum (k + 1) j (fun l => f k l * zr x l))); [lia|now rewrite sum_nil by lia| |auto].
        intros j s Hj ->. rewrite (mat_is_get _ _ _ _ k j (lo_vals _ _ _ O)) by lia. cbn [bind].
        rewrite (get_ok 0) by lia. cbn [bind wp]. rn. rewrite sum_last by lia. reflexivity.
      * intros s ->. rewrite (get_ok 0) by lia. cbn [bind]. rewrite (mat_is_get _ _ _ _ k k (lo_vals _ _ _ O)) by lia. cbn [bind].
        rewrite set_ok by lia. cbn [wp]. rewrite zlen_upd. rn.
        split; [auto|]. split.
        -- intros i Hi. rewrite zn_upd_neq by lia. apply P1. lia.
        -- intros i Hi.
           rewrite (sum_ext (i + 1) n (fun l => f i l * zr (upd x (Z.to_nat k) _) l) (fun l => f i l * zr x l))
             by (intros l Hl; rewrite zn_upd_neq by lia; auto).
           destruct (Z.eq_dec i k) as [->|]; [|rewrite zn_upd_neq by lia; apply P2; lia].
           rewrite zn_upd_eq by lia. rewrite P1 by lia. field. apply (lo_nz _ _ _ O). lia.
  - intros x [L [_ P]]. split; [auto|]. intros i Hi. apply P. lia.
Qed.

Lemma solve_ok A luf f bs xs : lu_of A luf f -> zlen bs = n -> zlen xs = n ->
  exists x, lu_solve_vector luf bs xs = Ok x /\ zlen x = n /\
    forall i, (0 <= i < n)%Z -> mat_vec n A (zr x) (order (zp (lu_pivot luf)) (Z.to_nat n) i) =
      scatter (zp (lu_pivot luf)) (zr bs) (zr xs) (Z.to_nat n) i.
Proof.
  intros O Lb Lx. unfold lu_solve_vector. rewrite (lo_w _ _ _ O), Lb, Lx, Z.eqb_refl. cbn [negb].
  rewrite (get_ok 0) by lia. cbn [bind].
  destruct (forward_ok A luf f bs xs O Lb Lx) as [y [-> [L1 P1]]]. cbn [bind].
  destruct (back_ok A luf f y O L1) as [x [-> [L2 P2]]]. exists x. split; [auto|]. split; [auto|]. intros i Hi.
  rewrite <- P1 by auto. unfold mat_vec.
  rewrite (sum_ext 0 n _ (fun j => sum 0 n (fun l => lower f i l * (upper f l j * zr x j)))).
  2:{ intros j Hj. rewrite (lo_dec _ _ _ O) by auto. rewrite <- sum_scal_r. apply sum_ext. intros; ring. }
  rewrite sum_swap. apply sum_ext. intros l Hl. rewrite sum_scal, P2 by auto. reflexivity.
Qed.

Lemma order_id p k i : (forall l, (0 <= l < Z.of_nat k)%Z -> p l = l) -> order p k i = i.
Proof.
  revert i. induction k as [|k IH]; intros i H; cbn [order]; auto. rewrite H by lia. rewrite transp_same. apply IH. intros; apply H; lia.
Qed.

Lemma scatter_id p b s k i : (forall l, (0 <= l < Z.of_nat k)%Z -> p l = l) -> (0 <= i < Z.of_nat k)%Z -> scatter p b s k i = b i.
Proof.
  induction k as [|k IH]; intros H Hi; [lia|]. cbn [scatter]. rewrite H by lia.
  destruct (Z.eqb_spec i (Z.of_nat k)) as [->|]; auto. apply IH; [intros; apply H; lia|lia].
Qed.

Lemma scatter_zero p b s k i : (forall l, b l = 0) -> s i = 0 -> scatter p b s k i = 0.
Proof. intros B S. induction k; cbn [scatter]; auto. destruct (i =? p (Z.of_nat k))%Z; auto. Qed.

Lemma solve_id A luf f bs xs : lu_of A luf f -> zlen bs = n -> zlen xs = n ->
  (forall l, (0 <= l < n)%Z -> zp (lu_pivot luf) l = l) ->
  exists x, lu_solve_vector luf bs xs = Ok x /\ zlen x = n /\ forall i, (0 <= i < n)%Z -> mat_vec n A (zr x) i = zr bs i.
Proof.
  intros O Lb Lx ID. destruct (solve_ok A luf f bs xs O Lb Lx) as [x [E [L P]]]. exists x. split; [auto|]. split; [auto|].
  intros i Hi. specialize (P i Hi). rewrite order_id in P by (intros; apply ID; lia).
  rewrite scatter_id in P by (intros; try apply ID; lia). exact P.
Qed.

Lemma mat_vec_ext A x y i : (forall j, (0 <= j < n)%Z -> x j = y j) -> mat_vec n A x i = mat_vec n A y i.
Proof. intros E. unfold mat_vec. apply sum_ext. intros k Hk. now rewrite E. Qed.

Lemma solve_matrix_gen A luf f b xm (P : Z -> (Z -> R) -> Prop) : lu_of A luf f -> m_w b = n -> m_h b = n ->
  zlen xm = (n * n)%Z ->
  (forall j u v, (forall i, (0 <= i < n)%Z -> u i = v i) -> P j u -> P j v) ->
  (forall j col, (0 <= j < n)%Z -> zlen col = n -> (forall i, (0 <= i < n)%Z -> zr col i = entry n xm i j) ->
    exists x, lu_solve_vector luf col col = Ok x /\ zlen x = n /\ P j (zr x)) ->
  exists x, lu_solve_matrix luf b (Mat xm n n) = Ok (Mat x n n) /\ zlen x = (n * n)%Z /\
    forall j, (0 <= j < n)%Z -> P j (fun i => entry n x i j).
Proof.
  intros O Wb Hb Lx PX SOL. unfold lu_solve_matrix. rewrite (lo_w _ _ _ O). cbn [m_w m_h m_vals].
  rewrite Wb, Hb, !Z.eqb_refl. cbn [negb].
  match goal with |- exists x, bind ?e _ = _ /\ _ => cut (wp e (fun x => zlen x = (n * n)%Z /\
    forall j, (0 <= j < n)%Z -> P j (fun i => entry n x i j))) end.
  { intros W. apply wp_ok in W. destruct W as [x [-> [L W]]]. cbn [bind]. eauto. }
  apply (for_post (fun k x => exists g, mat_is n n x g /\ (forall i j, (k <= j < n)%Z -> (0 <= i < n)%Z -> g i j = entry n xm i j) /\
    forall j, (0 <= j < k)%Z -> P j (fun i => g i j))); [lia| | |].
  - exists (entry n xm). split; [now apply mat_is_entry|]. split; [auto|]. intros; lia.
  - intros k x Hk [g [M [G1 G2]]].
    assert (tabulate n (fun i => get x (i * n + k)) = Ok (ztab n (fun i => g i k))) as ->.
    { apply tabulate_ok; [lia|]. intros i Hi. apply (mat_is_get _ _ _ _ i k M); auto. }
    cbn [bind].
    destruct (SOL k (ztab n (fun i => g i k)) Hk) as [col [-> [Lc PC]]].
    { apply zlen_ztab. lia. }
    { intros i Hi. rewrite zn_ztab by auto. apply G1; lia. }
    cbn [bind].
    apply (for_post (fun q y => mat_is n n y (fun i j => if ((j =? k) && (i <? q))%Z then zr col i else g i j))); [lia| | |].
    + eapply mat_is_ext; [|exact M]. intros i j Hi Hj. cbv beta. destruct (Z.ltb_spec i 0); [lia|]. now rewrite andb_false_r.
    + intros q y Hq MY. rewrite (get_ok 0) by lia. cbn [bind].
      destruct (mat_is_set _ _ _ _ q k (zr col q) MY ltac:(lia) ltac:(lia)) as [y' [-> MY']]. cbn [wp].
      eapply mat_is_ext; [|exact MY']. intros i j Hi Hj. unfold fupd.
      destruct (Z.eqb_spec i q), (Z.eqb_spec j k), (Z.ltb_spec i q), (Z.ltb_spec i (q + 1)); subst; cbn [andb]; try lia; auto.
    + intros y MY. eexists. split; [exact MY|]. split.
      * intros i j Hj Hi. cbv beta. destruct (Z.eqb_spec j k); [lia|]. cbn [andb]. apply G1; lia.
      * intros j Hj. cbv beta. destruct (Z.eqb_spec j k) as [->|].
        -- eapply PX; [|exact PC]. intros i Hi. cbv beta. destruct (Z.ltb_spec i n); [|lia]. reflexivity.
        -- cbn [andb]. apply G2. lia.
  - intros x [g [[L M] [_ G]]]. split; [lia|]. intros j Hj. eapply PX; [|apply G; auto]. intros i Hi. cbv beta.
    symmetry. apply M; auto.
Qed.

Lemma solve_matrix_in_place A luf f xm : lu_of A luf f -> zlen xm = (n * n)%Z ->
  (forall l, (0 <= l < n)%Z -> zp (lu_pivot luf) l = l) ->
  exists x, lu_solve_matrix luf (Mat xm n n) (Mat xm n n) = Ok (Mat x n n) /\ zlen x = (n * n)%Z /\
    forall i j, (0 <= i < n)%Z -> (0 <= j < n)%Z -> mat_mul n A (entry n x) i j = entry n xm i j.
Proof.
  intros O L ID.
  destruct (solve_matrix_gen A luf f (Mat xm n n) xm
     (fun j u => forall i, (0 <= i < n)%Z -> mat_vec n A u i = entry n xm i j) O) as [x [E [Lx P]]]; auto.
  - intros j u v EQ H i Hi. rewrite <- H by auto. apply mat_vec_ext. intros. symmetry. auto.
  - intros j col Hj Lc EC. destruct (solve_id A luf f col col O Lc Lc ID) as [x [-> [Lx P]]].
    exists x. split; [auto|]. split; [auto|]. intros i Hi. rewrite P by auto. apply EC; auto.
  - exists x. split; [auto|]. split; [auto|]. intros i j Hi Hj. apply (P j Hj i Hi).
Qed.

Lemma invert_ok m luf f : zlen m = (n * n)%Z -> lu (Mat m n n) = Ok luf -> lu_of (entry n m) luf f ->
  (forall l, (0 <= l < n)%Z -> zp (lu_pivot luf) l = l) ->
  exists x, invert (Mat m n n) = Ok (Mat x n n) /\ zlen x = (n * n)%Z /\
    forall i j, (0 <= i < n)%Z -> (0 <= j < n)%Z -> mat_mul n (entry n m) (entry n x) i j = identity i j.
Proof.
  intros L E O ID. unfold invert. rewrite E. cbn [bind m_w m_h m_vals].
  destruct (zeros_ok (zlen m) ltac:(apply zlen_nonneg)) as [z [-> [Lz _]]]. cbn [bind].
  rewrite new_matrix_ok by lia. cbn [bind]. unfold lu_invert_at. rewrite (lo_w _ _ _ O). cbn [m_w m_h m_vals].
  rewrite Z.eqb_refl. cbn [negb].
  match goal with |- exists x, bind ?e _ = _ /\ _ => cut (wp e (fun x => mat_is n n x identity)) end.
  - intros W. apply wp_ok in W. destruct W as [u [-> [Lu U]]]. cbn [bind].
    destruct (solve_matrix_in_place (entry n m) luf f u O Lu ID) as [x [-> [Lx P]]]. exists x. split; [auto|].
    split; [auto|]. intros i j Hi Hj. rewrite P by auto. apply U; auto.
  - apply (for_post (fun q x => mat_is n n x (fun i j => if (i <? q)%Z then identity i j else 0))); [lia| | |].
    + eapply mat_is_ext; [|apply mat_is_zero; lia]. intros i j Hi Hj; cbv beta. destruct (Z.ltb_spec i 0); [lia|auto].
    + intros q x Hq M. destruct (mat_is_set _ _ _ _ q q 1 M ltac:(lia) ltac:(lia)) as [x' [E' M']]. rn. rewrite E'. cbn [wp].
      eapply mat_is_ext; [|exact M']. intros i j Hi Hj. unfold fupd, identity.
      destruct (Z.eqb_spec i q), (Z.eqb_spec j q), (Z.ltb_spec i q), (Z.ltb_spec i (q + 1)), (Z.eqb_spec i j); subst; cbn [andb]; try lia; auto.
    + intros x M. eapply mat_is_ext; [|exact M]. intros i j Hi Hj; cbv beta. destruct (Z.ltb_spec i n); [auto|lia].
Qed.

Lemma solve_matrix_zero m b : zlen m = (n * n)%Z -> nonsingular n (entry n m) -> m_w b = n -> m_h b = n ->
  exists x, solve_matrix (Mat m n n) b = Ok (Mat x n n) /\ zlen x = (n * n)%Z /\
    forall i j, (0 <= i < n)%Z -> (0 <= j < n)%Z -> entry n x i j = 0.
Proof.
  intros L NS Wb Hb. unfold solve_matrix. cbn [m_w m_h m_vals].
  destruct (zeros_ok (zlen m) ltac:(apply zlen_nonneg)) as [z [-> [Lz EZ]]]. cbn [bind].
  rewrite new_matrix_ok by lia. cbn [bind].
  destruct (lu_ok m L NS) as [luf [f [-> O]]]. cbn [bind].
  destruct (solve_matrix_gen (entry n m) luf f b z (fun j u => forall i, (0 <= i < n)%Z -> u i = 0) O) as [x [E [Lx P]]]; auto.
  - lia.
  - intros j u v EQ H i Hi. rewrite <- EQ; auto.
  - intros j col Hj Lc EC.
    assert (forall i, zr col i = 0) as C0.
    { intros i. destruct (Z_lt_le_dec i 0) as [N|N].
      - unfold zn. replace (Z.to_nat i) with 0%nat by lia.
        specialize (EC 0%Z ltac:(lia)). unfold zn in EC. change (Z.to_nat 0) with 0%nat in EC. rewrite EC. unfold entry. rewrite EZ. apply nth_repeat.
      - destruct (Z_lt_le_dec i n).
        + rewrite EC by lia. unfold entry. rewrite EZ. apply nth_repeat.
        + unfold zn. apply nth_overflow. unfold zlen in Lc. lia. }
    destruct (solve_ok (entry n m) luf f col col O Lc Lc) as [x [-> [Lx P]]]. exists x. split; [auto|]. split; [auto|].
    apply NS. intros r Hr.
    destruct (order_onto n (zp (lu_pivot luf)) (Z.to_nat n) r) as [i [Hi <-]]; [lia| |auto|].
    { intros l Hl. pose proof (lo_piv _ _ _ O l ltac:(lia)). lia. }
    rewrite P by auto. apply scatter_zero; auto.
  - exists x. split; [auto|]. split; [auto|]. intros i j Hi Hj. apply (P j Hj i Hi).
Qed.
End Solve.
