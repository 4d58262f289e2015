(** Bicubic and tricubic interpolators: independence of history, values at the nodes. *)
From Coq Require Import ZArith List Lia Lra Bool Reals Psatz.
From Coq Require Import ZifyBool ZifyNat.
From Flocq Require Import Core.Raux.
From Verif Require Import Base.Res Base.ResFacts Base.Num Model.Interp Model.Spline
  Spec.Interpolation Spec.Cubic Proof.InterpP Proof.TriDiagP Proof.SplineP Proof.SplineD.
Import ListNotations.
Open Scope R_scope.
Local Notation zr := (zn 0).

(** ** Init forgets the old contents *)
Lemma tri_diag_out (as_ bs cs rs o1 o2 : list R) : zlen o1 = zlen o2 ->
  tri_diag_at as_ bs cs rs o1 = tri_diag_at as_ bs cs rs o2.
Proof.
  intros L. unfold tri_diag_at. rewrite L.
  destruct (negb _ || negb _ || negb _ || negb _) eqn:G; auto.
  destruct (get bs 0) as [beta| | |] eqn:GB; cbn [bind]; auto.
  destruct (beta =? #0)%num; auto. destruct (get rs 0) as [r0| | |]; cbn [bind]; auto.
  pose proof (get_inv _ _ _ GB) as HB.
  assert (1 <= zlen o1)%Z as L1 by lia.
  rewrite !set_ok by lia. cbn [bind].
  assert (rel_res eq
    (tri_forward as_ bs cs rs (upd o1 (Z.to_nat 0) (r0 / beta)%num) beta)
    (tri_forward as_ bs cs rs (upd o2 (Z.to_nat 0) (r0 / beta)%num) beta)) as K.
  { unfold tri_forward. rewrite !zlen_upd, <- L.
    match goal with |- rel_res eq (for_ 1 ?h ?b ?s) (for_ 1 ?h ?b ?t) =>
      assert (rel_res (fun p q : list R * R * list R => fst p = fst q /\ zlen (snd p) = h /\ zlen (snd q) = h /\
         forall k, (0 <= k < h)%Z -> zr (snd p) k = zr (snd q) k) (for_ 1 h b s) (for_ 1 h b t)) as K
    end.
    { apply (for_rel (fun i (s t : list R * R * list R) => fst s = fst t /\ zlen (snd s) = zlen o1 /\ zlen (snd t) = zlen o1 /\
         forall k, (0 <= k < i)%Z -> zr (snd s) k = zr (snd t) k)); [lia| |].
      - cbn [fst snd]. rewrite !zlen_upd. split; [auto|]. split; [auto|]. split; [auto|].
        intros k Hk. assert (k = 0)%Z as -> by lia. rewrite !zn_upd_eq by lia. reflexivity.
      - intros i [[tmp b] u] [[tmp' b'] v] Hi [E [Lu [Lv A]]]. cbn [fst snd] in *. injection E as <- <-.
        destruct (get cs (i - 1)) as [c| | |]; cbn [bind rel_res]; auto.
        destruct (set tmp i _) as [tm| | |]; cbn [bind rel_res]; auto.
        destruct (get bs i) as [bb| | |]; cbn [bind rel_res]; auto.
        destruct (get as_ i) as [aa| | |]; cbn [bind rel_res]; auto.
        destruct (get tm i) as [t| | |]; cbn [bind rel_res]; auto.
        cbv zeta. destruct (_ =? #0)%num; cbn [rel_res]; auto.
        destruct (get rs i) as [r| | |]; cbn [bind rel_res]; auto.
        rewrite !(get_ok 0) by lia. cbn [bind]. rewrite !set_ok by lia. cbn [bind rel_res fst snd].
        rewrite (A (i - 1)%Z) by lia. rewrite !zlen_upd.
        split; [auto|]. split; [auto|]. split; [auto|]. intros k Hk.
        rewrite !zn_upd by lia. destruct (Z.eqb_spec k i); auto. apply A. lia. }
    destruct (for_ _ _ _ _) as [[[t1 b1] u1]| | |], (for_ _ _ _ _) as [[[t2 b2] u2]| | |]; cbn [rel_res fst snd] in K |- *; auto.
    destruct K as [E [L3 [L4 A]]]. injection E as <- <-. f_equal. apply (list_ext 0); lia || auto.
    intros k Hk. apply A. lia. }
  apply rel_res_eq in K. now rewrite K.
Qed.

Lemma calc_y2s_out (xs ys z1 z2 : list R) : (2 <= zlen xs)%Z -> zlen z1 = zlen xs -> zlen z2 = zlen xs ->
  calc_y2s xs ys z1 = calc_y2s xs ys z2.
Proof.
  intros N L1 L2. unfold calc_y2s. cbv zeta.
  destruct (tabulate _ _) as [as_| | |]; cbn [bind]; auto.
  destruct (tabulate _ _) as [bs| | |]; cbn [bind]; auto.
  destruct (tabulate _ _) as [cs| | |]; cbn [bind]; auto.
  destruct (tabulate _ _) as [rs| | |]; cbn [bind]; auto.
  rewrite !set_ok by lia. cbn [bind]. rewrite !set_ok by (rewrite zlen_upd; lia). cbn [bind].
  set (u1 := upd (upd z1 _ _) _ _). set (u2 := upd (upd z2 _ _) _ _).
  assert (zlen u1 = zlen xs) as K1 by (unfold u1; rewrite !zlen_upd; auto).
  assert (zlen u2 = zlen xs) as K2 by (unfold u2; rewrite !zlen_upd; auto).
  rewrite !slice_ok by lia. cbn [bind].
  rewrite (tri_diag_out as_ bs cs rs _ (firstn (Z.to_nat (zlen xs - 1 - 1)) (skipn (Z.to_nat 1) u2)))
    by (rewrite !zlen_slice by lia; reflexivity).
  destruct (tri_diag_at _ _ _ _ _) as [mid| | |]; cbn [bind]; auto. f_equal.
  assert (forall k, (k = 0 \/ k = zlen xs - 1)%Z -> zr u1 k = zr u2 k) as A.
  { intros k Hk. unfold u1, u2. rewrite !(zn_upd 0 _ (zlen xs - 1)%Z) by (rewrite ?zlen_upd; lia).
    destruct (Z.eqb_spec k (zlen xs - 1)); auto. assert (k = 0)%Z as -> by lia. rewrite !zn_upd_eq by lia. auto. }
  f_equal; [|f_equal].
  - apply (list_ext 0); change 1%nat with (Z.to_nat 1); rewrite ?zlen_firstn by lia; auto.
    intros k Hk. rewrite !zn_firstn by lia. apply A. lia.
  - apply (list_ext 0); rewrite ?zlen_skipn by lia; [lia|].
    intros k Hk. rewrite !zn_skipn by lia. apply A. lia.
Qed.

(** A spline object large enough for tables of [n] points. *)
Definition fits (sp : spline R) (n : Z) : Prop :=
  zlen (sp_xs sp) = n /\ zlen (sp_ys sp) = n /\ zlen (sp_y2s sp) = n /\ zlen (sp_coeffs sp) = (n - 1)%Z.

Lemma spline_init_fresh sp xs ys : (2 <= zlen xs)%Z -> fits sp (zlen xs) ->
  spline_init sp xs ys = new_spline xs ys.
Proof.
  intros N [F1 [F2 [F3 F4]]]. unfold new_spline.
  assert (forall A (a : A), zlen (repeat a (length xs)) = zlen xs) as R1 by (intros; rewrite zlen_repeat; reflexivity).
  destruct (Z.eqb_spec (zlen xs) (zlen ys)) as [E|E]; cbn [negb].
  - destruct (Z.leb_spec (zlen xs) 1); [lia|]. unfold spline_init at 1 2. cbn [sp_xs sp_ys sp_y2s sp_coeffs].
    rewrite F1, F2, F4, <- E, !Z.eqb_refl. cbn [negb orb].
    destruct (get xs 0); cbn [bind]; auto. destruct (get xs 1); cbn [bind]; auto.
    destruct (check_sorted _ _); cbn [bind]; auto. destruct (get xs _); cbn [bind]; auto.
    rewrite (calc_y2s_out xs ys (sp_y2s sp) (repeat (#0)%num (length xs))) by auto.
    destruct (calc_y2s _ _ _); cbn [bind]; auto. rewrite zlen_repeat.
    now replace (Z.of_nat (length xs - 1)) with (zlen xs - 1)%Z by (unfold zlen in *; lia).
  - unfold spline_init. rewrite F2. destruct (Z.eqb_spec (zlen ys) (zlen xs)); [lia|].
    cbn [negb]. rewrite orb_true_r. reflexivity.
Qed.

Lemma bind_ok {A B} (r : res A) (k : A -> res B) b : bind r k = Ok b -> exists a, r = Ok a /\ k a = Ok b.
Proof. destruct r; cbn; try discriminate. eauto. Qed.

Lemma new_spline_fits xs ys sp : new_spline xs ys = Ok sp ->
  fits sp (zlen xs) /\ (2 <= zlen xs)%Z /\ zlen ys = zlen xs /\ sp_xs sp = xs.
Proof.
  unfold new_spline. destruct (Z.eqb_spec (zlen xs) (zlen ys)) as [E|E]; cbn [negb]; [|discriminate].
  destruct (Z.leb_spec (zlen xs) 1); [discriminate|]. unfold spline_init. cbn [sp_xs sp_ys sp_y2s sp_coeffs].
  rewrite !Z.eqb_refl. cbn [negb orb]. intros H1.
  apply bind_ok in H1. destruct H1 as [x0 [_ H1]]. apply bind_ok in H1. destruct H1 as [x1 [_ H1]].
  apply bind_ok in H1. destruct H1 as [? [_ H1]]. apply bind_ok in H1. destruct H1 as [xl [_ H1]].
  apply bind_ok in H1. destruct H1 as [y2s [Y H1]]. apply bind_ok in H1. destruct H1 as [c [C H1]].
  injection H1 as <-. unfold fits. cbn [sp_xs sp_ys sp_y2s sp_coeffs].
  split; [|split; [lia|split; [auto|reflexivity]]].
  split; [reflexivity|]. split; [auto|]. split.
  - unfold calc_y2s in Y. cbv zeta in Y.
    apply bind_ok in Y. destruct Y as [as_ [T1 Y]]. apply bind_ok in Y. destruct Y as [bs [_ Y]].
    apply bind_ok in Y. destruct Y as [cs [_ Y]]. apply bind_ok in Y. destruct Y as [rs [T4 Y]].
    assert (zlen (repeat (#0)%num (length xs)) = zlen xs) as R1 by (rewrite zlen_repeat; reflexivity).
    rewrite !set_ok in Y by lia. cbn [bind] in Y. rewrite set_ok in Y by (rewrite zlen_upd; lia). cbn [bind] in Y.
    set (u := upd (upd _ _ _) _ _) in Y. assert (zlen u = zlen xs) as LU by (unfold u; rewrite !zlen_upd; auto).
    rewrite slice_ok in Y by lia. cbn [bind] in Y. apply bind_ok in Y. destruct Y as [mid [M Y]]. injection Y as <-.
    pose proof (tri_diag_solves _ _ _ _ _ _ M) as [LM _].
    destruct (tabulate_inv _ 0 _ _ T4) as [_ [L4 _]].
    assert (zlen (firstn 1 u) = 1%Z) as L1 by (apply (zlen_firstn u 1); lia).
    assert (zlen (skipn (Z.to_nat (zlen xs - 1)) u) = 1%Z) as LE by (rewrite zlen_skipn; lia).
    rewrite !zlen_app.
    assert (zlen mid = zlen rs) by (unfold zlen; lia). cbn [firstn] in L1. rewrite L1, LE. lia.
  - rewrite zlen_repeat in C. destruct (tabulate_inv _ (Coeff 0 0 0 0) _ _ C) as [_ [L _]].
    rewrite L. unfold zlen in *. lia.
Qed.

(** The spline passes through its table. *)
Lemma new_spline_node xs ys : increasing xs \/ decreasing xs -> (3 <= zlen xs)%Z -> zlen ys = zlen xs ->
  exists sp, new_spline xs ys = Ok sp /\ forall i, (0 <= i < zlen xs)%Z -> spline_eval sp (zr xs i) = Ok (zr ys i).
Proof.
  intros M N L. destruct (mono_exists _ M) as [incr M'].
  destruct (new_spline_ok xs ys incr N L M') as [sp [Y [E IS]]]. exists sp. split; [auto|].
  intros i Hi. destruct (Z.eq_dec i (zlen xs - 1)) as [->|NE].
  - rewrite (spline_eval_in IS _ (zlen xs - 2)%Z); [|lia|].
    + replace (zlen xs - 1)%Z with (zlen xs - 2 + 1)%Z by lia. rewrite (cub_right IS) by lia. reflexivity.
    + replace (zlen xs - 1)%Z with (zlen xs - 2 + 1)%Z by lia.
      pose proof (M' (zlen xs - 2)%Z ltac:(lia)). destruct incr; cbn; lra.
  - rewrite (spline_eval_in IS _ i); [|lia|].
    + now rewrite cub_left.
    + pose proof (M' i ltac:(lia)). destruct incr; cbn; lra.
Qed.

(** ** Bicubic *)
Definition bi_line (xs : list R) (sps : list (spline R)) (y : R) : res (spline R) :=
  (xv <- eval_all_splines (zlen xs) sps y ;; new_spline xs xv)%res.

Record bi_inv (xs : list R) (sps : list (spline R)) (b : bicubic R) : Prop := {
  bi_n : (2 <= zlen xs)%Z;
  bi_xs : bc_xs b = xs;
  bi_sps : bc_ySplines b = sps;
  bi_l : zlen (bc_xVals b) = zlen xs;
  bi_sp : bi_line xs sps (bc_lastY b) = Ok (bc_xSpline b)
}.

Lemma eval_all_len n sps (y : R) l : eval_all_splines n sps y = Ok l -> zlen l = n.
Proof. intros H. destruct (tabulate_inv _ 0 _ _ H) as [_ [L _]]. exact L. Qed.

Lemma bi_line_fits xs sps y sp : bi_line xs sps y = Ok sp -> fits sp (zlen xs) /\ (2 <= zlen xs)%Z.
Proof.
  intros H. apply bind_ok in H. destruct H as [xv [_ H]]. destruct (new_spline_fits _ _ _ H) as [A [B _]]. auto.
Qed.

Lemma new_bicubic_inv xs ys vals b : new_bicubic xs ys vals = Ok b -> exists sps, bi_inv xs sps b.
Proof.
  unfold new_bicubic. destruct (negb _); [discriminate|]. intros H.
  apply bind_ok in H. destruct H as [sps [_ H]]. apply bind_ok in H. destruct H as [ly [_ H]].
  apply bind_ok in H. destruct H as [xv [EV H]]. apply bind_ok in H. destruct H as [xsp [NS H]].
  injection H as <-. exists sps. destruct (new_spline_fits _ _ _ NS) as [F [N _]].
  constructor; cbn [bc_xs bc_ySplines bc_xVals bc_lastY bc_xSpline]; auto.
  - eapply eval_all_len; eauto.
  - unfold bi_line. rewrite EV. exact NS.
Qed.

Lemma bicubic_eval_inv xs sps b x y : bi_inv xs sps b ->
  (forall v b', bicubic_eval b x y = Ok (v, b') -> bi_inv xs sps b') /\
  (p <- bicubic_eval b x y ;; Ok (fst p))%res = (sp <- bi_line xs sps y ;; spline_eval sp x)%res.
Proof.
  intros I. destruct (bi_line_fits _ _ _ _ (bi_sp _ _ _ I)) as [F N]. unfold bicubic_eval.
  destruct (neqb y (bc_lastY b)) eqn:EY; cbn [negb].
  - assert (y = bc_lastY b) as E by (rn; destruct (Req_bool_spec y (bc_lastY b)); auto; discriminate).
    rewrite E. cbn [bind]. rewrite (bi_sp _ _ _ I). cbn [bind]. destruct (spline_eval (bc_xSpline b) x); cbn [bind fst].
    + split; [|auto]. intros v b' H. injection H as _ <-. auto.
    + split; auto; discriminate.
    + split; auto; discriminate.
    + split; auto; discriminate.
  - rewrite (bi_l _ _ _ I), (bi_sps _ _ _ I), (bi_xs _ _ _ I). unfold bi_line.
    destruct (eval_all_splines (zlen xs) sps y) as [xv| | |] eqn:EV; cbn [bind]; try (split; [discriminate|auto]; fail).
    rewrite spline_init_fresh by auto.
    destruct (new_spline xs xv) as [xsp| | |] eqn:NS; cbn [bind]; try (split; [discriminate|auto]; fail).
    cbn [bc_xSpline]. destruct (spline_eval xsp x); cbn [bind fst]; try (split; [discriminate|auto]; fail).
    split; [|auto]. intros v b' H. injection H as _ <-.
    constructor; cbn [bc_xs bc_ySplines bc_xVals bc_lastY bc_xSpline]; auto.
    + eapply eval_all_len; eauto.
    + unfold bi_line. rewrite EV. exact NS.
Qed.

Definition bi_call (b : bicubic R) (p : R * R) := bicubic_eval b (fst p) (snd p).

Lemma bi_after xs sps cs : forall b b', bi_inv xs sps b -> after bi_call b cs = Ok b' -> bi_inv xs sps b'.
Proof.
  induction cs as [|c cs IH]; intros b b' I H; cbn [after] in H.
  - injection H as <-. auto.
  - apply bind_ok in H. destruct H as [[v b1] [E H]]. cbn [snd] in H. eapply IH; [|exact H].
    eapply (proj1 (bicubic_eval_inv xs sps b (fst c) (snd c) I)). exact E.
Qed.

Lemma bicubic_history xs ys vals b cs b' x y : new_bicubic xs ys vals = Ok b ->
  after (fun b p => bicubic_eval b (fst p) (snd p)) b cs = Ok b' ->
  answer (fun b p => bicubic_eval b (fst p) (snd p)) b' (x, y) =
  answer (fun b p => bicubic_eval b (fst p) (snd p)) b (x, y).
Proof.
  intros NB A. destruct (new_bicubic_inv _ _ _ _ NB) as [sps I].
  pose proof (bi_after xs sps cs b b' I A) as I'. unfold answer. cbn [fst snd].
  rewrite (proj2 (bicubic_eval_inv xs sps b x y I)), (proj2 (bicubic_eval_inv xs sps b' x y I')). reflexivity.
Qed.

Lemma bicubic_node xs ys rows : increasing xs \/ decreasing xs -> increasing ys \/ decreasing ys ->
  (3 <= length xs)%nat -> (3 <= length ys)%nat -> length rows = length ys -> rows_of (length xs) rows ->
  exists b, new_bicubic xs ys (concat rows) = Ok b /\
  forall i j, (i < length xs)%nat -> (j < length ys)%nat ->
  answer (fun b p => bicubic_eval b (fst p) (snd p)) b (nth i xs 0, nth j ys 0) = Ok (nth i (nth j rows []) 0).
Proof.
  intros Mx My Nx Ny Lr Rr.
  assert (zlen (concat rows) = zlen xs * zlen ys)%Z as LC.
  { unfold zlen. rewrite (concat_length (length xs)) by auto. rewrite Lr. lia. }
  assert (forall i j, (0 <= i < zlen xs)%Z -> (0 <= j < zlen ys)%Z ->
    zr (concat rows) (zlen xs * j + i)%Z = zr (zn [] rows j) i) as CN.
  { intros i j Hi Hj. replace (zlen xs * j + i)%Z with (i + Z.of_nat (length xs) * j)%Z by (unfold zlen; lia).
    apply zconcat_nth; auto. unfold zlen in *. lia. }
  assert (exists sps, tabulate (zlen xs) (fun xi => (yv <- tabulate (zlen ys) (fun yi => get (concat rows) (zlen xs * yi + xi)) ;;
      new_spline ys yv)%res) = Ok sps /\ zlen sps = zlen xs /\
      forall d i, (0 <= i < zlen xs)%Z -> forall j, (0 <= j < zlen ys)%Z ->
        spline_eval (zn d sps i) (zr ys j) = Ok (zr (zn [] rows j) i)) as [sps [ES [LS PS]]].
  { apply (tabulate_wp _ (fun i sp => forall j, (0 <= j < zlen ys)%Z ->
      spline_eval sp (zr ys j) = Ok (zr (zn [] rows j) i))); [apply zlen_nonneg|]. intros i Hi.
    rewrite (tabulate_ok _ (fun j => zr (zn [] rows j) i)); [|apply zlen_nonneg|].
    2:{ intros j Hj. rewrite (get_ok 0) by (rewrite LC; nia). rewrite CN by auto. reflexivity. }
    cbn [bind]. destruct (new_spline_node ys (ztab (zlen ys) (fun j => zr (zn [] rows j) i))) as [sp [E1 E2]]; auto.
    { unfold zlen; lia. } { apply zlen_ztab. apply zlen_nonneg. }
    exists sp. split; [auto|]. intros j Hj. rewrite E2 by auto. now rewrite zn_ztab. }
  assert (forall j, (0 <= j < zlen ys)%Z -> exists sp, bi_line xs sps (zr ys j) = Ok sp /\
    forall i, (0 <= i < zlen xs)%Z -> spline_eval sp (zr xs i) = Ok (zr (zn [] rows j) i)) as BL.
  { intros j Hj. unfold bi_line, eval_all_splines.
    rewrite (tabulate_ok _ (fun i => zr (zn [] rows j) i)); [|apply zlen_nonneg|].
    2:{ intros i Hi. rewrite (get_ok (Spline [] [] [] [] false 0)) by lia. cbn [bind]. apply PS; auto. }
    cbn [bind]. destruct (new_spline_node xs (ztab (zlen xs) (fun i => zr (zn [] rows j) i))) as [sp [E1 E2]]; auto.
    { unfold zlen; lia. } { apply zlen_ztab. apply zlen_nonneg. }
    exists sp. split; [auto|]. intros i Hi. rewrite E2 by auto. now rewrite zn_ztab. }
  destruct (BL 0%Z ltac:(unfold zlen; lia)) as [sp0 [B0 _]]. apply bind_ok in B0. destruct B0 as [xv [EV NS]].
  assert (new_bicubic xs ys (concat rows) = Ok (BiCubic xs ys (concat rows) (zlen xs) (zr ys 0) sps xv sp0)) as NB.
  { unfold new_bicubic. rewrite LC, Z.eqb_refl. cbn [negb]. cbv zeta. rewrite ES. cbn [bind].
    rewrite (get_ok 0) by (unfold zlen; lia). cbn [bind]. rewrite EV. cbn [bind]. rewrite NS. reflexivity. }
  eexists. split; [exact NB|]. intros i j Hi Hj. unfold answer. cbn [fst snd].
  assert (bi_inv xs sps (BiCubic xs ys (concat rows) (zlen xs) (zr ys 0) sps xv sp0)) as I.
  { constructor; cbn [bc_xs bc_ySplines bc_xVals bc_lastY bc_xSpline]; auto.
    - unfold zlen; lia.
    - eapply eval_all_len; eauto.
    - unfold bi_line. rewrite EV. exact NS. }
  rewrite (proj2 (bicubic_eval_inv _ _ _ _ _ I)).
  destruct (BL (Z.of_nat j) ltac:(unfold zlen; lia)) as [sp [EB EN]]. rewrite zr_nat in EB. rewrite EB. cbn [bind].
  specialize (EN (Z.of_nat i) ltac:(unfold zlen; lia)). rewrite !zr_nat in EN. unfold zn in EN. rewrite Nat2Z.id in EN.
  exact EN.
Qed.

(** ** Tricubic *)
Definition tri_rows (nx : Z) (ys : list R) (zsps : list (spline R)) (z : R) : res (list (spline R)) :=
  tabulate nx (fun xi => yv <- tc_yvals nx (zlen ys) zsps xi z ;; new_spline ys yv)%res.

Definition tri_line (xs ys : list R) (zsps : list (spline R)) (y z : R) : res (spline R) :=
  (sps <- tri_rows (zlen xs) ys zsps z ;; bi_line xs sps y)%res.

Record tri_inv (xs ys : list R) (zsps : list (spline R)) (t : tricubic R) : Prop := {
  tr_n : (2 <= zlen xs)%Z;
  tr_m : (2 <= zlen ys)%Z;
  tr_xs : tc_xs t = xs;
  tr_ys : tc_ys t = ys;
  tr_nx : tc_nx t = zlen xs;
  tr_z : tc_zSplines t = zsps;
  tr_rows : tri_rows (zlen xs) ys zsps (tc_lastZ t) = Ok (tc_ySplines t);
  tr_line : bi_line xs (tc_ySplines t) (tc_lastY t) = Ok (tc_xSpline t)
}.

Lemma tri_rows_fits nx ys zsps z l : tri_rows nx ys zsps z = Ok l ->
  zlen l = nx /\ forall d i, (0 <= i < nx)%Z -> fits (zn d l i) (zlen ys) /\ (2 <= zlen ys)%Z.
Proof.
  intros H. unfold tri_rows in H.
  split; [exact (proj1 (proj2 (tabulate_inv _ (Spline [] [] [] [] false 0) _ _ H)))|]. intros d i Hi.
  destruct (tabulate_inv _ d _ _ H) as [_ [L P]]. specialize (P i Hi). apply bind_ok in P.
  destruct P as [yv [_ P]]. destruct (new_spline_fits _ _ _ P) as [A [B _]]. auto.
Qed.

Lemma new_tricubic_inv xs ys zs vals t : new_tricubic xs ys zs vals = Ok t -> exists zsps, tri_inv xs ys zsps t.
Proof.
  unfold new_tricubic. destruct (negb _); [discriminate|]. cbv zeta. intros H.
  apply bind_ok in H. destruct H as [zsps [_ H]]. apply bind_ok in H. destruct H as [lz [_ H]].
  apply bind_ok in H. destruct H as [ysps [YS H]]. apply bind_ok in H. destruct H as [ly [_ H]].
  apply bind_ok in H. destruct H as [xv [EV H]]. apply bind_ok in H. destruct H as [xsp [NS H]].
  injection H as <-. exists zsps. destruct (new_spline_fits _ _ _ NS) as [F [N _]].
  constructor; cbn [tc_xs tc_ys tc_nx tc_zSplines tc_lastZ tc_ySplines tc_lastY tc_xSpline]; auto.
  - apply (proj2 (tri_rows_fits _ _ _ _ _ YS) (Spline [] [] [] [] false 0) 0%Z). lia.
  - unfold bi_line. rewrite EV. exact NS.
Qed.

Lemma tricubic_eval_inv xs ys zsps t x y z : tri_inv xs ys zsps t ->
  (forall v t', tricubic_eval t x y z = Ok (v, t') -> tri_inv xs ys zsps t') /\
  (p <- tricubic_eval t x y z ;; Ok (fst p))%res = (sp <- tri_line xs ys zsps y z ;; spline_eval sp x)%res.
Proof.
  intros I. destruct (bi_line_fits _ _ _ _ (tr_line _ _ _ _ I)) as [F N].
  destruct (tri_rows_fits _ _ _ _ _ (tr_rows _ _ _ _ I)) as [LR FR].
  assert (forall r, tri_rows (zlen xs) ys zsps z = r ->
    tabulate (zlen (tc_xs t)) (fun xi => (yv <- tc_yvals (tc_nx t) (zlen (tc_ys t)) (tc_zSplines t) xi z ;;
        sp <- get (tc_ySplines t) xi ;; spline_init sp (tc_ys t) yv)%res) = r) as ROWS.
  { intros r <-. rewrite (tr_xs _ _ _ _ I), (tr_ys _ _ _ _ I), (tr_nx _ _ _ _ I), (tr_z _ _ _ _ I). unfold tri_rows.
    apply tabulate_ext. intros i Hi. destruct (tc_yvals _ _ _ _ _); cbn [bind]; auto.
    rewrite (get_ok (Spline [] [] [] [] false 0)) by lia. cbn [bind].
    apply spline_init_fresh; [apply (tr_m _ _ _ _ I)|]. apply FR. auto. }
  unfold tricubic_eval, tri_line.
  destruct (neqb z (tc_lastZ t)) eqn:EZ.
  - assert (z = tc_lastZ t) as E by (rn; destruct (Req_bool_spec z (tc_lastZ t)); auto; discriminate).
    rewrite E, (tr_rows _ _ _ _ I). cbn [bind negb]. rewrite orb_false_r.
    destruct (neqb y (tc_lastY t)) eqn:EY; cbn [negb].
    + assert (y = tc_lastY t) as E' by (rn; destruct (Req_bool_spec y (tc_lastY t)); auto; discriminate).
      rewrite E', (tr_line _ _ _ _ I). cbn [bind].
      destruct (spline_eval (tc_xSpline t) x); cbn [bind fst]; try (split; [discriminate|auto]; fail).
      split; [|auto]. intros v b' H. injection H as _ <-. auto.
    + cbn [bind]. rewrite (tr_xs _ _ _ _ I). unfold bi_line.
      destruct (eval_all_splines (zlen xs) (tc_ySplines t) y) as [xv| | |] eqn:EV; cbn [bind]; try (split; [discriminate|auto]; fail).
      rewrite spline_init_fresh by auto.
      destruct (new_spline xs xv) as [xsp| | |] eqn:NS; cbn [bind]; try (split; [discriminate|auto]; fail).
      cbn [tc_xSpline]. destruct (spline_eval xsp x); cbn [bind fst]; try (split; [discriminate|auto]; fail).
      split; [|auto]. intros v b' H. injection H as _ <-.
      constructor; cbn [tc_xs tc_ys tc_nx tc_zSplines tc_lastZ tc_ySplines tc_lastY tc_xSpline]; try reflexivity; try (destruct I; assumption).
      unfold bi_line. rewrite EV. exact NS.
  - cbn [negb]. rewrite orb_true_r.
    destruct (tri_rows (zlen xs) ys zsps z) as [ysps| | |] eqn:TR; rewrite (ROWS _ eq_refl); cbn [bind];
      try (split; [discriminate|auto]; fail).
    cbn [tc_xs tc_ys tc_nx tc_zSplines tc_lastZ tc_ySplines tc_lastY tc_xSpline].
    rewrite (tr_xs _ _ _ _ I). unfold bi_line.
    destruct (eval_all_splines (zlen xs) ysps y) as [xv| | |] eqn:EV; cbn [bind]; try (split; [discriminate|auto]; fail).
    rewrite spline_init_fresh by auto.
    destruct (new_spline xs xv) as [xsp| | |] eqn:NS; cbn [bind]; try (split; [discriminate|auto]; fail).
    cbn [tc_xSpline]. destruct (spline_eval xsp x); cbn [bind fst]; try (split; [discriminate|auto]; fail).
    split; [|auto]. intros v b' H. injection H as _ <-.
    constructor; cbn [tc_xs tc_ys tc_nx tc_zSplines tc_lastZ tc_ySplines tc_lastY tc_xSpline]; try (destruct I; assumption); auto.
    unfold bi_line. rewrite EV. exact NS.
Qed.

Definition tri_call (t : tricubic R) (p : R * R * R) := tricubic_eval t (fst (fst p)) (snd (fst p)) (snd p).

Lemma tri_after xs ys zsps cs : forall t t', tri_inv xs ys zsps t -> after tri_call t cs = Ok t' -> tri_inv xs ys zsps t'.
Proof.
  induction cs as [|c cs IH]; intros b b' I H; cbn [after] in H.
  - injection H as <-. auto.
  - apply bind_ok in H. destruct H as [[v b1] [E H]]. cbn [snd] in H. eapply IH; [|exact H].
    eapply (proj1 (tricubic_eval_inv xs ys zsps b _ _ _ I)). exact E.
Qed.

Lemma tricubic_history xs ys zs vals t cs t' x y z : new_tricubic xs ys zs vals = Ok t ->
  after (fun t p => tricubic_eval t (fst (fst p)) (snd (fst p)) (snd p)) t cs = Ok t' ->
  answer (fun t p => tricubic_eval t (fst (fst p)) (snd (fst p)) (snd p)) t' (x, y, z) =
  answer (fun t p => tricubic_eval t (fst (fst p)) (snd (fst p)) (snd p)) t (x, y, z).
Proof.
  intros NB A. destruct (new_tricubic_inv _ _ _ _ _ NB) as [zsps I].
  pose proof (tri_after xs ys zsps cs t t' I A) as I'. unfold answer. cbn [fst snd].
  rewrite (proj2 (tricubic_eval_inv xs ys zsps t x y z I)), (proj2 (tricubic_eval_inv xs ys zsps t' x y z I')). reflexivity.
Qed.

Lemma tricubic_node xs ys zs planes : increasing xs \/ decreasing xs -> increasing ys \/ decreasing ys ->
  increasing zs \/ decreasing zs ->
  (3 <= length xs)%nat -> (3 <= length ys)%nat -> (3 <= length zs)%nat ->
  length planes = length zs -> planes_of (length xs) (length ys) planes ->
  exists t, new_tricubic xs ys zs (concat (map (@concat R) planes)) = Ok t /\
  forall i j k, (i < length xs)%nat -> (j < length ys)%nat -> (k < length zs)%nat ->
  answer (fun t p => tricubic_eval t (fst (fst p)) (snd (fst p)) (snd p)) t (nth i xs 0, nth j ys 0, nth k zs 0) =
  Ok (nth i (nth j (nth k planes []) []) 0).
Proof.
  intros Mx My Mz Nx Ny Nz Lp Pp. set (vals := concat (map (@concat R) planes)).
  pose (V := fun i j k => zr (zn [] (zn [] planes k) j) i).
  set (nx := zlen xs). set (ny := zlen ys). set (nz := zlen zs).
  assert (3 <= nx)%Z as Zx by (unfold nx, zlen; lia). assert (3 <= ny)%Z as Zy by (unfold ny, zlen; lia).
  assert (3 <= nz)%Z as Zz by (unfold nz, zlen; lia).
  pose proof (planes_concat _ _ _ Pp) as RC.
  assert (zlen vals = nx * ny * nz)%Z as LC.
  { unfold zlen, vals. rewrite (concat_length (length ys * length xs)) by auto. rewrite map_length, Lp.
    unfold nx, ny, nz, zlen. lia. }
  assert (forall k, (0 <= k < nz)%Z -> length (zn [] planes k) = length ys /\ rows_of (length xs) (zn [] planes k)) as PL.
  { intros k Hk. unfold planes_of in Pp. rewrite Forall_forall in Pp. apply Pp. apply zn_In.
    unfold zlen in *. unfold nz, zlen in Hk. lia. }
  assert (forall i j k, (0 <= i < nx)%Z -> (0 <= j < ny)%Z -> (0 <= k < nz)%Z ->
    zr vals (nx * ny * k + nx * j + i)%Z = V i j k) as CN.
  { intros i j k Hi Hj Hk. destruct (PL k Hk) as [P1 P2].
    replace (nx * ny * k + nx * j + i)%Z with ((i + nx * j) + Z.of_nat (length ys * length xs) * k)%Z
      by (unfold nx, ny, zlen; lia).
    unfold vals. rewrite zconcat_nth; auto.
    - rewrite (zn_map _ [] []) by (unfold zlen in *; unfold nz, zlen in Hk; lia).
      unfold V. unfold nx, zlen. apply zconcat_nth; auto. unfold zlen; unfold ny, zlen in Hj; lia.
    - rewrite zlen_map. unfold zlen; unfold nz, zlen in Hk; lia.
    - unfold nx, ny, zlen in *. nia. }
  assert (exists zsps, tabulate (nx * ny) (fun c => (yi <- quot c nx ;; xi <- rem c nx ;;
      zv <- tabulate nz (fun zi => get vals (nx * ny * zi + nx * yi + xi)) ;; new_spline zs zv)%res) = Ok zsps /\
      zlen zsps = (nx * ny)%Z /\ forall d c, (0 <= c < nx * ny)%Z -> forall k, (0 <= k < nz)%Z ->
        spline_eval (zn d zsps c) (zr zs k) = Ok (V (c mod nx) (c / nx) k)%Z) as [zsps [ES [LS PS]]].
  { apply (tabulate_wp _ (fun c sp => forall k, (0 <= k < nz)%Z ->
      spline_eval sp (zr zs k) = Ok (V (c mod nx) (c / nx) k)%Z)); [nia|]. intros c Hc.
    unfold quot, rem. destruct (Z.eqb_spec nx 0); [lia|]. cbn [bind].
    rewrite Z.quot_div_nonneg, Z.rem_mod_nonneg by lia.
    pose proof (Z.mod_pos_bound c nx ltac:(lia)) as HM.
    assert (0 <= c / nx < ny)%Z as HD.
    { split; [apply Z.div_pos; lia|]. apply Z.div_lt_upper_bound; lia. }
    rewrite (tabulate_ok _ (fun k => V (c mod nx) (c / nx) k)%Z); [|lia|].
    2:{ intros k Hk. rewrite (get_ok 0) by (rewrite LC; nia). rewrite CN by auto. reflexivity. }
    cbn [bind]. destruct (new_spline_node zs (ztab nz (fun k => V (c mod nx) (c / nx) k)%Z)) as [sp [E1 E2]]; auto.
    { apply zlen_ztab. lia. }
    exists sp. split; [auto|]. intros k Hk. rewrite E2 by auto. now rewrite zn_ztab. }
  assert (forall k, (0 <= k < nz)%Z -> exists sps, tri_rows nx ys zsps (zr zs k) = Ok sps /\ zlen sps = nx /\
    forall d i, (0 <= i < nx)%Z -> forall j, (0 <= j < ny)%Z -> spline_eval (zn d sps i) (zr ys j) = Ok (V i j k)) as TR.
  { intros k Hk. apply (tabulate_wp _ (fun i sp => forall j, (0 <= j < ny)%Z ->
      spline_eval sp (zr ys j) = Ok (V i j k))); [lia|]. intros i Hi. unfold tc_yvals. fold ny.
    rewrite (tabulate_ok _ (fun j => V i j k)); [|lia|].
    2:{ intros j Hj. rewrite (get_ok (Spline [] [] [] [] false 0)) by (rewrite LS; nia). cbn [bind].
        rewrite PS by (auto; nia). f_equal. f_equal.
        - rewrite Z.add_comm, Z.mod_add by lia. apply Z.mod_small. lia.
        - rewrite Z.add_comm, Z.div_add by lia. rewrite Z.div_small by lia. lia. }
    cbn [bind]. destruct (new_spline_node ys (ztab ny (fun j => V i j k))) as [sp [E1 E2]]; auto.
    { apply zlen_ztab. lia. }
    exists sp. split; [auto|]. intros j Hj. rewrite E2 by auto. now rewrite zn_ztab. }
  assert (forall j k, (0 <= j < ny)%Z -> (0 <= k < nz)%Z -> exists sps sp,
    tri_rows nx ys zsps (zr zs k) = Ok sps /\ bi_line xs sps (zr ys j) = Ok sp /\
    forall i, (0 <= i < nx)%Z -> spline_eval sp (zr xs i) = Ok (V i j k)) as BL.
  { intros j k Hj Hk. destruct (TR k Hk) as [sps [T1 [T2 T3]]]. exists sps.
    unfold bi_line, eval_all_splines. fold nx.
    rewrite (tabulate_ok _ (fun i => V i j k)); [|lia|].
    2:{ intros i Hi. rewrite (get_ok (Spline [] [] [] [] false 0)) by lia. cbn [bind]. apply T3; auto. }
    cbn [bind]. destruct (new_spline_node xs (ztab nx (fun i => V i j k))) as [sp [E1 E2]]; auto.
    { apply zlen_ztab. lia. }
    exists sp. split; [auto|]. split; [auto|]. intros i Hi. rewrite E2 by auto. now rewrite zn_ztab. }
  destruct (BL 0%Z 0%Z ltac:(lia) ltac:(lia)) as [sps0 [sp0 [T0 [B0 _]]]].
  pose proof B0 as B0'. apply bind_ok in B0. destruct B0 as [xv [EV NS]].
  assert (new_tricubic xs ys zs vals = Ok (TriCubic xs ys zs vals nx ny (zr ys 0) (zr zs 0) zsps sps0 sp0)) as NT.
  { unfold new_tricubic. fold nx ny nz. rewrite LC, Z.eqb_refl. cbn [negb]. cbv zeta. rewrite ES. cbn [bind].
    rewrite (get_ok 0) by (fold nz; lia). cbn [bind]. unfold tri_rows in T0. fold ny in T0. rewrite T0. cbn [bind].
    rewrite (get_ok 0) by (fold ny; lia). cbn [bind]. fold nx in EV. rewrite EV. cbn [bind]. rewrite NS. reflexivity. }
  eexists. split; [exact NT|]. intros i j k Hi Hj Hk. unfold answer. cbn [fst snd].
  destruct (new_tricubic_inv _ _ _ _ _ NT) as [zsps' I].
  pose proof (tr_z _ _ _ _ I) as EZ. cbn [tc_zSplines] in EZ. subst zsps'.
  rewrite (proj2 (tricubic_eval_inv _ _ _ _ _ _ _ I)). unfold tri_line. fold nx.
  destruct (BL (Z.of_nat j) (Z.of_nat k)) as [sps [sp [T1 [B1 EN]]]]; [unfold ny, zlen; lia|unfold nz, zlen; lia|].
  rewrite !zr_nat in *. rewrite T1. cbn [bind]. rewrite B1. cbn [bind].
  specialize (EN (Z.of_nat i) ltac:(unfold nx, zlen; lia)). rewrite zr_nat in EN. rewrite EN.
  unfold V, zn. now rewrite !Nat2Z.id.
Qed.
