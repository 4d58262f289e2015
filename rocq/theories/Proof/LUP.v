(** LU factorisation in exact arithmetic. *)
From Coq Require Import ZArith List Lia Lra Bool Reals Psatz.
From Coq Require Import ZifyBool ZifyNat.
From Flocq Require Import Core.Raux.
From Verif Require Import Base.Res Base.ResFacts Base.Num Model.Mat Spec.Matrix Proof.SumP Proof.InterpP Proof.MatP.
Import ListNotations.
Open Scope R_scope.
Local Notation zr := (zn 0).
Local Notation zp := (zn 0%Z).

(** ** Row maxima *)
Lemma max_n_ge n f i : (0 <= i < Z.of_nat n)%Z -> f i <= max_n n f.
Proof.
  induction n as [|n IH]; intros H; [lia|]. cbn [max_n].
  destruct (Z.eq_dec i (Z.of_nat n)) as [->|]; [apply Rmax_r|].
  eapply Rle_trans; [apply IH; lia|apply Rmax_l].
Qed.

Lemma max_n_nonneg n f : 0 <= max_n n f.
Proof. induction n; cbn [max_n]; [lra|]. eapply Rle_trans; [exact IHn|apply Rmax_l]. Qed.

Lemma max_n_zero n f : (forall i, (0 <= i < Z.of_nat n)%Z -> f i = 0) -> max_n n f = 0.
Proof.
  induction n as [|n IH]; intros H; cbn [max_n]; auto. rewrite IH, (H (Z.of_nat n)) by (intros; apply H || idtac; lia).
  apply Rmax_left. lra.
Qed.

Lemma row_max_zero n A r : (0 < n)%Z -> row_max n A r = 0 <-> forall j, (0 <= j < n)%Z -> A r j = 0.
Proof.
  intros Hn. unfold row_max. split.
  - intros H j Hj. pose proof (max_n_ge (Z.to_nat n) (fun j => Rabs (A r j)) j ltac:(lia)) as G.
    cbv beta in G. rewrite H in G. pose proof (Rabs_pos (A r j)).
    destruct (Req_dec (A r j) 0); auto. apply Rabs_no_R0 in H1. lra.
  - intros H. apply max_n_zero. intros i Hi. rewrite H by lia. apply Rabs_R0.
Qed.

Lemma row_max_pos n A r : row_max n A r <> 0 -> 0 < row_max n A r.
Proof. intros H. pose proof (max_n_nonneg (Z.to_nat n) (fun j => Rabs (A r j))). unfold row_max in *. lra. Qed.

Section LU.
Variables (n : Z).
Hypothesis Hn : (0 < n)%Z.

Lemma scale_row m f i : mat_is n n m f -> (0 <= i < n)%Z ->
  for_ 0 n (fun j big => a <- get m (i * n + j) ;; Ok (if (nabs a >? big)%num then nabs a else big))%res (#0)%num
  = Ok (row_max n f i).
Proof.
  intros M Hi.
  match goal with |- ?e = _ => cut (wp e (fun b => b = row_max n f i)) end.
  { intros W. apply wp_ok in W. destruct W as [b [-> ->]]. auto. }
  unfold row_max. apply (for_post (fun j b => b = max_n (Z.to_nat j) (fun j => Rabs (f i j)))); [lia| | |].
  - rn. reflexivity.
  - intros j b Hj ->. rewrite (mat_is_get _ _ _ _ i j M) by lia. cbn [bind wp]. cbv zeta. rn.
    replace (Z.to_nat (j + 1)) with (S (Z.to_nat j)) by lia. cbn [max_n]. rewrite Z2Nat.id by lia.
    destruct (Rlt_bool_spec (max_n (Z.to_nat j) (fun j => Rabs (f i j))) (Rabs (f i j))).
    + now rewrite Rmax_right by lra.
    + now rewrite Rmax_left by lra.
  - auto.
Qed.

Lemma scale_ok m f : mat_is n n m f -> (forall i, (0 <= i < n)%Z -> row_max n f i <> 0) ->
  exists vv, lu_scale n m = Ok vv /\ zlen vv = n /\ forall i, (0 <= i < n)%Z -> zr vv i = 1 / row_max n f i.
Proof.
  intros M NZ. unfold lu_scale. exists (ztab n (fun i => 1 / row_max n f i)).
  split; [|split; [apply zlen_ztab; lia|intros; rewrite zn_ztab by auto; reflexivity]].
  apply tabulate_ok; [lia|]. intros i Hi; cbv beta. rewrite (scale_row m f i M Hi). cbn [bind]. rn.
  destruct (Req_bool_spec (row_max n f i) 0); [exfalso; now apply (NZ i)|reflexivity].
Qed.

Lemma scale_panic m f i : mat_is n n m f -> (0 <= i < n)%Z -> row_max n f i = 0 -> lu_scale n m = Panic.
Proof.
  intros M Hi Z0. unfold lu_scale, tabulate. destruct (Z.ltb_spec n 0); [lia|].
  assert (forall q j, (0 <= j)%Z -> (j <= i < j + Z.of_nat q)%Z -> (j + Z.of_nat q <= n)%Z ->
    tab_n q j (fun i0 => big <- for_ 0 n (fun j0 big => a <- get m (i0 * n + j0) ;; 
      Ok (if (nabs a >? big)%num then nabs a else big)) (#0)%num ;;
      if (big =? #0)%num then Panic else Ok (#1 / big)%num)%res = Panic) as K.
  { induction q as [|q IH]; intros j H0 H1 H2; [lia|]. cbn [tab_n].
    rewrite (scale_row m f j M) by lia. cbn [bind]. rn.
    destruct (Req_bool_spec (row_max n f j) 0) as [E|E]; [reflexivity|]. cbn [bind].
    destruct (Z.eq_dec j i); [subst; contradiction|]. specialize (IH (j + 1)%Z ltac:(lia) ltac:(lia) ltac:(lia)).
    rn. rewrite IH. reflexivity. }
  apply K; lia.
Qed.

(** ** The pieces of one step *)
Lemma search_ok m f vv k imax : mat_is n n m f -> zlen vv = n -> (0 <= k < n)%Z ->
  exists im, lu_search n k m vv imax = Ok im /\
    (((k <= im < n)%Z /\ 0 < zr vv im * Rabs (f im k) /\
        forall i, (k <= i < n)%Z -> zr vv i * Rabs (f i k) <= zr vv im * Rabs (f im k)) \/
     (im = imax /\ forall i, (k <= i < n)%Z -> zr vv i * Rabs (f i k) <= 0)).
Proof.
  intros M Lv Hk. unfold lu_search.
  match goal with |- exists im, bind ?e _ = _ /\ _ => cut (wp e (fun p =>
    ((k <= snd p < n)%Z /\ fst p = zr vv (snd p) * Rabs (f (snd p) k) /\ 0 < fst p /\
        forall i, (k <= i < n)%Z -> zr vv i * Rabs (f i k) <= fst p) \/
     (snd p = imax /\ forall i, (k <= i < n)%Z -> zr vv i * Rabs (f i k) <= 0))) end.
  { intros W. apply wp_ok in W. destruct W as [[b im] [-> W]]. cbn [bind fst snd] in *. exists im. split; [auto|].
    destruct W as [[H1 [-> [H3 H4]]]|W]; [left|right; auto]. auto. }
  apply (for_post (fun q p =>
    ((k <= snd p < q)%Z /\ fst p = zr vv (snd p) * Rabs (f (snd p) k) /\ 0 < fst p /\
        forall i, (k <= i < q)%Z -> zr vv i * Rabs (f i k) <= fst p) \/
     (snd p = imax /\ fst p = 0 /\ forall i, (k <= i < q)%Z -> zr vv i * Rabs (f i k) <= 0))); [lia| | |].
  - right. cbn [fst snd]. rn. split; [auto|]. split; [auto|]. intros; lia.
  - intros i [b im] Hi I. cbn [fst snd] in I. rewrite (get_ok 0) by lia. cbn [bind].
    rewrite (mat_is_get _ _ _ _ i k M) by lia. cbn [bind wp]. cbv zeta. rn.
    destruct (Rlt_bool_spec b (zr vv i * Rabs (f i k))) as [G|G]; cbn [fst snd].
    + left. split; [lia|]. split; [auto|].
      destruct I as [[I1 [I2 [I3 I4]]]|[I1 [I2 I3]]].
      * split; [lra|]. intros i' Hi'. destruct (Z.eq_dec i' i) as [->|]; [lra|]. specialize (I4 i' ltac:(lia)). lra.
      * split; [lra|]. intros i' Hi'. destruct (Z.eq_dec i' i) as [->|]; [lra|]. specialize (I3 i' ltac:(lia)). lra.
    + destruct I as [[I1 [I2 [I3 I4]]]|[I1 [I2 I3]]]; [left|right].
      * split; [lia|]. split; [auto|]. split; [auto|]. intros i' Hi'. destruct (Z.eq_dec i' i) as [->|]; [lra|]. apply I4; lia.
      * split; [auto|]. split; [auto|]. intros i' Hi'. destruct (Z.eq_dec i' i) as [->|]; [lra|]. apply I3; lia.
  - intros [b im] [I|[I1 [I2 I3]]]; [left|right]; auto.
Qed.

Lemma swap_rows_ok m f k im : mat_is n n m f -> (0 <= k < n)%Z -> (0 <= im < n)%Z -> k <> im ->
  exists m', lu_swap n k im m = Ok m' /\ mat_is n n m' (fun i j => f (transp k im i) j).
Proof.
  intros M Hk Him NE. unfold lu_swap.
  match goal with |- exists m', ?e = _ /\ _ => cut (wp e (fun m' => mat_is n n m' (fun i j => f (transp k im i) j))) end.
  { intros W. apply wp_ok in W. exact W. }
  apply (for_post (fun q m => mat_is n n m (fun i j => if (j <? q)%Z then f (transp k im i) j else f i j))); [lia| | |].
  - eapply mat_is_ext; [|exact M]. intros i j Hi Hj. destruct (Z.ltb_spec j 0); [lia|auto].
  - clear m M. intros q m Hq M. destruct M as [L M].
    pose proof (idx_range n n im q Him Hq). pose proof (idx_range n n k q Hk Hq).
    rewrite (swap_ok 0) by lia. cbn [wp]. split; [now rewrite zlen_swapped|].
    intros i j Hi Hj. pose proof (idx_range n n i j Hi Hj). rewrite zn_swapped by lia.
    destruct (Z.eqb_spec (i * n + j) (k * n + q)) as [E|E].
    { apply idx_inj in E; auto. destruct E as [-> ->]. rewrite M by lia. unfold transp. rewrite !Z.eqb_refl.
      destruct (Z.ltb_spec q q), (Z.ltb_spec q (q + 1)); try lia; auto. }
    destruct (Z.eqb_spec (i * n + j) (im * n + q)) as [E'|E'].
    { apply idx_inj in E'; auto. destruct E' as [-> ->]. rewrite M by lia. unfold transp. rewrite !Z.eqb_refl.
      destruct (Z.eqb_spec im k); [lia|].
      destruct (Z.ltb_spec q q), (Z.ltb_spec q (q + 1)); try lia; auto. }
    rewrite M by lia. destruct (Z.ltb_spec j q), (Z.ltb_spec j (q + 1)); auto; try lia.
    assert (j = q) by lia. subst j. unfold transp. destruct (Z.eqb_spec i k); [subst; lia|]. destruct (Z.eqb_spec i im); [subst; lia|auto].
  - intros m' M'. eapply mat_is_ext; [|exact M']. intros i j Hi Hj. cbv beta. destruct (Z.ltb_spec j n); [auto|lia].
Qed.

(** Elimination below the pivot in row and column [k]. *)
Definition elim (f : Z -> Z -> R) (k i j : Z) : R :=
  if (k <? i)%Z then
    (if (j =? k)%Z then f i k / f k k else if (k <? j)%Z then f i j - f i k / f k k * f k j else f i j)
  else f i j.

Lemma eliminate_ok m f k : mat_is n n m f -> (0 <= k < n)%Z ->
  exists m', lu_eliminate n k m = Ok m' /\ mat_is n n m' (elim f k).
Proof.
  intros M Hk. unfold lu_eliminate.
  match goal with |- exists m', ?e = _ /\ _ => cut (wp e (fun m' => mat_is n n m' (elim f k))) end.
  { intros W. apply wp_ok in W. exact W. }
  apply (for_post (fun q m => mat_is n n m (fun i j => if (i <? q)%Z then elim f k i j else f i j))); [lia| | |].
  - eapply mat_is_ext; [|exact M]. intros i j Hi Hj. unfold elim.
    destruct (Z.ltb_spec i (k + 1)), (Z.ltb_spec k i); try lia; auto.
  - clear m M. intros q m Hq M.
    rewrite (mat_is_get _ _ _ _ q k M) by lia. cbn [bind].
    rewrite (mat_is_get _ _ _ _ k k M) by lia. cbn [bind]. cbv beta.
    destruct (Z.ltb_spec q q); [lia|]. destruct (Z.ltb_spec k q); [|lia].
    replace (elim f k k k) with (f k k) by (unfold elim; destruct (Z.ltb_spec k k); [lia|auto]). rn.
    destruct (mat_is_set _ _ _ _ q k (f q k / f k k) M ltac:(lia) ltac:(lia)) as [m1 [-> M1]]. cbn [bind].
    rewrite (mat_is_get _ _ _ _ q k M1) by lia. cbn [bind]. unfold fupd at 1. rewrite !Z.eqb_refl. cbn [andb].
    apply (for_post (fun t m => mat_is n n m (fun i j => if (i <? q)%Z then elim f k i j else
       if (i =? q)%Z then (if (j <? t)%Z then elim f k i j else f i j) else f i j))); [lia| | |].
    + eapply mat_is_ext; [|exact M1]. intros i j Hi Hj. unfold fupd, elim.
      destruct (Z.ltb_spec i q), (Z.eqb_spec i q), (Z.eqb_spec j k), (Z.ltb_spec j (k + 1)), (Z.ltb_spec k i), (Z.ltb_spec k j);
        subst; cbn [andb]; try lia; auto.
    + clear m M m1 M1. intros t m Ht M.
      rewrite (mat_is_get _ _ _ _ k t M) by lia. cbn [bind].
      rewrite (mat_is_get _ _ _ _ q t M) by lia. cbn [bind]. cbv beta.
      destruct (Z.ltb_spec q q); [lia|]. destruct (Z.ltb_spec k q); [|lia]. rewrite Z.eqb_refl.
      destruct (Z.ltb_spec t t); [lia|].
      replace (elim f k k t) with (f k t) by (unfold elim; destruct (Z.ltb_spec k k); [lia|auto]). rn.
      destruct (mat_is_set _ _ _ _ q t (f q t - f q k / f k k * f k t) M ltac:(lia) ltac:(lia)) as [m2 [-> M2]].
      cbn [wp]. eapply mat_is_ext; [|exact M2]. intros i j Hi Hj. unfold fupd.
      destruct (Z.eqb_spec i q) as [->|]; destruct (Z.eqb_spec j t) as [->|]; cbn [andb]; auto.
      * unfold elim. destruct (Z.ltb_spec q q), (Z.ltb_spec t (t + 1)), (Z.ltb_spec k q), (Z.eqb_spec t k), (Z.ltb_spec k t);
          try lia; auto.
      * destruct (Z.ltb_spec q q), (Z.ltb_spec j t), (Z.ltb_spec j (t + 1)); try lia; auto.
    + clear m M m1 M1. intros m M. eapply mat_is_ext; [|exact M]. intros i j Hi Hj. cbv beta.
      destruct (Z.ltb_spec i q), (Z.eqb_spec i q), (Z.ltb_spec i (q + 1)), (Z.ltb_spec j n); try lia; auto.
  - intros m' M'. eapply mat_is_ext; [|exact M']. intros i j Hi Hj. cbv beta. destruct (Z.ltb_spec i n); [auto|lia].
Qed.

(** ** One column *)
Definition fixed (g : Z -> Z -> R) (k : Z) : Z -> Z -> R :=
  if Req_bool (g k k) 0 then fupd g k k tiny else g.

Definition step_f (f : Z -> Z -> R) (k im : Z) : Z -> Z -> R := elim (fixed (fun i j => f (transp k im i) j) k) k.

Lemma transp_same k i : transp k k i = i.
Proof. unfold transp. destruct (Z.eqb_spec i k); auto. Qed.

Lemma column_ok m f vv piv d imax k : mat_is n n m f -> zlen vv = n -> zlen piv = n -> (0 <= k < n)%Z -> (0 <= imax < n)%Z ->
  exists im m' vv', lu_column n k (m, vv, piv, d, imax) =
      Ok (m', vv', upd piv (Z.to_nat k) im, if (im =? k)%Z then d else - d, im) /\
    (0 <= im < n)%Z /\ mat_is n n m' (step_f f k im) /\ zlen vv' = n /\
    (forall i, (k < i < n)%Z -> zr vv' i = zr vv (transp k im i)) /\
    (((k <= im < n)%Z /\ 0 < zr vv im * Rabs (f im k) /\
        forall i, (k <= i < n)%Z -> zr vv i * Rabs (f i k) <= zr vv im * Rabs (f im k)) \/
     (im = imax /\ forall i, (k <= i < n)%Z -> zr vv i * Rabs (f i k) <= 0)).
Proof.
  intros M Lv Lp Hk Hi. unfold lu_column.
  destruct (search_ok m f vv k imax M Lv Hk) as [im [-> ALT]]. cbn [bind].
  assert (0 <= im < n)%Z as Him by (destruct ALT as [[? _]|[-> _]]; lia).
  exists im.
  assert (exists m1 vv1, (if negb (k =? im)%Z then m <- lu_swap n k im m ;; vk <- get vv k ;; vv <- set vv im vk ;;
       Ok (m, vv, (- d)%num) else Ok (m, vv, d))%res = Ok (m1, vv1, if (im =? k)%Z then d else - d) /\
     mat_is n n m1 (fun i j => f (transp k im i) j) /\ zlen vv1 = n /\
     forall i, (k < i < n)%Z -> zr vv1 i = zr vv (transp k im i)) as [m1 [vv1 [-> [M1 [L1 V1]]]]].
  { destruct (Z.eqb_spec k im) as [<-|NE]; cbn [negb].
    - rewrite Z.eqb_refl. exists m, vv. split; [auto|]. split; [|split; [auto|intros; now rewrite transp_same]].
      eapply mat_is_ext; [|exact M]. intros. now rewrite transp_same.
    - destruct (swap_rows_ok m f k im M Hk Him NE) as [m1 [-> M1]]. cbn [bind].
      rewrite (get_ok 0) by lia. cbn [bind]. rewrite set_ok by lia. cbn [bind].
      destruct (Z.eqb_spec im k); [lia|]. do 2 eexists. split; [reflexivity|]. split; [exact M1|].
      split; [now rewrite zlen_upd|]. intros i Hi'. rewrite zn_upd by lia. unfold transp.
      destruct (Z.eqb_spec i im), (Z.eqb_spec i k); try lia; auto. }
  cbn [bind]. rewrite set_ok by lia. cbn [bind].
  rewrite (mat_is_get _ _ _ _ k k M1) by lia. cbn [bind].
  assert (exists m2, (if (f (transp k im k) k =? #0)%num then set m1 (k * n + k) tiny else Ok m1) = Ok m2 /\
    mat_is n n m2 (fixed (fun i j => f (transp k im i) j) k)) as [m2 [-> M2]].
  { unfold fixed. rn. destruct (Req_bool_spec (f (transp k im k) k) 0).
    - apply (mat_is_set n n m1 _ k k tiny M1); lia.
    - eauto. }
  cbn [bind]. destruct (eliminate_ok m2 _ k M2 Hk) as [m3 [-> M3]]. cbn [bind].
  exists m3, vv1. split; [reflexivity|]. split; [auto|]. split; [exact M3|]. split; [auto|]. split; [auto|]. exact ALT.
Qed.

(** ** Totality *)
Lemma factorize_total m piv : zlen m = (n * n)%Z -> zlen piv = n ->
  (forall i, (0 <= i < n)%Z -> row_max n (entry n m) i <> 0) ->
  exists m' piv' d, factorize n m piv = Ok (m', piv', d).
Proof.
  intros Lm Lp NZ. unfold factorize. pose proof (mat_is_entry n n m Lm) as M.
  destruct (scale_ok m _ M NZ) as [vv [-> [Lv _]]]. cbn [bind].
  match goal with |- exists _ _ _, bind ?e _ = _ => cut (wp e (fun _ => True)) end.
  { intros W. apply wp_ok in W. destruct W as [[[[[m' vv'] piv'] d'] im'] [-> _]]. cbn [bind]. eauto. }
  apply (for_post (fun k '(m, vv, piv, d, im) => (exists f, mat_is n n m f) /\ zlen vv = n /\ zlen piv = n /\ (0 <= im < n)%Z));
    [lia| | |auto].
  - split; [eauto|]. split; [auto|]. split; [auto|lia].
  - intros k [[[[m' vv'] piv'] d'] im'] Hk [[f Mf] [Lv' [Lp' Hi']]].
    destruct (column_ok m' f vv' piv' d' im' k Mf Lv' Lp' Hk Hi') as [im [m2 [vv2 [-> [A1 [A2 [A3 _]]]]]]].
    cbn [wp]. split; [eauto|]. split; [auto|]. split; [now rewrite zlen_upd|auto].
Qed.

(** ** Row orders *)
Lemma transp_range k im i : (0 <= k < n)%Z -> (0 <= im < n)%Z -> (0 <= i < n)%Z -> (0 <= transp k im i < n)%Z.
Proof. intros. unfold transp. destruct (Z.eqb_spec i k), (Z.eqb_spec i im); lia. Qed.

Lemma transp_inv k im i : transp k im (transp k im i) = i.
Proof.
  unfold transp. destruct (Z.eqb_spec i k) as [->|]; [|destruct (Z.eqb_spec i im) as [->|]].
  - rewrite Z.eqb_refl. destruct (Z.eqb_spec im k); auto.
  - now rewrite Z.eqb_refl.
  - destruct (Z.eqb_spec i k), (Z.eqb_spec i im); auto; lia.
Qed.

Lemma order_ext p q k i : (forall l, (0 <= l < Z.of_nat k)%Z -> p l = q l) -> order p k i = order q k i.
Proof.
  revert i. induction k as [|k IH]; intros i H; cbn [order]; auto.
  rewrite (H (Z.of_nat k)) by lia. apply IH. intros; apply H; lia.
Qed.

Lemma order_range p k i : (Z.of_nat k <= n)%Z -> (forall l, (0 <= l < Z.of_nat k)%Z -> (0 <= p l < n)%Z) -> (0 <= i < n)%Z ->
  (0 <= order p k i < n)%Z.
Proof.
  revert i. induction k as [|k IH]; intros i Hk H Hi; cbn [order]; auto.
  apply IH; [lia|intros; apply H; lia|]. apply transp_range; auto; [lia|apply H; lia].
Qed.

Lemma order_onto p k i : (Z.of_nat k <= n)%Z -> (forall l, (0 <= l < Z.of_nat k)%Z -> (0 <= p l < n)%Z) -> (0 <= i < n)%Z ->
  exists i', (0 <= i' < n)%Z /\ order p k i' = i.
Proof.
  induction k as [|k IH]; intros Hk H Hi; cbn [order]; [eauto|].
  destruct IH as [i' [Hi' E]]; [lia|intros; apply H; lia|auto|].
  exists (transp (Z.of_nat k) (p (Z.of_nat k)) i'). split; [apply transp_range; auto; [lia|apply H; lia]|].
  now rewrite transp_inv.
Qed.

Lemma order_fix p k i : (forall l, (0 <= l < Z.of_nat k)%Z -> (l <= p l)%Z) -> (i < Z.of_nat k)%Z -> forall q, (k <= q)%nat ->
  (forall l, (Z.of_nat k <= l < Z.of_nat q)%Z -> (l <= p l)%Z) -> order p q i = order p k i.
Proof.
  intros H Hi q. induction q as [|q IH]; intros HL H'; [now replace k with O by lia|].
  destruct (Nat.eq_dec k (S q)) as [->|]; auto. cbn [order].
  assert (transp (Z.of_nat q) (p (Z.of_nat q)) i = i) as ->.
  { unfold transp. specialize (H' (Z.of_nat q) ltac:(lia)). destruct (Z.eqb_spec i (Z.of_nat q)); [lia|].
    destruct (Z.eqb_spec i (p (Z.of_nat q))); lia. }
  apply IH; [lia|]. intros; apply H'; lia.
Qed.

(** ** A zero column makes a kernel vector *)
Lemma upper_kernel f k : (0 <= k < n)%Z -> (forall l, (0 <= l < k)%Z -> f l l <> 0) ->
  exists x, x k = 1 /\ (forall j, (k < j)%Z -> x j = 0) /\
    forall l, (0 <= l < k)%Z -> sum 0 n (fun j => upper f l j * x j) = 0.
Proof.
  intros Hk ND.
  assert (forall q, (Z.of_nat q <= k)%Z -> exists x, x k = 1 /\ (forall j, (k < j)%Z -> x j = 0) /\
    forall l, (k - Z.of_nat q <= l < k)%Z -> sum 0 n (fun j => upper f l j * x j) = 0) as K.
  { induction q as [|q IH]; intros Hq.
    - exists (fun j => if (j =? k)%Z then 1 else 0). split; [now rewrite Z.eqb_refl|]. split; [|intros; lia].
      intros j Hj. destruct (Z.eqb_spec j k); [lia|auto].
    - destruct IH as [x [X1 [X2 X3]]]; [lia|]. set (l := (k - Z.of_nat (S q))%Z) in *.
      set (y := - sum (l + 1) n (fun j => upper f l j * x j) / f l l).
      exists (fun j => if (j =? l)%Z then y else x j).
      split; [destruct (Z.eqb_spec k l); [lia|auto]|].
      split; [intros j Hj; destruct (Z.eqb_spec j l); [lia|auto]|].
      intros l' Hl'. destruct (Z.eq_dec l' l) as [->|NE].
      + rewrite (sum_sub 0 n l n) by first [lia | intros j Hj Hj'; unfold upper; destruct (Z.leb_spec l j); [lia|ring]].
        rewrite sum_first by lia. rewrite Z.eqb_refl.
        rewrite (sum_ext (l + 1) n _ (fun j => upper f l j * x j))
          by (intros j Hj; destruct (Z.eqb_spec j l); [lia|auto]).
        unfold upper at 1. destruct (Z.leb_spec l l); [|lia]. unfold y. field. apply ND. lia.
      + rewrite <- (X3 l') by lia. apply sum_ext. intros j Hj. destruct (Z.eqb_spec j l) as [->|]; auto.
        unfold upper. destruct (Z.leb_spec l' l); [lia|ring]. }
  destruct (K (Z.to_nat k) ltac:(lia)) as [x [X1 [X2 X3]]]. exists x. split; [auto|]. split; [auto|].
  intros l Hl. apply X3. lia.
Qed.

Variable A : Z -> Z -> R.

(** The state after [k] columns. *)
Record inv (k : Z) (f : Z -> Z -> R) (vv : list R) (piv : Z -> Z) : Prop := {
  inv_piv : forall l, (0 <= l < k)%Z -> (l <= piv l < n)%Z;
  inv_dec : forall i j, (0 <= i < n)%Z -> (0 <= j < n)%Z -> A (order piv (Z.to_nat k) i) j =
    sum 0 k (fun l => lower f i l * upper f l j) + (if ((k <=? i) && (k <=? j))%Z then f i j else 0);
  inv_nz : forall l, (0 <= l < k)%Z -> f l l <> 0;
  inv_vv : forall i, (k <= i < n)%Z -> zr vv i * row_max n A (order piv (Z.to_nat k) i) = 1;
  inv_bound : forall i l, (0 <= l < k)%Z -> (l < i < n)%Z ->
    Rabs (f i l) * row_max n A (order piv (Z.to_nat k) l) <= row_max n A (order piv (Z.to_nat k) i) }.

Lemma column_nonzero k f vv piv : (0 <= k < n)%Z -> nonsingular n A -> inv k f vv piv ->
  exists i, (k <= i < n)%Z /\ f i k <> 0.
Proof.
  intros Hk NS I.
  assert ((forall i, (k <= i < n)%Z -> f i k = 0) \/ exists i, (k <= i < n)%Z /\ f i k <> 0) as [Z0|E]; [|exfalso|exact E].
  { assert (forall q, (Z.of_nat q <= n - k)%Z -> (forall i, (k <= i < k + Z.of_nat q)%Z -> f i k = 0) \/
      exists i, (k <= i < k + Z.of_nat q)%Z /\ f i k <> 0) as K.
    { induction q as [|q IH]; intros Hq; [left; intros; lia|].
      destruct IH as [IH|[i [Hi IH]]]; [lia| |right; exists i; split; [lia|auto]].
      destruct (Req_dec (f (k + Z.of_nat q)%Z k) 0) as [E|E].
      - left. intros i Hi. destruct (Z.eq_dec i (k + Z.of_nat q)) as [->|]; auto. apply IH. lia.
      - right. exists (k + Z.of_nat q)%Z. split; [lia|auto]. }
    destruct (K (Z.to_nat (n - k)) ltac:(lia)) as [H|[i [Hi H]]].
    - left. intros; apply H; lia.
    - right. exists i. split; [lia|auto]. }
  destruct (upper_kernel f k Hk (inv_nz _ _ _ _ I)) as [x [X1 [X2 X3]]].
  enough (x k = 0) by lra. apply (NS x); [|auto].
  intros r Hr. destruct (order_onto piv (Z.to_nat k) r) as [i [Hi <-]]; [lia|intros l Hl; pose proof (inv_piv _ _ _ _ I l ltac:(lia)); lia|auto|].
  unfold mat_vec.
  rewrite (sum_ext 0 n _ (fun j => sum 0 k (fun l => lower f i l * (upper f l j * x j)) +
     (if ((k <=? i) && (k <=? j))%Z then f i j else 0) * x j)).
  2:{ intros j Hj. rewrite (inv_dec _ _ _ _ I) by auto. rewrite Rmult_plus_distr_r. f_equal.
      rewrite <- sum_scal_r. apply sum_ext. intros; ring. }
  rewrite sum_plus, sum_swap.
  rewrite (sum_zero 0 k).
  2:{ intros l Hl. rewrite sum_scal, X3 by auto. ring. }
  rewrite (sum_zero 0 n); [ring|]. intros j Hj.
  destruct (Z.leb_spec k i), (Z.leb_spec k j); cbn [andb]; try ring.
  destruct (Z.eq_dec j k) as [->|]; [rewrite Z0 by lia; ring|rewrite X2 by lia; ring].
Qed.

Lemma inv_step k f vv vv' piv piv' im : (0 <= k < n)%Z -> inv k f vv piv ->
  (forall r, (0 <= r < n)%Z -> row_max n A r <> 0) ->
  (forall l, (0 <= l < k)%Z -> piv' l = piv l) -> piv' k = im ->
  (k <= im < n)%Z -> 0 < zr vv im * Rabs (f im k) ->
  (forall i, (k <= i < n)%Z -> zr vv i * Rabs (f i k) <= zr vv im * Rabs (f im k)) ->
  (forall i, (k < i < n)%Z -> zr vv' i = zr vv (transp k im i)) ->
  inv (k + 1) (step_f f k im) vv' piv'.
Proof.
  intros Hk I NZ PE PK Him POS MX VE.
  assert (f im k <> 0) as NZP by (intros E; rewrite E, Rabs_R0 in POS; lra).
  set (g := fun i j => f (transp k im i) j).
  assert (g k k = f im k) as GK by (unfold g, transp; now rewrite Z.eqb_refl).
  assert (step_f f k im = elim g k) as ->.
  { change (step_f f k im) with (elim (if Req_bool (g k k) 0 then fupd g k k tiny else g) k). rewrite GK. destruct (Req_bool_spec (f im k) 0); [contradiction|reflexivity]. }
  assert (forall i, order piv' (Z.to_nat (k + 1)) i = order piv (Z.to_nat k) (transp k im i)) as ORD.
  { intros i. replace (Z.to_nat (k + 1)) with (S (Z.to_nat k)) by lia. cbn [order].
    rewrite Z2Nat.id, PK by lia. apply order_ext. intros l Hl. apply PE. lia. }
  assert (forall i, (i < k)%Z -> transp k im i = i) as TL.
  { intros i Hi. unfold transp. destruct (Z.eqb_spec i k), (Z.eqb_spec i im); lia. }
  assert (forall i, (k <= i < n)%Z -> (k <= transp k im i < n)%Z) as TH.
  { intros i Hi. unfold transp. destruct (Z.eqb_spec i k), (Z.eqb_spec i im); lia. }
  constructor.
  - intros l Hl. destruct (Z.eq_dec l k) as [->|]; [rewrite PK; auto|]. rewrite PE by lia.
    apply (inv_piv _ _ _ _ I). lia.
  - intros i j Hi Hj. rewrite ORD, (inv_dec _ _ _ _ I) by (auto; apply transp_range; lia).
    rewrite sum_last by lia.
    assert (sum 0 k (fun l => lower f (transp k im i) l * upper f l j) =
            sum 0 k (fun l => lower (elim g k) i l * upper (elim g k) l j)) as ->.
    { apply sum_ext. intros l Hl. f_equal.
      - unfold lower, elim, g. destruct (Z_lt_le_dec i k) as [C|C].
        + rewrite TL by auto. destruct (Z.ltb_spec k i); [lia|]. reflexivity.
        + specialize (TH i ltac:(lia)).
          destruct (Z.ltb_spec l (transp k im i)), (Z.ltb_spec l i), (Z.ltb_spec k i), (Z.eqb_spec l k), (Z.ltb_spec k l);
            try lia; reflexivity.
      - unfold upper, elim, g. destruct (Z.ltb_spec k l); [lia|]. rewrite TL by lia. reflexivity. }
    rewrite Rplus_assoc. f_equal.
    assert (((k <=? transp k im i) && (k <=? j))%Z = ((k <=? i) && (k <=? j))%Z) as ->.
    { f_equal. destruct (Z_lt_le_dec i k) as [C|C]; [now rewrite TL|]. specialize (TH i ltac:(lia)).
      destruct (Z.leb_spec k (transp k im i)), (Z.leb_spec k i); try lia; auto. }
    change (f (transp k im i) j) with (g i j).
    unfold lower, upper, elim.
    destruct (Z.ltb_spec k k); [lia|].
    destruct (Z.leb_spec k i), (Z.leb_spec k j), (Z.leb_spec (k + 1) i), (Z.leb_spec (k + 1) j), (Z.ltb_spec k i), (Z.eqb_spec k i),
      (Z.eqb_spec k k), (Z.eqb_spec j k), (Z.ltb_spec k j); subst; cbn [andb]; try lia; try ring.
    field. rewrite GK. auto.
  - intros l Hl. unfold elim. destruct (Z.ltb_spec k l); [lia|].
    destruct (Z.eq_dec l k) as [->|]; [now rewrite GK|]. unfold g. rewrite TL by lia. apply (inv_nz _ _ _ _ I). lia.
  - intros i Hi. rewrite VE, ORD by lia. apply (inv_vv _ _ _ _ I). apply TH. lia.
  - intros i l Hl Hi. rewrite !ORD. unfold elim. destruct (Z.ltb_spec k i).
    + destruct (Z.eqb_spec l k) as [->|].
      * assert (transp k im k = im) as -> by (unfold transp; now rewrite Z.eqb_refl).
        rewrite GK. unfold g. pose proof (TH i ltac:(lia)) as RI. set (t := transp k im i) in *.
        pose proof (MX t RI) as MT. pose proof (inv_vv _ _ _ _ I t RI) as VT. pose proof (inv_vv _ _ _ _ I im Him) as VI.
        set (rt := row_max n A (order piv (Z.to_nat k) t)) in *. set (ri := row_max n A (order piv (Z.to_nat k) im)) in *.
        assert (0 < rt /\ 0 < ri) as [Pt Pi].
        { assert (forall l, (0 <= l < Z.of_nat (Z.to_nat k))%Z -> (0 <= piv l < n)%Z) as PR
            by (intros q Hq; pose proof (inv_piv _ _ _ _ I q ltac:(lia)); lia).
          split; apply row_max_pos, NZ; apply order_range; auto; lia. }
        assert (zr vv t = / rt) as ET by (apply Rmult_eq_reg_r with rt; [rewrite VT; field|]; lra).
        assert (zr vv im = / ri) as EI by (apply Rmult_eq_reg_r with ri; [rewrite VI; field|]; lra).
        rewrite ET, EI in MT. unfold Rdiv. rewrite Rabs_mult, Rabs_inv by auto.
        assert (0 < Rabs (f im k)) as PA by now apply Rabs_pos_lt.
        clear - MT Pt Pi PA. set (a := Rabs (f t k)) in *. set (b := Rabs (f im k)) in *. clearbody a b rt ri.
        apply Rmult_le_reg_r with (/ rt * / ri * b); [apply Rmult_lt_0_compat; [apply Rmult_lt_0_compat; now apply Rinv_0_lt_compat|auto]|].
        replace (a * / b * ri * (/ rt * / ri * b)) with (/ rt * a) by (field; lra).
        replace (rt * (/ rt * / ri * b)) with (/ ri * b) by (field; lra). exact MT.
      * destruct (Z.ltb_spec k l); [lia|]. unfold g. rewrite (TL l) by lia.
        specialize (TH i ltac:(lia)). apply (inv_bound _ _ _ _ I); lia.
    + assert (l < k)%Z by lia. rewrite (TL l) by lia. unfold g.
      destruct (Z.eq_dec i k) as [->|].
      * assert (transp k im k = im) as -> by (unfold transp; now rewrite Z.eqb_refl). apply (inv_bound _ _ _ _ I); lia.
      * rewrite (TL i) by lia. apply (inv_bound _ _ _ _ I); lia.
Qed.
End LU.
