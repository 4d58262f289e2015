(** The tridiagonal solver in exact arithmetic. *)
From Coq Require Import ZArith List Lia Lra Bool Reals Psatz.
From Coq Require Import ZifyBool ZifyNat.
From Flocq Require Import Core.Raux.
From Verif Require Import Base.Res Base.ResFacts Base.Num Model.Interp Model.Spline Spec.Cubic Proof.InterpP.
Import ListNotations.
Open Scope R_scope.
Local Notation zr := (zn 0).

Section Tri.
Variables (as_ bs cs rs : list R).
Let n := zlen as_.
Hypothesis (Hb : zlen bs = n) (Hc : zlen cs = n) (Hr : zlen rs = n).

(** What the forward sweep establishes for the first [i] rows. *)
Definition fwd (i : Z) (tmp : list R) (beta : R) (out : list R) (B : Z -> R) : Prop :=
  zlen tmp = n /\ zlen out = n /\ beta = B (i - 1)%Z /\
  B 0%Z = zr bs 0 /\
  (forall k, (0 <= k < i)%Z -> B k <> 0) /\
  (forall k, (1 <= k < i)%Z -> zr tmp k = zr cs (k - 1)%Z / B (k - 1)%Z /\ B k = zr bs k - zr as_ k * zr tmp k) /\
  zr out 0 * B 0%Z = zr rs 0 /\
  (forall k, (1 <= k < i)%Z -> zr out k * B k = zr rs k - zr as_ k * zr out (k - 1)%Z).

(** One row of the sweep. *)
Lemma fwd_step i tmp beta out B : (1 <= i < n)%Z -> fwd i tmp beta out B ->
  forall r,
  (c <- get cs (i - 1) ;; tmp <- set tmp i (c / beta)%num ;; b <- get bs i ;; a <- get as_ i ;;
   t <- get tmp i ;;
   let beta := (b - a * t)%num in
   if (beta =? #0)%num then Panic
   else r <- get rs i ;; o <- get out (i - 1) ;;
     out <- set out i ((r - a * o) / beta)%num ;; Ok (tmp, beta, out))%res = r ->
  let beta' := zr bs i - zr as_ i * (zr cs (i - 1)%Z / beta) in
  (beta' = 0 -> r = Panic) /\
  (beta' <> 0 -> exists tmp' out', r = Ok (tmp', beta', out') /\
     fwd (i + 1) tmp' beta' out' (fun k => if (k =? i)%Z then beta' else B k)).
Proof.
  intros Hi [Lt [Lo [Eb [B0 [BN [T [O0 O]]]]]]] r <-.
  rewrite (get_ok 0) by lia. cbn [bind]. rewrite set_ok by lia. cbn [bind].
  rewrite !(get_ok 0) by (rewrite ?zlen_upd; lia). cbn [bind]. rn.
  rewrite zn_upd_eq by lia.
  set (beta' := zr bs i - zr as_ i * (zr cs (i - 1)%Z / beta)). cbv zeta.
  destruct (Req_bool_spec beta' 0) as [Z0|Z0]; (split; intros H; [|]); try reflexivity; try contradiction.
  rewrite ?(get_ok 0) by lia. cbn [bind]. rewrite ?(get_ok 0) by lia. cbn [bind]. rewrite set_ok by lia. cbn [bind].
  do 2 eexists. split; [reflexivity|].
  split; [now rewrite zlen_upd|]. split; [now rewrite zlen_upd|].
  split; [replace (i + 1 - 1)%Z with i by lia; now rewrite Z.eqb_refl|].
  split; [destruct (Z.eqb_spec 0 i); [lia|auto]|].
  split. { intros k Hk. destruct (Z.eqb_spec k i); auto. apply BN. lia. }
  split.
  { intros k Hk. destruct (Z.eqb_spec (k - 1) i); [lia|]. destruct (Z.eqb_spec k i) as [->|N].
    - rewrite zn_upd_eq by lia. rewrite <- Eb. split; reflexivity.
    - rewrite zn_upd_neq by lia. apply T. lia. }
  split. { destruct (Z.eqb_spec 0 i); [lia|]. rewrite zn_upd_neq by lia. auto. }
  intros k Hk. destruct (Z.eqb_spec k i) as [->|N].
  - rewrite zn_upd_eq by lia. rewrite zn_upd_neq by lia. field. auto.
  - rewrite !zn_upd_neq by lia. apply O. lia.
Qed.

(** The backward sweep. *)
Lemma backward_ok tmp out : zlen tmp = n -> zlen out = n -> (1 <= n)%Z ->
  exists u, tri_backward tmp out = Ok u /\ zlen u = n /\
    zr u (n - 1)%Z = zr out (n - 1)%Z /\
    forall k, (0 <= k < n - 1)%Z -> zr u k = zr out k - zr tmp (k + 1)%Z * zr u (k + 1)%Z.
Proof.
  intros Lt Lo N. unfold tri_backward. rewrite Lo.
  set (body := fun i u => _).
  assert (wp (for_down (n - 2) 0 body out) (fun u => zlen u = n /\
    (forall k, (0 <= k <= 0 - 1)%Z -> zr u k = zr out k) /\
    zr u (n - 1)%Z = zr out (n - 1)%Z /\
    forall k, (0 - 1 < k < n - 1)%Z -> zr u k = zr out k - zr tmp (k + 1)%Z * zr u (k + 1)%Z)) as W.
  { apply (for_down_inv (fun i u => zlen u = n /\ (forall k, (0 <= k <= i)%Z -> zr u k = zr out k) /\
      zr u (n - 1)%Z = zr out (n - 1)%Z /\
      forall k, (i < k < n - 1)%Z -> zr u k = zr out k - zr tmp (k + 1)%Z * zr u (k + 1)%Z)).
    - lia.
    - split; [auto|]. split; [auto|]. split; [auto|]. intros; lia.
    - intros i u Hi [L [K1 [K2 K3]]]. unfold body. rewrite !(get_ok 0) by lia. cbn [bind].
      rewrite set_ok by lia. cbn [wp]. rewrite zlen_upd. split; [auto|]. rn.
      split. { intros k Hk. rewrite zn_upd_neq by lia. apply K1. lia. }
      split. { rewrite zn_upd_neq by lia. auto. }
      intros k Hk. destruct (Z.eq_dec k i) as [->|NE].
      + rewrite zn_upd_eq by lia. rewrite zn_upd_neq by lia. rewrite (K1 i) by lia. reflexivity.
      + rewrite !zn_upd_neq by lia. apply K3. lia. }
  apply wp_ok in W. destruct W as [u [-> [L [_ [K2 K3]]]]]. exists u. split; [reflexivity|].
  split; [auto|]. split; [auto|]. intros k Hk. apply K3. lia.
Qed.

(** Rows are satisfied once both sweeps are done. *)
Lemma sweeps_solve tmp beta out B u : (1 <= n)%Z -> fwd n tmp beta out B -> zlen u = n ->
  zr u (n - 1)%Z = zr out (n - 1)%Z ->
  (forall k, (0 <= k < n - 1)%Z -> zr u k = zr out k - zr tmp (k + 1)%Z * zr u (k + 1)%Z) ->
  forall i, (0 <= i < n)%Z ->
    (if (i =? 0)%Z then 0 else zr as_ i * zr u (i - 1)%Z) + zr bs i * zr u i +
    (if (i =? n - 1)%Z then 0 else zr cs i * zr u (i + 1)%Z) = zr rs i.
Proof.
  intros N [Lt [Lo [Eb [B0 [BN [T [O0 O]]]]]]] Lu UL UB i Hi.
  assert (zr u i * B i + (if (i =? n - 1)%Z then 0 else zr cs i * zr u (i + 1)%Z) = zr out i * B i) as E1.
  { destruct (Z.eqb_spec i (n - 1)) as [->|NE]; [rewrite UL; ring|].
    rewrite (UB i) by lia. destruct (T (i + 1)%Z ltac:(lia)) as [T1 _].
    replace (i + 1 - 1)%Z with i in T1 by lia. rewrite T1. field. apply BN. lia. }
  destruct (Z.eqb_spec i 0) as [->|NE].
  - rewrite <- O0, <- E1, B0. ring.
  - destruct (T i ltac:(lia)) as [_ T2]. specialize (O i ltac:(lia)).
    rewrite (UB (i - 1)%Z) by lia. replace (i - 1 + 1)%Z with i by lia.
    rewrite T2 in E1, O. rewrite O in E1.
    transitivity (zr as_ i * zr out (i - 1)%Z + (zr u i * (zr bs i - zr as_ i * zr tmp i) +
      (if (i =? n - 1)%Z then 0 else zr cs i * zr u (i + 1)%Z))); [ring|]. rewrite E1. ring.
Qed.
End Tri.

Lemma for_n_ok_inv {S} (I : Z -> S -> Prop) (body : Z -> S -> res S) n : forall lo s s',
  I lo s -> (forall i s s', (lo <= i < lo + Z.of_nat n)%Z -> I i s -> body i s = Ok s' -> I (i + 1)%Z s') ->
  for_n n lo body s = Ok s' -> I (lo + Z.of_nat n)%Z s'.
Proof.
  induction n; intros lo s s' H0 HB E; cbn [for_n] in E.
  - injection E as <-. replace (lo + Z.of_nat 0)%Z with lo by lia. auto.
  - destruct (body lo s) eqn:EB; cbn [bind] in E; try discriminate.
    replace (lo + Z.of_nat (Datatypes.S n))%Z with (lo + 1 + Z.of_nat n)%Z by lia.
    eapply IHn; [| |exact E].
    + eapply HB; [|exact H0|exact EB]. lia.
    + intros i t t' Hi. apply HB. lia.
Qed.

Lemma for_ok_inv {S} (I : Z -> S -> Prop) lo hi (body : Z -> S -> res S) s s' : (lo <= hi)%Z ->
  I lo s -> (forall i s s', (lo <= i < hi)%Z -> I i s -> body i s = Ok s' -> I (i + 1)%Z s') ->
  for_ lo hi body s = Ok s' -> I hi s'.
Proof.
  intros L H0 HB E. unfold for_ in E.
  replace hi with (lo + Z.of_nat (Z.to_nat (hi - lo)))%Z by lia.
  eapply for_n_ok_inv; [exact H0| |exact E]. intros i t t' Hi. apply HB. lia.
Qed.

Lemma fwd_init as_ bs rs cs (out : list R) : (1 <= zlen as_)%Z -> zlen bs = zlen as_ -> zlen out = zlen as_ ->
  zr bs 0 <> 0 ->
  fwd as_ bs cs rs 1 (repeat 0 (length as_)) (zr bs 0)
    (upd out (Z.to_nat 0) (zr rs 0 / zr bs 0)) (fun _ => zr bs 0).
Proof.
  intros N Lb Lo NZ. split; [apply zlen_repeat|]. split; [now rewrite zlen_upd|].
  split; [reflexivity|]. split; [reflexivity|]. split; [auto|]. split; [intros; lia|].
  split; [|intros; lia]. rewrite zn_upd_eq by lia. field. auto.
Qed.

Lemma zrow as_ bs cs u n i : (i < n)%nat ->
  tri_row n as_ bs cs u i =
  (if (Z.of_nat i =? 0)%Z then 0 else zr as_ (Z.of_nat i) * zr u (Z.of_nat i - 1)%Z) +
  zr bs (Z.of_nat i) * zr u (Z.of_nat i) +
  (if (Z.of_nat i =? Z.of_nat n - 1)%Z then 0 else zr cs (Z.of_nat i) * zr u (Z.of_nat i + 1)%Z).
Proof.
  intros H. unfold tri_row, zn. rewrite Nat2Z.id.
  replace (Z.to_nat (Z.of_nat i - 1)) with (i - 1)%nat by lia.
  replace (Z.to_nat (Z.of_nat i + 1)) with (S i) by lia.
  destruct (Nat.eqb_spec i 0), (Z.eqb_spec (Z.of_nat i) 0); try lia;
  destruct (Nat.eqb_spec (S i) n), (Z.eqb_spec (Z.of_nat i) (Z.of_nat n - 1)); try lia; reflexivity.
Qed.

Lemma tri_diag_solves as_ bs cs rs out u :
  tri_diag_at as_ bs cs rs out = Ok u -> tri_solves as_ bs cs rs u.
Proof.
  unfold tri_diag_at.
  destruct (Z.eqb_spec (zlen as_) (zlen bs)) as [Eb|]; [|discriminate].
  destruct (Z.eqb_spec (zlen as_) (zlen cs)) as [Ec|]; [|discriminate].
  destruct (Z.eqb_spec (zlen as_) (zlen out)) as [Eo|]; [|discriminate].
  destruct (Z.eqb_spec (zlen as_) (zlen rs)) as [Er|]; [|discriminate].
  cbn [negb orb]. intros H.
  destruct (Z_lt_le_dec 0 (zlen bs)) as [N|N]; [|rewrite get_panic in H by lia; discriminate].
  rewrite (get_ok 0) in H by lia. cbn [bind] in H. rn.
  destruct (Req_bool_spec (zr bs 0) 0) as [Z0|Z0]; [discriminate|].
  rewrite (get_ok 0) in H by lia. cbn [bind] in H. rewrite set_ok in H by lia. cbn [bind] in H.
  destruct (tri_forward _ _ _ _ _ _) as [[[tmp beta] out']| | |] eqn:EF; cbn [bind] in H; try discriminate.
  unfold tri_forward in EF. rewrite zlen_upd, <- Eo in EF. rn.
  eapply (for_ok_inv (fun i '(tmp, beta, out) => exists B, fwd as_ bs cs rs i tmp beta out B)) in EF.
  - cbv beta iota in EF. destruct EF as [B FW].
    destruct (backward_ok as_ tmp out') as [u' [E' [Lu [U1 U2]]]];
      [apply FW|apply FW|lia|]. rewrite E' in H. injection H as ->.
    pose proof (sweeps_solve as_ bs cs rs tmp beta out' B u ltac:(lia) FW Lu U1 U2) as SOL.
    split; [unfold zlen in *; lia|]. intros i Hi. rewrite zrow by auto.
    specialize (SOL (Z.of_nat i) ltac:(unfold zlen in *; lia)).
    replace (Z.of_nat (length rs)) with (zlen as_) by (unfold zlen in *; lia). rewrite SOL.
    unfold zn. now rewrite Nat2Z.id.
  - lia.
  - exists (fun _ => zr bs 0). apply fwd_init; auto; lia.
  - intros i [[t b] o] s' Hi [B FW] EB. cbv beta iota in EB.
    pose proof (fwd_step as_ bs cs rs (eq_sym Eb) (eq_sym Ec) (eq_sym Er) i t b o B ltac:(lia) FW _ eq_refl) as [P1 P2].
    rn. rewrite EB in P1, P2.
    destruct (Req_dec (zr bs i - zr as_ i * (zr cs (i - 1)%Z / b)) 0) as [Z1|Z1].
    + specialize (P1 Z1). discriminate.
    + destruct (P2 Z1) as [t' [o' [E FW']]]. injection E as ->. eauto.
Qed.

Lemma dominant_beta a b c t beta : Rabs t < 1 -> beta = b - a * t -> Rabs a + c < Rabs b -> 0 <= c ->
  c < Rabs beta.
Proof.
  intros T -> D C.
  assert (Rabs (a * t) <= Rabs a).
  { rewrite Rabs_mult. pose proof (Rabs_pos a). pose proof (Rabs_pos t). nra. }
  pose proof (Rabs_triang_inv b (a * t)). lra.
Qed.

Lemma tri_diag_total as_ bs cs rs out : (1 <= length as_)%nat ->
  length bs = length as_ -> length cs = length as_ -> length rs = length as_ -> length out = length as_ ->
  diag_dominant as_ bs cs -> exists u, tri_diag_at as_ bs cs rs out = Ok u.
Proof.
  intros N Lb Lc Lr Lo D.
  cut (wp (tri_diag_at as_ bs cs rs out) (fun _ => True)).
  { intros W. apply wp_ok in W. destruct W as [u [E _]]. eauto. }
  unfold tri_diag_at.
  assert (zlen bs = zlen as_ /\ zlen cs = zlen as_ /\ zlen rs = zlen as_ /\ zlen out = zlen as_ /\ (1 <= zlen as_)%Z)
    as [Zb [Zc [Zr [Zo Zn]]]] by (unfold zlen; lia).
  rewrite Zb, Zc, Zr, Zo, Z.eqb_refl. cbn [negb orb].
  assert (forall i, (0 <= i < zlen as_)%Z ->
    (if (i =? 0)%Z then 0 else Rabs (zr as_ i)) + (if (i =? zlen as_ - 1)%Z then 0 else Rabs (zr cs i)) < Rabs (zr bs i)) as DZ.
  { intros i Hi. specialize (D (Z.to_nat i) ltac:(unfold zlen in *; lia)). unfold zn.
    destruct (Nat.eqb_spec (Z.to_nat i) 0), (Z.eqb_spec i 0); try lia;
    destruct (Nat.eqb_spec (S (Z.to_nat i)) (length bs)), (Z.eqb_spec i (zlen as_ - 1)); try (unfold zlen in *; lia); exact D. }
  assert (zr bs 0 <> 0) as NZ.
  { specialize (DZ 0%Z ltac:(lia)). rewrite Z.eqb_refl in DZ. intros E. rewrite E, Rabs_R0 in DZ.
    destruct (0 =? zlen as_ - 1)%Z; [lra|]. pose proof (Rabs_pos (zr cs 0)). lra. }
  rewrite (get_ok 0) by lia. cbn [bind]. rn. rewrite Req_bool_false by auto.
  rewrite (get_ok 0) by lia. cbn [bind]. rewrite set_ok by lia. cbn [bind].
  apply wp_bind. unfold tri_forward. rewrite zlen_upd, Zo. rn.
  eapply wp_mono.
  - apply (for_inv (fun i '(tmp, beta, out) =>
      (exists B, fwd as_ bs cs rs i tmp beta out B) /\ 
      (if (i =? zlen as_)%Z then 0 else Rabs (zr cs (i - 1)%Z)) < Rabs beta)).
    + lia.
    + split; [exists (fun _ => zr bs 0); apply fwd_init; auto; lia|].
      specialize (DZ 0%Z ltac:(lia)). rewrite Z.eqb_refl in DZ. replace (1 - 1)%Z with 0%Z by lia.
      destruct (Z.eqb_spec 0 (zlen as_ - 1)), (Z.eqb_spec 1 (zlen as_)); try lia; lra.
    + intros i [[t b] o] Hi [[B FW] DB]. cbv beta iota.
      pose proof (fwd_step as_ bs cs rs Zb Zc Zr i t b o B ltac:(lia) FW _ eq_refl) as [_ P2]. rn.
      destruct (Z.eqb_spec i (zlen as_)); [lia|].
      assert (0 < Rabs b) as PB by (pose proof (Rabs_pos (zr cs (i - 1)%Z)); lra).
      assert (Rabs (zr cs (i - 1)%Z / b) < 1) as T1.
      { unfold Rdiv. rewrite Rabs_mult, Rabs_inv. apply (Rmult_lt_reg_r (Rabs b)); auto.
        rewrite Rmult_assoc, Rinv_l by lra. lra. }
      pose proof (DZ i ltac:(lia)) as DI. destruct (Z.eqb_spec i 0); [lia|].
      pose proof (dominant_beta (zr as_ i) (zr bs i) _ (zr cs (i - 1)%Z / b) _ T1 eq_refl DI) as DB'.
      assert (0 <= (if (i =? zlen as_ - 1)%Z then 0 else Rabs (zr cs i))) as CP
        by (destruct (i =? zlen as_ - 1)%Z; [lra|apply Rabs_pos]).
      specialize (DB' CP).
      assert (zr bs i - zr as_ i * (zr cs (i - 1)%Z / b) <> 0) as NB.
      { intros E. rewrite E, Rabs_R0 in DB'. lra. }
      destruct (P2 NB) as [t' [o' [-> FW']]]. cbn [wp]. split; [eauto|].
      replace (i + 1 - 1)%Z with i by lia.
      destruct (Z.eqb_spec (i + 1) (zlen as_)), (Z.eqb_spec i (zlen as_ - 1)); try lia; exact DB'.
  - intros [[tmp beta] o] [[B FW] _]. cbv beta iota.
    destruct (backward_ok as_ tmp o) as [u [-> _]]; [apply FW|apply FW|lia|]. exact I.
Qed.
