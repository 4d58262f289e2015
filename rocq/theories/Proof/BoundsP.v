(** Bounding boxes of segments, in exact arithmetic. *)
From Coq Require Import ZArith List Bool Reals Lra Lia Psatz.
From Flocq Require Import Core.Raux.
From Verif Require Import Base.Res Base.ResFacts Base.Num Model.Geom Model.Main Spec.GeomDefs Spec.Segments Proof.GeomR Proof.SegP.
Import ListNotations.
Open Scope R_scope.

(** One axis of the bounding box: centre, upper and lower ends. *)
Record axis_box := AB { ab_c : R; ab_max : R; ab_min : R }.
Definition add1 (L : R) (b : axis_box) (p : R) : axis_box :=
  let t := sub1 L p (ab_c b) in
  let m := min_max (ab_min b) (ab_max b) t in
  let shift := (snd m + fst m) * (1 / 2) in
  AB (ab_c b + shift) (sub1 L (snd m) shift) (sub1 L (fst m) shift).

Definition project (f : vec3 R -> R) (b : bounding_box R) : axis_box := AB (f (bb_center b)) (f (bb_max b)) (f (bb_min b)).

Lemma project_fold L l : forall b,
  project v0 (fold_left (bb_add L) l b) = fold_left (add1 L) (map v0 l) (project v0 b) /\
  project v1 (fold_left (bb_add L) l b) = fold_left (add1 L) (map v1 l) (project v1 b) /\
  project v2 (fold_left (bb_add L) l b) = fold_left (add1 L) (map v2 l) (project v2 b).
Proof.
  induction l as [|p l IH]; intros b; [repeat split|].
  cbn [fold_left map]. destruct (IH (bb_add L b p)) as (A & B & C). rewrite A, B, C. repeat split; reflexivity.
Qed.

(** [c] and [h] describe the interval from [a] to [b]. *)
Definition spans (L lo len p0 : R) (seen : list R) (s : axis_box) : Prop :=
  exists a b, ab_c s = (a + b) / 2 /\ ab_max s = (b - a) / 2 /\ ab_min s = - ((b - a) / 2) /\
    lo <= a /\ a <= p0 <= b /\ b <= lo + len /\
    (forall p, In p seen -> exists k : Z, a <= p + IZR k * L <= b) /\
    (exists p, (p = p0 \/ In p seen) /\ exists k : Z, p + IZR k * L = a) /\
    (exists p, (p = p0 \/ In p seen) /\ exists k : Z, p + IZR k * L = b).

Lemma sub1_exact L p c q : 0 < L -> (exists k : Z, q = p + IZR k * L) -> - (3 / 2) * L < p - c < 3 / 2 * L -> - (L / 2) < q - c < L / 2 ->
  sub1 L p c = q - c.
Proof.
  intros HL (k & ->) H1 H2.
  assert (K : (k = 0 \/ k = 1 \/ k = -1)%Z).
  { assert (-2 < k < 2)%Z; [|lia]. split; apply lt_IZR; apply (Rmult_lt_reg_r L); lra. }
  unfold sub1; rn. destruct K as [->|[->| ->]]; rb; lra.
Qed.
Lemma sub1_small L a b : 0 < L -> - (L / 2) < a - b < L / 2 -> sub1 L a b = a - b.
Proof. intros HL H. apply sub1_exact; [exact HL|exists 0%Z; lra|lra|exact H]. Qed.

Lemma add1_spans L lo len p0 seen s p : 0 <= len < L / 2 -> 0 <= p0 < L -> 0 <= p < L ->
  (exists k : Z, lo <= p + IZR k * L <= lo + len) -> spans L lo len p0 seen s -> spans L lo len p0 (seen ++ [p]) (add1 L s p).
Proof.
  intros HL H0 Hp (k & Hk) (a & b & Ec & EM & Em & Ha & Hap & Hb & Hall & (pa & Hpa & ka & Eka) & (pb & Hpb & kb & Ekb)).
  set (q := p + IZR k * L) in *.
  assert (Et : sub1 L p (ab_c s) = q - ab_c s).
  { apply sub1_exact; [lra|exists k; reflexivity|rewrite Ec; lra|rewrite Ec; lra]. }
  assert (Q : exists a' b', min_max (ab_min s) (ab_max s) (q - ab_c s) = (a' - ab_c s, b' - ab_c s) /\
     ((a' = a /\ b' = b /\ a <= q <= b) \/ (a' = q /\ b' = b /\ q < a) \/ (a' = a /\ b' = q /\ b < q))).
  { unfold min_max; rn. destruct (Rlt_bool_spec (ab_max s) (q - ab_c s)) as [h|h].
    - exists a, q. split; [f_equal; lra|]. right; right. repeat split; lra.
    - destruct (Rlt_bool_spec (q - ab_c s) (ab_min s)) as [h'|h'].
      + exists q, b. split; [f_equal; lra|]. right; left. repeat split; lra.
      + exists a, b. split; [f_equal; lra|]. left. repeat split; lra. }
  destruct Q as (a' & b' & Emm & Q).
  assert (R1 : lo <= a' /\ a' <= p0 <= b' /\ b' <= lo + len /\ a' <= q <= b' /\ a' <= a /\ b <= b').
  { destruct Q as [(-> & -> & ?)|[(-> & -> & ?)|(-> & -> & ?)]]; lra. }
  destruct R1 as (A1 & A2 & A3 & A4 & A5 & A6).
  exists a', b'. unfold add1. rewrite Et, Emm. cbn [fst snd ab_c ab_max ab_min].
  rewrite !sub1_small by lra.
  split; [lra|]. split; [lra|]. split; [lra|]. split; [lra|]. split; [lra|]. split; [lra|].
  split; [|split].
  - intros x Hx. apply in_app_or in Hx. destruct Hx as [Hx|[<-|[]]]; [|exists k; fold q; lra].
    destruct (Hall x Hx) as (kx & Hkx). exists kx. lra.
  - destruct Q as [(-> & -> & ?)|[(-> & -> & ?)|(-> & -> & ?)]];
      [exists pa; split; [rewrite in_app_iff; tauto|eauto]|exists p; split; [right; apply in_or_app; right; left; reflexivity|exists k; reflexivity]|exists pa; split; [rewrite in_app_iff; tauto|eauto]].
  - destruct Q as [(-> & -> & ?)|[(-> & -> & ?)|(-> & -> & ?)]];
      [exists pb; split; [rewrite in_app_iff; tauto|eauto]|exists pb; split; [rewrite in_app_iff; tauto|eauto]|exists p; split; [right; apply in_or_app; right; left; reflexivity|exists k; reflexivity]].
Qed.

Lemma fold_spans L lo len p0 l : 0 <= len < L / 2 -> 0 <= p0 < L -> (forall p, In p l -> 0 <= p < L) ->
  (forall p, In p l -> exists k : Z, lo <= p + IZR k * L <= lo + len) ->
  forall seen s, spans L lo len p0 seen s -> spans L lo len p0 (seen ++ l) (fold_left (add1 L) l s).
Proof.
  intros HL H0. induction l as [|p l IH]; intros HP HK seen s HS; [now rewrite app_nil_r|].
  cbn [fold_left]. replace (seen ++ p :: l) with ((seen ++ [p]) ++ l) by (rewrite <- app_assoc; reflexivity).
  apply IH; [intros; apply HP; now right|intros; apply HK; now right|].
  apply add1_spans; auto; [apply HP; now left|apply HK; now left].
Qed.

Theorem axis_bounds L p0 l : In p0 l -> (forall p, In p l -> 0 <= p < L) -> within_half L l ->
  let s := fold_left (add1 L) l (AB p0 0 0) in
  bounds_axis L (mod1 L (ab_c s + ab_min s)) (ab_max s * 2) l.
Proof.
  intros H0 HP (lo & len & HL & HK) s. pose proof (HP p0 H0) as B0.
  destruct (HK p0 H0) as (k0 & Hk0).
  assert (S : spans L (lo - IZR k0 * L) len p0 l s).
  { apply (fold_spans L (lo - IZR k0 * L) len p0 l HL B0 HP) with (seen := []).
    - intros p Hp. destruct (HK p Hp) as (k & Hk). exists (k - k0)%Z. rewrite minus_IZR. lra.
    - exists p0, p0. cbn [ab_c ab_max ab_min]. split; [lra|]. split; [lra|]. split; [lra|]. split; [lra|]. split; [lra|]. split; [lra|].
      split; [intros p []|]. split; exists p0; (split; [now left|]); exists 0%Z; lra. }
  destruct S as (a & b & Ec & EM & Em & Ha & Hap & Hb & Hall & (pa & Hpa & ka & Eka) & (pb & Hpb & kb & Ekb)).
  assert (EA : ab_c s + ab_min s = a) by lra. rewrite EA.
  destruct (mod1_range L a ltac:(lra) ltac:(lra)) as ((j & Hj) & HR).
  split; [exact HR|]. split; [lra|]. split.
  - intros p Hp. destruct (Hall p Hp) as (k & Hk). unfold periodic_in.
    exists (k + j)%Z. rewrite plus_IZR. lra.
  - split.
    + exists pa. split; [destruct Hpa as [->|]; auto|]. exists (ka + j)%Z. rewrite plus_IZR. lra.
    + exists pb. split; [destruct Hpb as [->|]; auto|]. exists (kb + j)%Z. rewrite plus_IZR. lra.
Qed.

(** Velocities. *)
Definition vfold1 := fold_left (@v_bounds1 R RNum).
Lemma vel_project l : forall m,
  let r := fold_left v_bounds l m in
  (v0 (fst r), v0 (snd r)) = vfold1 (map v0 l) (v0 (fst m), v0 (snd m)) /\
  (v1 (fst r), v1 (snd r)) = vfold1 (map v1 l) (v1 (fst m), v1 (snd m)) /\
  (v2 (fst r), v2 (snd r)) = vfold1 (map v2 l) (v2 (fst m), v2 (snd m)).
Proof.
  induction l as [|p l IH]; intros m r; [repeat split|].
  subst r. cbn [fold_left map vfold1]. destruct (IH (v_bounds m p)) as (A & B & C). rewrite A, B, C. unfold vfold1. cbn [fold_left].
  unfold v_bounds. cbn [v0 v1 v2 vmap fst snd].
  rewrite <- !surjective_pairing. repeat split; reflexivity.
Qed.
Lemma vfold1_bounds l : forall m, fst m <= snd m -> let r := vfold1 l m in
  fst r <= fst m /\ snd m <= snd r /\ (forall v, In v l -> fst r <= v <= snd r) /\ (fst r = fst m \/ In (fst r) l) /\ (snd r = snd m \/ In (snd r) l).
Proof.
  induction l as [|p l IH]; intros m Hm r.
  - cbn in r. subst r. split; [lra|]. split; [lra|]. split; [intros v []|]. split; now left.
  - subst r. unfold vfold1. cbn [fold_left]. fold vfold1.
    assert (E : let m' := v_bounds1 m p in fst m' <= snd m' /\ fst m' <= fst m /\ snd m <= snd m' /\ fst m' <= p <= snd m' /\
        (fst m' = fst m \/ fst m' = p) /\ (snd m' = snd m \/ snd m' = p)).
    { unfold v_bounds1; rn. rb; cbn [fst snd]; repeat split; try lra; auto. }
    cbv zeta in E. destruct E as (E1 & E2 & E3 & E4 & E5 & E6).
    destruct (IH (v_bounds1 m p) E1) as (I1 & I2 & I3 & I4 & I5).
    split; [lra|]. split; [lra|]. split; [|split].
    + intros v [<-|Hv]; [lra|now apply I3].
    + destruct I4 as [->|I4]; [destruct E5 as [->| ->]; [now left|right; now left]|right; now right].
    + destruct I5 as [->|I5]; [destruct E6 as [->| ->]; [now left|right; now left]|right; now right].
Qed.
