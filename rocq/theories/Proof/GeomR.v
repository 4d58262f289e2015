From Coq Require Import ZArith List Lia Lra Bool Reals Psatz.
From Flocq Require Import Core.Raux.
From Verif Require Import Base.Res Base.Num Model.Geom Spec.Geometry Spec.GeomDefs Proof.GridP.
Import ListNotations.
Open Scope R_scope.


Ltac rn := cbn [nadd nsub nmul ndiv nopp nabs nltb nleb neqb nofZ ntrunc nfloor RNum] in *.
Ltac rb :=
  repeat match goal with
  | |- context [Rlt_bool ?a ?b] => destruct (Rlt_bool_spec a b)
  | |- context [Rle_bool ?a ?b] => destruct (Rle_bool_spec a b)
  end.

(** ** Periodic arithmetic *)
Lemma sub1_min_image L a b : 0 <= a < L -> 0 <= b < L ->
  rcong L (sub1 L a b) (a - b) /\ - (L / 2) <= sub1 L a b <= L / 2.
Proof.
  intros A B. unfold sub1; rn. unfold rcong.
  rb; (split; [first [exists 0%Z; lra | exists 1%Z; lra | exists (-1)%Z; lra]|lra]).
Qed.

Lemma mod1_range L x : 0 < L -> - L <= x < 2 * L ->
  rcong L (mod1 L x) x /\ 0 <= mod1 L x < L.
Proof.
  intros HL X. unfold mod1; rn. unfold rcong.
  rb; (split; [first [exists 0%Z; lra | exists 1%Z; lra | exists (-1)%Z; lra]|lra]).
Qed.

(** ** Cross product *)
Lemma cross_value a b : tup (cross a b) = pcross (tup b) (tup a).
Proof. destruct a as [a0 a1 a2], b as [b0 b1 b2]. unfold cross, cross_at, tup, pcross; rn; simpl. reflexivity. Qed.

Lemma cross_orth a b : pdot (tup (cross a b)) (tup a) = 0 /\ pdot (tup (cross a b)) (tup b) = 0.
Proof.
  destruct a as [a0 a1 a2], b as [b0 b1 b2]. unfold cross, cross_at, tup, pdot; rn; simpl. split; ring.
Qed.

Lemma cross_bad : exists a b, tup (cross a b) <> pcross (tup a) (tup b).
Proof.
  exists (V3 1 0 0), (V3 0 1 0). unfold cross, cross_at, tup, pcross; rn; cbn. intro H. injection H. lra.
Qed.

Lemma cross_all a b :
  tup (cross a b) = pcross (tup b) (tup a) /\ tup (cross_self a b) = pcross (tup b) (tup a) /\
  pdot (tup (cross a b)) (tup a) = 0 /\ pdot (tup (cross a b)) (tup b) = 0.
Proof. exact (conj (cross_value a b) (conj (cross_value a b) (cross_orth a b))). Qed.

(** ** Volume *)
Lemma signed_volume_det p q r s :
  signed_volume p q r s = - odet (tup p) (tup q) (tup r) (tup s) / 6.
Proof.
  destruct p as [p0 p1 p2], q as [q0 q1 q2], r as [r0 r1 r2], s as [s0 s1 s2].
  unfold signed_volume, dot, cross_self, cross_at, odet, det3, psub, tup, vmap2; rn; simpl. field.
Qed.


Lemma abs_signed_volume p q r s :
  Rabs (signed_volume p q r s) = vol6 (tup p) (tup q) (tup r) (tup s).
Proof.
  rewrite signed_volume_det. unfold vol6, Rdiv. rewrite Rabs_mult, Rabs_Ropp.
  rewrite (Rabs_pos_eq (/ 6)) by lra. reflexivity.
Qed.

Lemma tetra_volume_fresh (t : tetra R) a b c d :
  fst (tetra_volume (tetra_init t a b c d)) = vol6 (tup a) (tup b) (tup c) (tup d).
Proof. unfold tetra_volume, tetra_init; simpl. apply abs_signed_volume. Qed.

Lemma vol6_translate k p q r s : vol6 (padd p k) (padd q k) (padd r k) (padd s k) = vol6 p q r s.
Proof.
  unfold vol6. f_equal. f_equal.
  destruct p as [[? ?] ?], q as [[? ?] ?], r as [[? ?] ?], s as [[? ?] ?], k as [[? ?] ?].
  unfold odet, det3, psub, padd. ring.
Qed.

Lemma odet_swap01 p q r s : odet q p r s = - odet p q r s.
Proof.
  destruct p as [[? ?] ?], q as [[? ?] ?], r as [[? ?] ?], s as [[? ?] ?].
  unfold odet, det3, psub. ring.
Qed.
Lemma odet_swap12 p q r s : odet p r q s = - odet p q r s.
Proof.
  destruct p as [[? ?] ?], q as [[? ?] ?], r as [[? ?] ?], s as [[? ?] ?].
  unfold odet, det3, psub. ring.
Qed.
Lemma odet_swap23 p q r s : odet p q s r = - odet p q r s.
Proof.
  destruct p as [[? ?] ?], q as [[? ?] ?], r as [[? ?] ?], s as [[? ?] ?].
  unfold odet, det3, psub. ring.
Qed.


Lemma vol6_swap01 p q r s : vol6 q p r s = vol6 p q r s.
Proof. unfold vol6. now rewrite odet_swap01, Rabs_Ropp. Qed.
Lemma vol6_swap12 p q r s : vol6 p r q s = vol6 p q r s.
Proof. unfold vol6. now rewrite odet_swap12, Rabs_Ropp. Qed.
Lemma vol6_swap23 p q r s : vol6 p q s r = vol6 p q r s.
Proof. unfold vol6. now rewrite odet_swap23, Rabs_Ropp. Qed.

From Coq Require Import Permutation.
(** Every permutation of the four corners. *)
Lemma perm_vol : forall l l', Permutation l l' -> vol6l l = vol6l l'.
Proof.
  assert (G : forall l l', Permutation l l' -> forall pre, vol6l (pre ++ l) = vol6l (pre ++ l')).
  { induction 1 as [| x l l' P IH | x y l | l1 l2 l3 P1 IH1 P2 IH2]; intro pre.
    - reflexivity.
    - specialize (IH (pre ++ [x])). rewrite <- !app_assoc in IH. exact IH.
    - destruct pre as [|a [|b [|c [|d pre]]]]; cbn [app vol6l].
      + destruct l as [|r [|s [|]]]; try reflexivity. apply vol6_swap01.
      + destruct l as [|s [|]]; try reflexivity. apply vol6_swap12.
      + destruct l as [|]; try reflexivity. apply vol6_swap23.
      + reflexivity.
      + destruct pre; reflexivity.
    - now rewrite IH1, IH2. }
  intros l l' P. exact (G _ _ P []).
Qed.


Lemma det0_normal a1 a2 a3 b1 b2 b3 c1 c2 c3 :
  a1 * (b2 * c3 - b3 * c2) - a2 * (b1 * c3 - b3 * c1) + a3 * (b1 * c2 - b2 * c1) = 0 ->
  exists x y z, (x <> 0 \/ y <> 0 \/ z <> 0) /\
    x * a1 + y * a2 + z * a3 = 0 /\ x * b1 + y * b2 + z * b3 = 0 /\ x * c1 + y * c2 + z * c3 = 0.
Proof.
  intros D.
  (* some cross product of two rows is non-zero, or the rows are all parallel *)
  assert (NZ : forall x y z : R, (x <> 0 \/ y <> 0 \/ z <> 0) \/ (x = 0 /\ y = 0 /\ z = 0)).
  { intros x y z. destruct (Req_dec x 0), (Req_dec y 0), (Req_dec z 0); tauto. }
  destruct (NZ (b2 * c3 - b3 * c2) (b3 * c1 - b1 * c3) (b1 * c2 - b2 * c1)) as [N|(X & Y & Z_)].
  { exists (b2 * c3 - b3 * c2), (b3 * c1 - b1 * c3), (b1 * c2 - b2 * c1). split; auto.
    split; [lra|split; ring]. }
  destruct (NZ (a2 * c3 - a3 * c2) (a3 * c1 - a1 * c3) (a1 * c2 - a2 * c1)) as [N|(X' & Y' & Z')].
  { exists (a2 * c3 - a3 * c2), (a3 * c1 - a1 * c3), (a1 * c2 - a2 * c1). split; auto.
    split; [ring|split; [lra|ring]]. }
  destruct (NZ (a2 * b3 - a3 * b2) (a3 * b1 - a1 * b3) (a1 * b2 - a2 * b1)) as [N|(X2 & Y2 & Z2)].
  { exists (a2 * b3 - a3 * b2), (a3 * b1 - a1 * b3), (a1 * b2 - a2 * b1). split; auto.
    split; [ring|split; [ring|lra]]. }
  (* all rows parallel: take a normal of a non-zero row *)
  assert (PAR : forall u1 u2 u3, (u1 <> 0 \/ u2 <> 0 \/ u3 <> 0) ->
    exists x y z, (x <> 0 \/ y <> 0 \/ z <> 0) /\ x * u1 + y * u2 + z * u3 = 0 /\
      forall w1 w2 w3, u2 * w3 - u3 * w2 = 0 -> u3 * w1 - u1 * w3 = 0 -> u1 * w2 - u2 * w1 = 0 ->
        x * w1 + y * w2 + z * w3 = 0).
  { intros u1 u2 u3 U. destruct (Req_dec u1 0) as [E1|N1].
    - destruct (Req_dec u2 0) as [E2|N2].
      + assert (N3 : u3 <> 0) by tauto. exists 1, 0, 0. split; [left; lra|]. split; [subst; ring|].
        intros w1 w2 w3 A B C. apply Rmult_eq_reg_l with u3; auto. subst. lra.
      + exists 0, (- u3), u2. split; [right; right; auto|]. split; [ring|].
        intros w1 w2 w3 A B C. lra.
    - exists (- u2), u1, 0. split; [right; left; auto|]. split; [ring|].
      intros w1 w2 w3 A B C. lra. }
  destruct (NZ a1 a2 a3) as [N|(-> & -> & ->)].
  { destruct (PAR _ _ _ N) as (x & y & z & H & H1 & H2). exists x, y, z. repeat split; auto; apply H2; lra. }
  destruct (NZ b1 b2 b3) as [N|(-> & -> & ->)].
  { destruct (PAR _ _ _ N) as (x & y & z & H & H1 & H2). exists x, y, z. split; auto. split; [lra|]. split; auto; apply H2; lra. }
  destruct (NZ c1 c2 c3) as [N|(-> & -> & ->)].
  { destruct (PAR _ _ _ N) as (x & y & z & H & H1 & H2). exists x, y, z. split; auto. split; [lra|]. split; [lra|auto]. }
  exists 1, 0, 0. split; [left; lra|]. lra.
Qed.

Lemma vol6_zero_iff p q r s : vol6 p q r s = 0 <-> coplanar p q r s.
Proof.
  assert (Z0 : vol6 p q r s = 0 <-> odet p q r s = 0).
  { unfold vol6. split; intro H.
    - destruct (Req_dec (odet p q r s) 0) as [E|N]; auto. apply Rabs_pos_lt in N. lra.
    - rewrite H, Rabs_R0. lra. }
  rewrite Z0. clear Z0.
  destruct p as [[p1 p2] p3], q as [[q1 q2] q3], r as [[r1 r2] r3], s as [[s1 s2] s3].
  unfold odet, det3, psub. split.
  - intro H. apply det0_normal in H. destruct H as (x & y & z & N & A & B & C).
    exists x, y, z, (x * p1 + y * p2 + z * p3). split; auto.
    unfold pdot. repeat (apply Forall_cons; [lra|]). apply Forall_nil.
  - intros (a & b & c & d & N & F).
    inversion F as [|? ? P F1]; subst. inversion F1 as [|? ? Q F2]; subst.
    inversion F2 as [|? ? R_ F3]; subst. inversion F3 as [|? ? S_ F4]; subst.
    unfold pdot in *. clear F F1 F2 F3 F4.
    set (A1 := q1 - p1) in *. set (A2 := q2 - p2) in *. set (A3 := q3 - p3) in *.
    set (B1 := r1 - p1) in *. set (B2 := r2 - p2) in *. set (B3 := r3 - p3) in *.
    set (C1 := s1 - p1) in *. set (C2 := s2 - p2) in *. set (C3 := s3 - p3) in *.
    assert (EA : a * A1 + b * A2 + c * A3 = 0) by (unfold A1, A2, A3; lra).
    assert (EB : a * B1 + b * B2 + c * B3 = 0) by (unfold B1, B2, B3; lra).
    assert (EC : a * C1 + b * C2 + c * C3 = 0) by (unfold C1, C2, C3; lra).
    clearbody A1 A2 A3 B1 B2 B3 C1 C2 C3.
    destruct N as [N|[N|N]].
    + apply Rmult_eq_reg_l with a; auto. rewrite Rmult_0_r.
      replace (a * (A1 * (B2 * C3 - B3 * C2) - A2 * (B1 * C3 - B3 * C1) + A3 * (B1 * C2 - B2 * C1)))
        with ((a * A1 + b * A2 + c * A3) * (B2 * C3 - B3 * C2) - (a * B1 + b * B2 + c * B3) * (A2 * C3 - A3 * C2)
              + (a * C1 + b * C2 + c * C3) * (A2 * B3 - A3 * B2)) by ring.
      rewrite EA, EB, EC. ring.
    + apply Rmult_eq_reg_l with b; auto. rewrite Rmult_0_r.
      replace (b * (A1 * (B2 * C3 - B3 * C2) - A2 * (B1 * C3 - B3 * C1) + A3 * (B1 * C2 - B2 * C1)))
        with (- (a * A1 + b * A2 + c * A3) * (B1 * C3 - B3 * C1) + (a * B1 + b * B2 + c * B3) * (A1 * C3 - A3 * C1)
              - (a * C1 + b * C2 + c * C3) * (A1 * B3 - A3 * B1)) by ring.
      rewrite EA, EB, EC. ring.
    + apply Rmult_eq_reg_l with c; auto. rewrite Rmult_0_r.
      replace (c * (A1 * (B2 * C3 - B3 * C2) - A2 * (B1 * C3 - B3 * C1) + A3 * (B1 * C2 - B2 * C1)))
        with ((a * A1 + b * A2 + c * A3) * (B1 * C2 - B2 * C1) - (a * B1 + b * B2 + c * B3) * (A1 * C2 - A2 * C1)
              + (a * C1 + b * C2 + c * C3) * (A1 * B2 - A2 * B1)) by ring.
      rewrite EA, EB, EC. ring.
Qed.



Definition bary_of (t : tetra R) : rv :=
  let m a b c := (a + b + c) / 4 in
  V3 (m (v0 (c0 t)) (v0 (c1 t)) (v0 (c2 t))) (m (v1 (c0 t)) (v1 (c1 t)) (v1 (c2 t)))
     (m (v2 (c0 t)) (v2 (c1 t)) (v2 (c2 t))).
Definition cache_ok (t : tetra R) : Prop :=
  (volumeValid t = true -> volume t = vol6 (tup (c0 t)) (tup (c1 t)) (tup (c2 t)) (tup (c3 t))) /\
  (baryValid t = true -> bary t = bary_of t).

Lemma volume_cache t : cache_ok t ->
  fst (tetra_volume t) = vol6 (tup (c0 t)) (tup (c1 t)) (tup (c2 t)) (tup (c3 t)) /\
  cache_ok (snd (tetra_volume t)) /\ corners (snd (tetra_volume t)) = corners t.
Proof.
  intros [V B]. unfold tetra_volume. destruct (volumeValid t) eqn:E; simpl.
  - split; [auto|]. split; [split; auto|reflexivity].
  - split; [apply abs_signed_volume|]. split; [|reflexivity].
    split; simpl; intro H; [apply abs_signed_volume|exact (B H)].
Qed.

Lemma contains_state t v : snd (tetra_contains t v) = snd (tetra_volume t).
Proof. unfold tetra_contains. destruct (tetra_volume t) as [x t']. reflexivity. Qed.

Lemma bary_cache t : cache_ok t ->
  fst (tetra_barycenter t) = bary_of t /\
  cache_ok (snd (tetra_barycenter t)) /\ corners (snd (tetra_barycenter t)) = corners t.
Proof.
  intros [V B]. unfold tetra_barycenter. destruct (baryValid t) eqn:E; cbn [fst snd].
  - split; [auto|]. split; [split; auto|reflexivity].
  - split; [reflexivity|]. split; [|reflexivity].
    split; cbn [volumeValid volume c0 c1 c2 c3 baryValid bary]; intro H; [exact (V H)|reflexivity].
Qed.

Lemma distribute_state t ps : snd (distribute t ps) = snd (tetra_barycenter t).
Proof. unfold distribute. destruct (tetra_barycenter t) as [x t']. reflexivity. Qed.
Lemma distribute_tetra_state t ps : snd (distribute_tetra t ps) = snd (tetra_barycenter t).
Proof. unfold distribute_tetra. destruct (tetra_barycenter t) as [x t']. reflexivity. Qed.

Lemma trun_ok cs : forall t, cache_ok t ->
  cache_ok (trun t cs) /\ corners (trun t cs) = last_corners (corners t) cs.
Proof.
  induction cs as [|c cs IH]; intros t H; [split; auto|].
  unfold trun in *. cbn [fold_left].
  destruct c as [a b c d| |v| |ps|ps]; cbn [trun1 last_corners].
  - apply (IH (tetra_init t a b c d)). split; cbn; discriminate.
  - destruct (volume_cache t H) as (_ & H1 & H2). rewrite <- H2. apply IH. exact H1.
  - rewrite contains_state. destruct (volume_cache t H) as (_ & H1 & H2). rewrite <- H2. apply IH. exact H1.
  - destruct (bary_cache t H) as (_ & H1 & H2). rewrite <- H2. apply IH. exact H1.
  - rewrite distribute_state. destruct (bary_cache t H) as (_ & H1 & H2). rewrite <- H2. apply IH. exact H1.
  - rewrite distribute_tetra_state. destruct (bary_cache t H) as (_ & H1 & H2). rewrite <- H2. apply IH. exact H1.
Qed.

Lemma volume_history cs a b c d :
  last_corners (corners tetra_zero) cs = (a, b, c, d) ->
  fst (tetra_volume (trun tetra_zero cs)) = vol6 (tup a) (tup b) (tup c) (tup d).
Proof.
  intro L. assert (Z0 : cache_ok tetra_zero) by (split; cbn; discriminate).
  destruct (trun_ok cs _ Z0) as [O C]. rewrite L in C. destruct (volume_cache _ O) as (V & _).
  rewrite V. unfold corners in C. injection C as -> -> -> ->. reflexivity.
Qed.

Lemma bary_history cs a b c d :
  last_corners (corners tetra_zero) cs = (a, b, c, d) ->
  tup (fst (tetra_barycenter (trun tetra_zero cs))) = pscale (/ 4) (padd (padd (tup a) (tup b)) (tup c)).
Proof.
  intro L. assert (Z0 : cache_ok tetra_zero) by (split; cbn; discriminate).
  destruct (trun_ok cs _ Z0) as [O C]. rewrite L in C. destruct (bary_cache _ O) as (V & _).
  rewrite V. unfold corners in C. injection C as E0 E1 E2 E3. unfold bary_of. rewrite E0, E1, E2.
  unfold tup, pscale, padd. cbn [v0 v1 v2]. f_equal; [f_equal|]; field.
Qed.

(** ** Containment *)
Lemma odet_combine w1 w2 w3 w4 p q r s a b c : w1 + w2 + w3 + w4 = 1 ->
  odet (combine w1 w2 w3 w4 p q r s) a b c =
  w1 * odet p a b c + w2 * odet q a b c + w3 * odet r a b c + w4 * odet s a b c.
Proof.
  intro E. assert (W : w4 = 1 - w1 - w2 - w3) by lra. subst w4.
  destruct p as [[? ?] ?], q as [[? ?] ?], r as [[? ?] ?], s as [[? ?] ?], a as [[? ?] ?], b as [[? ?] ?], c as [[? ?] ?].
  unfold odet, det3, psub, combine, padd, pscale. ring.
Qed.

Lemma odet_same p q r : odet p p q r = 0 /\ odet p q p r = 0 /\ odet p q r p = 0.
Proof.
  destruct p as [[? ?] ?], q as [[? ?] ?], r as [[? ?] ?]. unfold odet, det3, psub. repeat split; ring.
Qed.

(** The barycentric weights of any point of space. *)
Lemma cramer a b c x : 
  let '(a1, a2, a3) := a in let '(b1, b2, b3) := b in let '(c1, c2, c3) := c in let '(x1, x2, x3) := x in
  det3 a b c * x1 = det3 x b c * a1 + det3 a x c * b1 + det3 a b x * c1 /\
  det3 a b c * x2 = det3 x b c * a2 + det3 a x c * b2 + det3 a b x * c2 /\
  det3 a b c * x3 = det3 x b c * a3 + det3 a x c * b3 + det3 a b x * c3.
Proof.
  destruct a as [[a1 a2] a3], b as [[b1 b2] b3], c as [[c1 c2] c3], x as [[x1 x2] x3].
  unfold det3. split; [ring|split; ring].
Qed.

Lemma weights_exist x p q r s : odet p q r s <> 0 ->
  exists w1 w2 w3 w4, w1 + w2 + w3 + w4 = 1 /\ x = combine w1 w2 w3 w4 p q r s.
Proof.
  unfold odet. intro N.
  pose proof (cramer (psub q p) (psub r p) (psub s p) (psub x p)) as C.
  set (D := det3 (psub q p) (psub r p) (psub s p)) in *.
  set (D1 := det3 (psub x p) (psub r p) (psub s p)) in *.
  set (D2 := det3 (psub q p) (psub x p) (psub s p)) in *.
  set (D3 := det3 (psub q p) (psub r p) (psub x p)) in *.
  clearbody D D1 D2 D3.
  exists (1 - D1 / D - D2 / D - D3 / D), (D1 / D), (D2 / D), (D3 / D). split; [ring|].
  destruct p as [[p1 p2] p3], q as [[q1 q2] q3], r as [[r1 r2] r3], s as [[s1 s2] s3], x as [[x1 x2] x3].
  cbn [psub] in C. destruct C as (C1 & C2 & C3).
  assert (G : forall a b c d e, D * (e - a) = D1 * (b - a) + D2 * (c - a) + D3 * (d - a) ->
    e = (1 - D1 / D - D2 / D - D3 / D) * a + D1 / D * b + (D2 / D * c + D3 / D * d)).
  { intros a b c d e E. replace e with (a + (D * (e - a)) / D) by (field; exact N). rewrite E. field. exact N. }
  unfold combine, padd, pscale. f_equal; [f_equal|]; apply G; assumption.
Qed.

Lemma rlt_bool_iff a b : Rlt_bool a b = true <-> a < b.
Proof. destruct (Rlt_bool_spec a b); split; try discriminate; auto. intro. lra. Qed.

Section Contains.
Variables (t : tetra R) (v : rv).
Hypothesis Hc : cache_ok t.
Let P := tup (c0 t). Let Q := tup (c1 t). Let R_ := tup (c2 t). Let S_ := tup (c3 t). Let X := tup v.
Let V := odet P Q R_ S_.

Lemma sv_parts w1 w2 w3 w4 : w1 + w2 + w3 + w4 = 1 -> X = combine w1 w2 w3 w4 P Q R_ S_ ->
  signed_volume v (c0 t) (c1 t) (c2 t) = w4 * (V / 6) /\
  signed_volume v (c1 t) (c3 t) (c2 t) = w1 * (V / 6) /\
  signed_volume v (c0 t) (c3 t) (c1 t) = w3 * (V / 6) /\
  signed_volume v (c0 t) (c2 t) (c3 t) = w2 * (V / 6).
Proof.
  intros W E. rewrite !signed_volume_det. fold P Q R_ S_ X. rewrite E.
  rewrite !odet_combine by exact W.
  destruct (odet_same P Q R_) as (A1 & A2 & A3).
  assert (Z1 : forall a b c, odet a a b c = 0) by (intros a b c; apply odet_same).
  assert (Z2 : forall a b c, odet a b a c = 0) by (intros a b c; apply odet_same).
  assert (Z3 : forall a b c, odet a b c a = 0) by (intros a b c; apply odet_same).
  rewrite !Z1, !Z2, !Z3.
  assert (E4 : odet S_ P Q R_ = - V).
  { unfold V. rewrite (odet_swap01 P S_), (odet_swap12 P Q S_), (odet_swap23 P Q R_). ring. }
  assert (E1 : odet P Q S_ R_ = - V) by (unfold V; apply odet_swap23).
  assert (E3 : odet R_ P S_ Q = - V).
  { unfold V. rewrite (odet_swap01 P R_), (odet_swap23 P R_ Q S_), (odet_swap12 P Q R_). ring. }
  assert (E2 : odet Q P R_ S_ = - V) by (unfold V; apply odet_swap01).
  rewrite E1, E2, E3, E4. repeat split; field.
Qed.

Lemma contains_inside w1 w2 w3 w4 : 0 < w1 -> 0 < w2 -> 0 < w3 -> 0 < w4 -> w1 + w2 + w3 + w4 = 1 ->
  X = combine w1 w2 w3 w4 P Q R_ S_ -> V <> 0 -> fst (tetra_contains t v) = true.
Proof.
  intros H1 H2 H3 H4 W E NV. unfold tetra_contains.
  destruct (volume_cache t Hc) as (VE & _ & C).
  destruct (tetra_volume t) as [vol t'] eqn:ET. cbn [fst snd] in *.
  unfold corners in C. injection C as -> -> -> ->. 
  destruct (sv_parts w1 w2 w3 w4 W E) as (-> & -> & -> & ->).
  fold P Q R_ S_ in VE. unfold vol6 in VE. fold V in VE. subst vol.
  set (u := V / 6) in *. assert (NU : u <> 0) by (unfold u; intro; apply NV; lra).
  replace (Rabs V / 6) with (Rabs u).
  2:{ unfold u, Rdiv. rewrite Rabs_mult, (Rabs_pos_eq (/ 6)) by lra. reflexivity. }
  rn. assert (PU : 0 < Rabs u) by (apply Rabs_pos_lt; auto).
  assert (A : forall w, 0 < w -> Rabs (w * u) = w * Rabs u)
    by (intros w Hw; rewrite Rabs_mult, (Rabs_pos_eq w) by lra; reflexivity).
  rewrite !A by auto.
  assert (SG : forall w, 0 < w -> signbit (w * u) = signbit u).
  { intros w Hw. unfold signbit; rn. destruct (Rlt_bool_spec u 0), (Rlt_bool_spec (w * u) 0); auto; nra. }
  rewrite !SG by auto. rewrite !eqb_reflx. cbn [negb].
  assert (LIM : Rabs u <= Rabs u * (1 + eps)) by (unfold eps; rn; nra).
  rewrite !Rlt_bool_false by nra.
  unfold eps_eq; rn.
  replace (w2 * Rabs u + (w4 * Rabs u + w1 * Rabs u + w3 * Rabs u)) with (Rabs u).
  2:{ replace (w2 * Rabs u + (w4 * Rabs u + w1 * Rabs u + w3 * Rabs u)) with ((w1 + w2 + w3 + w4) * Rabs u) by ring.
      rewrite W. ring. }
  rewrite Req_bool_false by lra. cbn [negb andb orb].
  replace ((Rabs u - Rabs u) / Rabs u) with 0 by (field; lra). rewrite Rabs_R0.
  apply Rle_bool_true. unfold eps; rn. lra.
Qed.

Lemma contains_outside : V <> 0 -> ~ in_tetra X P Q R_ S_ -> fst (tetra_contains t v) = false.
Proof.
  intros NV OUT. destruct (weights_exist X P Q R_ S_ NV) as (w1 & w2 & w3 & w4 & W & E).
  unfold tetra_contains.
  destruct (volume_cache t Hc) as (VE & _ & C).
  destruct (tetra_volume t) as [vol t'] eqn:ET. cbn [fst snd] in *.
  unfold corners in C. injection C as -> -> -> ->. 
  destruct (sv_parts w1 w2 w3 w4 W E) as (-> & -> & -> & ->).
  set (u := V / 6) in *. assert (NU : u <> 0) by (unfold u; intro; apply NV; lra).
  assert (NEG : ~ (0 <= w1 /\ 0 <= w2 /\ 0 <= w3 /\ 0 <= w4)).
  { intros (A1 & A2 & A3 & A4). apply OUT. exists w1, w2, w3, w4. tauto. }
  repeat match goal with |- (if ?b then false else _) = false => destruct b eqn:?; [reflexivity|] end.
  exfalso. clear - NEG NU W Heqb0 Heqb2 Heqb4.
  apply negb_false_iff, eqb_prop in Heqb0. apply negb_false_iff, eqb_prop in Heqb2.
  apply negb_false_iff, eqb_prop in Heqb4. unfold signbit in *; rn.
  destruct (Rlt_bool_spec (w1 * u) 0), (Rlt_bool_spec (w2 * u) 0), (Rlt_bool_spec (w3 * u) 0), (Rlt_bool_spec (w4 * u) 0);
    try discriminate.
  - assert (w1 * u + w2 * u + w3 * u + w4 * u = u) by (rewrite <- !Rmult_plus_distr_r, W; ring).
    assert (u < 0) by lra. apply NEG. repeat split; nra.
  - assert (w1 * u + w2 * u + w3 * u + w4 * u = u) by (rewrite <- !Rmult_plus_distr_r, W; ring).
    assert (0 < u) by lra. apply NEG. repeat split; nra.
Qed.
End Contains.

(** ** Sampling *)
Lemma fold_unit_simplex s t u : 0 <= s <= 1 -> 0 <= t <= 1 -> 0 <= u <= 1 ->
  let q := fold_unit (V3 s t u) in
  0 <= v0 q /\ 0 <= v1 q /\ 0 <= v2 q /\ v0 q + v1 q + v2 q <= 1.
Proof.
  intros. subst q. unfold fold_unit; rn; cbn [v0 v1 v2].
  destruct (Rlt_bool_spec 1 (s + t)); rb; cbn [v0 v1 v2]; lra.
Qed.

Lemma bary_point_combine (t : tetra R) b a1 a2 a3 :
  tup (bary_point t b (V3 a1 a2 a3)) =
  combine a1 a2 a3 (1 - a1 - a2 - a3) (tup (c0 t)) (tup (c1 t)) (tup (c2 t)) (tup (c3 t)).
Proof.
  unfold bary_point, tup, combine, padd, pscale; rn; cbn [v0 v1 v2].
  f_equal; [f_equal|]; ring.
Qed.

Lemma barycenter_corners (t : tetra R) : corners (snd (tetra_barycenter t)) = corners t.
Proof. unfold tetra_barycenter. destruct (baryValid t); reflexivity. Qed.


Lemma distribute_inside (t : tetra R) ps : Forall unit_cube ps ->
  length (fst (distribute t ps)) = length ps /\
  Forall (fun x => in_tetra (tup x) (tup (c0 t)) (tup (c1 t)) (tup (c2 t)) (tup (c3 t))) (fst (distribute t ps)).
Proof.
  intro H. unfold distribute. pose proof (barycenter_corners t) as C.
  destruct (tetra_barycenter t) as [b t']. cbn [fst snd] in *. unfold corners in C. injection C as E0 E1 E2 E3.
  split; [apply map_length|]. apply Forall_map. eapply Forall_impl; [|exact H].
  intros [s tt u] (A & B & C). cbn [v0 v1 v2] in *.
  pose proof (fold_unit_simplex s tt u A B C) as (F0 & F1 & F2 & F3).
  destruct (fold_unit (V3 s tt u)) as [a1 a2 a3]. cbn [v0 v1 v2] in *.
  rewrite bary_point_combine, E0, E1, E2, E3. exists a1, a2, a3, (1 - a1 - a2 - a3). repeat split; lra.
Qed.

Lemma distribute_tetra_inside (t : tetra R) ps : Forall unit_simplex ps ->
  length (fst (distribute_tetra t ps)) = length ps /\
  Forall (fun x => in_tetra (tup x) (tup (c0 t)) (tup (c1 t)) (tup (c2 t)) (tup (c3 t))) (fst (distribute_tetra t ps)).
Proof.
  intro H. unfold distribute_tetra. pose proof (barycenter_corners t) as C.
  destruct (tetra_barycenter t) as [b t']. cbn [fst snd] in *. unfold corners in C. injection C as E0 E1 E2 E3.
  split; [apply map_length|]. apply Forall_map. eapply Forall_impl; [|exact H].
  intros [a1 a2 a3] (A & B & C & D). cbn [v0 v1 v2] in *.
  rewrite bary_point_combine, E0, E1, E2, E3. exists a1, a2, a3, (1 - a1 - a2 - a3). repeat split; lra.
Qed.

Lemma distribute_unit_simplex ps : Forall unit_cube ps -> Forall unit_simplex (distribute_unit ps).
Proof.
  intro H. apply Forall_map. eapply Forall_impl; [|exact H].
  intros [s tt u] (A & B & C). apply fold_unit_simplex; assumption.
Qed.




Lemma trip_eq (a b c a' b' c' : R) : (a, b, c) = (a', b', c') <-> a = a' /\ b = b' /\ c = c'.
Proof. split; [intro H; injection H; auto|intros (-> & -> & ->); reflexivity]. Qed.

Lemma fold_lo s t u : s + t <= 1 -> tup (fold_unit (V3 s t u)) =
  if Rlt_bool 1 (t + u) then (s, 1 - u, 1 - s - t)
  else if Rlt_bool 1 (s + t + u) then (1 - t - u, t, s + t + u - 1) else (s, t, u).
Proof.
  intro H. unfold fold_unit; rn; cbn [v0 v1 v2]. rewrite Rlt_bool_false by exact H.
  destruct (Rlt_bool 1 (t + u)); [reflexivity|]. destruct (Rlt_bool 1 (s + t + u)); reflexivity.
Qed.

Lemma fold_hi s t u : 1 < s + t -> tup (fold_unit (V3 s t u)) =
  tup (fold_unit (V3 (1 - s) (1 - t) u)).
Proof.
  intro H. rewrite (fold_lo (1 - s) (1 - t) u) by lra. unfold fold_unit; rn; cbn [v0 v1 v2]. rewrite Rlt_bool_true by exact H.
  destruct (Rlt_bool 1 (1 - t + u)); [reflexivity|]. destruct (Rlt_bool 1 (1 - s + (1 - t) + u)); reflexivity.
Qed.

(** The three preimages with s + t <= 1. *)
Lemma fold_lo_iff a b c s t u : 0 < a -> 0 < b -> 0 < c -> a + b + c < 1 -> s + t <= 1 ->
  (tup (fold_unit (V3 s t u)) = (a, b, c) <->
   (s, t, u) = inv_a (a, b, c) \/ (s, t, u) = inv_b (a, b, c) \/ (s, t, u) = inv_c (a, b, c)).
Proof.
  intros A B C D H. rewrite fold_lo by exact H. unfold inv_a, inv_b, inv_c. split.
  - clear A B C D H. destruct (Rlt_bool 1 (t + u)); [|destruct (Rlt_bool 1 (s + t + u))]; intro E.
    + left. injection E as <- <- <-. f_equal; [f_equal|]; ring.
    + right; left. injection E as <- <- <-. f_equal; [f_equal|]; ring.
    + right; right. exact E.
  - clear H. intros [E|[E|E]]; injection E as -> -> ->.
    + rewrite Rlt_bool_true by lra. clear. apply trip_eq. split; [ring|split; ring].
    + rewrite Rlt_bool_false by lra. rewrite Rlt_bool_true by lra. clear. apply trip_eq. split; [ring|split; ring].
    + rewrite Rlt_bool_false by lra. rewrite Rlt_bool_false by lra. reflexivity.
Qed.

Lemma flip_flip p : flip (flip p) = p.
Proof. destruct p as [[s t] u]. unfold flip. apply trip_eq; split; [ring|split; ring]. Qed.

Lemma fold_six q : open_simplex q ->
  forall p, open_cube p ->
    (tup (fold_unit (unfold_v p)) = q <-> In p (map (fun f => f q) branches)).
Proof.
  destruct q as [[a b] c]. intros (A & B & C & D) [[s t] u] _.
  assert (LOW : forall f, In f [inv_a; inv_b; inv_c] -> let '(x, y, z) := f (a, b, c) in x + y < 1).
  { intros f [<-|[<-|[<-|[]]]]; cbn; lra. }
  unfold unfold_v. destruct (Rle_lt_dec (s + t) 1) as [H|H].
  - rewrite (fold_lo_iff a b c s t u A B C D H). split.
    + unfold branches. cbn [map In]. intros [E|[E|E]]; rewrite E; tauto.
    + unfold branches. cbn [map In].
      assert (X : forall f, In f [inv_a; inv_b; inv_c] -> flip (f (a, b, c)) = (s, t, u) -> False).
      { intros f I E. specialize (LOW f I). destruct (f (a, b, c)) as [[x y] z]. cbn in E.
        injection E as E1 E2 E3. clear - E1 E2 H LOW. lra. }
      intros [E|[E|[E|[E|[E|[E|[]]]]]]]; rewrite <- ?E; try tauto; exfalso; revert E; apply X; cbn; tauto.
  - rewrite fold_hi by exact H. rewrite (fold_lo_iff a b c (1 - s) (1 - t) u A B C D) by lra.
    change (1 - s, 1 - t, u) with (flip (s, t, u)). split.
    + unfold branches. cbn [map In]. intros [E|[E|E]]; rewrite <- E, flip_flip; tauto.
    + unfold branches. cbn [map In].
      assert (X : forall f, In f [inv_a; inv_b; inv_c] -> f (a, b, c) = (s, t, u) -> False).
      { intros f I E. specialize (LOW f I). rewrite E in LOW. clear - H LOW. lra. }
      intros [E|[E|[E|[E|[E|[E|[]]]]]]]; rewrite <- ?E, ?flip_flip; try tauto; exfalso; revert E; apply X; cbn; tauto.
Qed.

Lemma branches_in_cube q : open_simplex q -> Forall (fun f => open_cube (f q)) branches.
Proof.
  destruct q as [[a b] c]. intros (A & B & C & D). unfold branches.
  repeat (apply Forall_cons; [cbn; lra|]). apply Forall_nil.
Qed.

Lemma branches_distinct q : open_simplex q -> NoDup (map (fun f => f q) branches).
Proof.
  destruct q as [[a b] c]. intros (A & B & C & D).
  unfold branches, flip, inv_a, inv_b, inv_c; cbn [map].
  repeat (apply NoDup_cons; [cbn [In]; rewrite ?trip_eq; intro H; decompose [or] H; try contradiction; lra|]).
  apply NoDup_nil.
Qed.


Lemma branches_affine : Forall unit_affine branches.
Proof.
  unfold branches. repeat apply Forall_cons; try apply Forall_nil.
  - exists (0, 1, 1), (1, -1, 0), (0, 0, -1), (0, -1, 0). split; [cbn; lra|].
    intros; unfold inv_a, padd, pscale; cbn; apply trip_eq; lra.
  - exists (0, 0, 1), (1, 0, -1), (0, 1, -1), (1, 0, 0). split; [cbn; lra|].
    intros; unfold inv_b, padd, pscale; cbn; apply trip_eq; lra.
  - exists (0, 0, 0), (1, 0, 0), (0, 1, 0), (0, 0, 1). split; [cbn; lra|].
    intros; unfold inv_c, padd, pscale; cbn; apply trip_eq; lra.
  - exists (1, 0, 1), (-1, 1, 0), (0, 0, -1), (0, 1, 0). split; [cbn; lra|].
    intros; unfold flip, inv_a, padd, pscale; cbn; apply trip_eq; lra.
  - exists (1, 1, 1), (-1, 0, -1), (0, -1, -1), (-1, 0, 0). split; [cbn; lra|].
    intros; unfold flip, inv_b, padd, pscale; cbn; apply trip_eq; lra.
  - exists (1, 1, 0), (-1, 0, 0), (0, -1, 0), (0, 0, 1). split; [cbn; lra|].
    intros; unfold flip, inv_c, padd, pscale; cbn; apply trip_eq; lra.
Qed.

(** ** Cell bounds *)
Lemma minmax4 a b c d :
  exists mn mx, @minmax_step R RNum (minmax_step (minmax_step (a, a) b) c) d = (mn, mx) /\ (mn <= a <= mx /\ mn <= b <= mx /\ mn <= c <= mx /\ mn <= d <= mx) /\ (mn = a \/ mn = b \/ mn = c \/ mn = d) /\ (mx = a \/ mx = b \/ mx = c \/ mx = d).
Proof.
  assert (ST : forall mn mx x, mn <= mx -> exists mn' mx', @minmax_step R RNum (mn, mx) x = (mn', mx') /\ mn' <= mn /\ mx <= mx' /\ mn' <= x <= mx' /\ (mn' = mn \/ mn' = x) /\ (mx' = mx \/ mx' = x)).
  { intros mn mx x H. unfold minmax_step; rn.
    destruct (Rlt_bool_spec x mn); [|destruct (Rlt_bool_spec mx x)]; eexists _, _; (split; [reflexivity|]); lra. }
  destruct (ST a a b ltac:(lra)) as (m1 & x1 & -> & A1 & A2 & A3 & A4 & A5).
  destruct (ST m1 x1 c ltac:(lra)) as (m2 & x2 & -> & B1 & B2 & B3 & B4 & B5).
  destruct (ST m2 x2 d ltac:(lra)) as (m3 & x3 & -> & C1 & C2 & C3 & C4 & C5).
  exists m3, x3. split; auto. split; [lra|].
  split; [destruct C4, B4, A4|destruct C5, B5, A5]; subst; tauto.
Qed.


Lemma floor_cell h x : 0 < h -> forall i, in_cell h x i <-> i = Zfloor (x / h).
Proof.
  intros H i. unfold in_cell. split.
  - intros [A B]. symmetry. apply Zfloor_imp. rewrite plus_IZR.
    split; [apply Rmult_le_reg_r with h|apply Rmult_lt_reg_r with h]; auto;
    unfold Rdiv; rewrite Rmult_assoc, Rinv_l, Rmult_1_r by lra; auto.
  - intros ->. pose proof (Zfloor_lb (x / h)). pose proof (Zfloor_ub (x / h)).
    assert (E : x / h * h = x) by (field; lra).
    split; [rewrite <- E at 2|rewrite <- E at 1].
    + apply Rmult_le_compat_r; lra.
    + apply Rmult_lt_compat_r; lra.
Qed.

Lemma cell_bounds1_ok a b c d h : 0 < h ->
  let o := fst (cell_bounds1 a b c d h) in let w := snd (cell_bounds1 a b c d h) in
  (forall x i, Rmin (Rmin a b) (Rmin c d) <= x <= Rmax (Rmax a b) (Rmax c d) ->
     in_cell h x i -> in_range i o w) /\ (exists x, (x = a \/ x = b \/ x = c \/ x = d) /\ in_cell h x o) /\ (exists x, (x = a \/ x = b \/ x = c \/ x = d) /\ in_cell h x (o + w - 1)%Z) /\ (0 < w)%Z.
Proof.
  intro H. unfold cell_bounds1. destruct (minmax4 a b c d) as (mn & mx & -> & M & E1 & E2). rn. cbn [fst snd].
  replace (mx - mn + mn) with mx by ring. cbv zeta.
  set (o := Zfloor (mn / h)). set (e := Zfloor (mx / h)).
  assert (MONO : forall x y, x <= y -> (Zfloor (x / h) <= Zfloor (y / h))%Z).
  { intros x y L. apply Zfloor_le. unfold Rdiv. apply Rmult_le_compat_r; auto. left. now apply Rinv_0_lt_compat. }
  assert (LO : mn = Rmin (Rmin a b) (Rmin c d)).
  { apply Rle_antisym; [repeat apply Rmin_glb; lra|].
    assert (Rmin (Rmin a b) (Rmin c d) <= Rmin a b) by apply Rmin_l.
    assert (Rmin (Rmin a b) (Rmin c d) <= Rmin c d) by apply Rmin_r.
    pose proof (Rmin_l a b). pose proof (Rmin_r a b). pose proof (Rmin_l c d). pose proof (Rmin_r c d).
    destruct E1 as [-> | [-> | [-> | ->]]]; lra. }
  assert (HI : mx = Rmax (Rmax a b) (Rmax c d)).
  { apply Rle_antisym; [|repeat apply Rmax_lub; lra].
    assert (Rmax a b <= Rmax (Rmax a b) (Rmax c d)) by apply Rmax_l.
    assert (Rmax c d <= Rmax (Rmax a b) (Rmax c d)) by apply Rmax_r.
    pose proof (Rmax_l a b). pose proof (Rmax_r a b). pose proof (Rmax_l c d). pose proof (Rmax_r c d).
    destruct E2 as [-> | [-> | [-> | ->]]]; lra. }
  assert (MM : (o <= e)%Z) by (apply MONO; lra).
  split; [|split; [|split]].
  - intros x i L I. apply floor_cell in I; auto. subst i. rewrite <- LO, <- HI in L.
    unfold in_range. pose proof (MONO mn x). pose proof (MONO x mx). fold o in H0. fold e in H1.
    specialize (H0 ltac:(lra)). specialize (H1 ltac:(lra)). lia.
  - exists mn. split; auto. apply floor_cell; auto.
  - exists mx. split; auto. apply floor_cell; auto. fold e. lia.
  - lia.
Qed.

Lemma combine_range (f : point -> R) w1 w2 w3 w4 p q r s :
  (forall x y, f (padd x y) = f x + f y) -> (forall k x, f (pscale k x) = k * f x) ->
  0 <= w1 -> 0 <= w2 -> 0 <= w3 -> 0 <= w4 -> w1 + w2 + w3 + w4 = 1 ->
  Rmin (Rmin (f p) (f q)) (Rmin (f r) (f s)) <= f (combine w1 w2 w3 w4 p q r s)
    <= Rmax (Rmax (f p) (f q)) (Rmax (f r) (f s)).
Proof.
  intros FA FS H1 H2 H3 H4 W. unfold combine. rewrite !FA, !FS.
  set (a := f p). set (b := f q). set (c := f r). set (d := f s).
  set (lo := Rmin (Rmin a b) (Rmin c d)). set (hi := Rmax (Rmax a b) (Rmax c d)).
  assert (K1 : lo <= Rmin a b) by apply Rmin_l.
  assert (K2 : lo <= Rmin c d) by apply Rmin_r.
  pose proof (Rmin_l a b). pose proof (Rmin_r a b). pose proof (Rmin_l c d). pose proof (Rmin_r c d).
  assert (K3 : Rmax a b <= hi) by apply Rmax_l.
  assert (K4 : Rmax c d <= hi) by apply Rmax_r.
  pose proof (Rmax_l a b). pose proof (Rmax_r a b). pose proof (Rmax_l c d). pose proof (Rmax_r c d).
  assert (LB : forall w x, 0 <= w -> lo <= x -> w * lo <= w * x) by (intros; apply Rmult_le_compat_l; auto).
  assert (UB : forall w x, 0 <= w -> x <= hi -> w * x <= w * hi) by (intros; apply Rmult_le_compat_l; auto).
  pose proof (LB w1 a H1 ltac:(lra)). pose proof (LB w2 b H2 ltac:(lra)).
  pose proof (LB w3 c H3 ltac:(lra)). pose proof (LB w4 d H4 ltac:(lra)).
  pose proof (UB w1 a H1 ltac:(lra)). pose proof (UB w2 b H2 ltac:(lra)).
  pose proof (UB w3 c H3 ltac:(lra)). pose proof (UB w4 d H4 ltac:(lra)).
  assert (lo = w1 * lo + w2 * lo + w3 * lo + w4 * lo) by (rewrite <- !Rmult_plus_distr_r, W; ring).
  assert (hi = w1 * hi + w2 * hi + w3 * hi + w4 * hi) by (rewrite <- !Rmult_plus_distr_r, W; ring).
  lra.
Qed.


Lemma cell_bounds_contain (t : tetra R) h : 0 < h ->
  forall p c, in_tetra p (tup (c0 t)) (tup (c1 t)) (tup (c2 t)) (tup (c3 t)) -> in_cell3 h p c ->
    in_box c (tup (origin (tetra_cell_bounds t h))) (tup (width (tetra_cell_bounds t h))).
Proof.
  intros H p c (w1 & w2 & w3 & w4 & H1 & H2 & H3 & H4 & W & E) I.
  pose (fx := fun q : point => fst (fst q)). pose (fy := fun q : point => snd (fst q)). pose (fz := fun q : point => snd q).
  assert (AX : forall x y, fx (padd x y) = fx x + fx y) by (intros [[? ?] ?] [[? ?] ?]; reflexivity).
  assert (AY : forall x y, fy (padd x y) = fy x + fy y) by (intros [[? ?] ?] [[? ?] ?]; reflexivity).
  assert (AZ : forall x y, fz (padd x y) = fz x + fz y) by (intros [[? ?] ?] [[? ?] ?]; reflexivity).
  assert (SX : forall k x, fx (pscale k x) = k * fx x) by (intros ? [[? ?] ?]; reflexivity).
  assert (SY : forall k x, fy (pscale k x) = k * fy x) by (intros ? [[? ?] ?]; reflexivity).
  assert (SZ : forall k x, fz (pscale k x) = k * fz x) by (intros ? [[? ?] ?]; reflexivity).
  pose proof (combine_range fx w1 w2 w3 w4 (tup (c0 t)) (tup (c1 t)) (tup (c2 t)) (tup (c3 t)) AX SX H1 H2 H3 H4 W) as RX.
  pose proof (combine_range fy w1 w2 w3 w4 (tup (c0 t)) (tup (c1 t)) (tup (c2 t)) (tup (c3 t)) AY SY H1 H2 H3 H4 W) as RY.
  pose proof (combine_range fz w1 w2 w3 w4 (tup (c0 t)) (tup (c1 t)) (tup (c2 t)) (tup (c3 t)) AZ SZ H1 H2 H3 H4 W) as RZ.
  rewrite <- E in RX, RY, RZ. destruct p as [[x y] z], c as [[i j] k].
  destruct I as (IX & IY & IZ). unfold fx, fy, fz, tup in RX, RY, RZ. cbn [fst snd] in RX, RY, RZ.
  unfold in_box, tup, tetra_cell_bounds. cbn [origin width v0 v1 v2].
  split; [|split].
  - destruct (cell_bounds1_ok (v0 (c0 t)) (v0 (c1 t)) (v0 (c2 t)) (v0 (c3 t)) h H) as (G & _). exact (G x i RX IX).
  - destruct (cell_bounds1_ok (v1 (c0 t)) (v1 (c1 t)) (v1 (c2 t)) (v1 (c3 t)) h H) as (G & _). exact (G y j RY IY).
  - destruct (cell_bounds1_ok (v2 (c0 t)) (v2 (c1 t)) (v2 (c2 t)) (v2 (c3 t)) h H) as (G & _). exact (G z k RZ IZ).
Qed.

(** Any box of cells that contains the four corners contains the returned box. *)
Lemma cell_bounds_least (t : tetra R) h (o w : cell) : 0 < h ->
  (forall p c, In p [tup (c0 t); tup (c1 t); tup (c2 t); tup (c3 t)] -> in_cell3 h p c -> in_box c o w) ->
  forall c, in_box c (tup (origin (tetra_cell_bounds t h))) (tup (width (tetra_cell_bounds t h))) -> in_box c o w.
Proof.
  intros H BOX. destruct o as [[ox oy] oz], w as [[wx wy] wz].
  assert (FL : forall p, In p [tup (c0 t); tup (c1 t); tup (c2 t); tup (c3 t)] ->
    let '(x, y, z) := p in forall i j k, in_cell h x i -> in_cell h y j -> in_cell h z k ->
      in_range i ox wx /\ in_range j oy wy /\ in_range k oz wz).
  { intros [[x y] z] I i j k A B C. apply (BOX (x, y, z) (i, j, k) I). cbn. tauto. }
  assert (EX : forall x, exists i, in_cell h x i) by (intro x; exists (Zfloor (x / h)); apply floor_cell; auto).
  assert (GX : forall x i, (x = v0 (c0 t) \/ x = v0 (c1 t) \/ x = v0 (c2 t) \/ x = v0 (c3 t)) -> in_cell h x i -> in_range i ox wx).
  { intros x i D C.
    assert (exists q, In q [c0 t; c1 t; c2 t; c3 t] /\ x = v0 q) as (q & IQ & ->).
    { destruct D as [-> | [-> | [-> | ->]]]; eexists; (split; [|reflexivity]); cbn; tauto. }
    destruct (EX (v1 q)) as [j J], (EX (v2 q)) as [k K].
    refine (proj1 (FL (tup q) _ i j k C J K)). change (In (tup q) (map tup [c0 t; c1 t; c2 t; c3 t])). now apply in_map. }
  assert (GY : forall x i, (x = v1 (c0 t) \/ x = v1 (c1 t) \/ x = v1 (c2 t) \/ x = v1 (c3 t)) -> in_cell h x i -> in_range i oy wy).
  { intros x i D C.
    assert (exists q, In q [c0 t; c1 t; c2 t; c3 t] /\ x = v1 q) as (q & IQ & ->).
    { destruct D as [-> | [-> | [-> | ->]]]; eexists; (split; [|reflexivity]); cbn; tauto. }
    destruct (EX (v0 q)) as [j J], (EX (v2 q)) as [k K].
    refine (proj1 (proj2 (FL (tup q) _ j i k J C K))). change (In (tup q) (map tup [c0 t; c1 t; c2 t; c3 t])). now apply in_map. }
  assert (GZ : forall x i, (x = v2 (c0 t) \/ x = v2 (c1 t) \/ x = v2 (c2 t) \/ x = v2 (c3 t)) -> in_cell h x i -> in_range i oz wz).
  { intros x i D C.
    assert (exists q, In q [c0 t; c1 t; c2 t; c3 t] /\ x = v2 q) as (q & IQ & ->).
    { destruct D as [-> | [-> | [-> | ->]]]; eexists; (split; [|reflexivity]); cbn; tauto. }
    destruct (EX (v0 q)) as [j J], (EX (v1 q)) as [k K].
    refine (proj2 (proj2 (FL (tup q) _ j k i J K C))). change (In (tup q) (map tup [c0 t; c1 t; c2 t; c3 t])). now apply in_map. }
  intros [[i j] k]. unfold in_box, tup, tetra_cell_bounds. cbn [origin width v0 v1 v2]. intros (IX & IY & IZ).
  destruct (cell_bounds1_ok (v0 (c0 t)) (v0 (c1 t)) (v0 (c2 t)) (v0 (c3 t)) h H) as (_ & (x1 & X1 & X1') & (x2 & X2 & X2') & _).
  destruct (cell_bounds1_ok (v1 (c0 t)) (v1 (c1 t)) (v1 (c2 t)) (v1 (c3 t)) h H) as (_ & (y1 & Y1 & Y1') & (y2 & Y2 & Y2') & _).
  destruct (cell_bounds1_ok (v2 (c0 t)) (v2 (c1 t)) (v2 (c2 t)) (v2 (c3 t)) h H) as (_ & (z1 & Z1 & Z1') & (z2 & Z2 & Z2') & _).
  apply GX in X1'; auto. apply GX in X2'; auto. apply GY in Y1'; auto. apply GY in Y2'; auto.
  apply GZ in Z1'; auto. apply GZ in Z2'; auto. unfold in_range in *. lia.
Qed.

Lemma fold_six_all q : open_simplex q ->
  NoDup (map (fun f => f q) branches) /\ length branches = 6%nat /\
  Forall (fun f => open_cube (f q)) branches /\
  forall p, open_cube p ->
    (tup (fold_unit (unfold_v p)) = q <-> In p (map (fun f => f q) branches)).
Proof.
  intro H. split; [apply branches_distinct; auto|]. split; [reflexivity|].
  split; [apply branches_in_cube; auto|]. apply fold_six. auto.
Qed.

Lemma distribute_unit_tetra_inside (t : tetra R) ps : Forall unit_cube ps ->
  let us := distribute_unit ps in
  length (fst (distribute_tetra t us)) = length ps /\
  Forall (fun x => in_tetra (tup x) (tup (c0 t)) (tup (c1 t)) (tup (c2 t)) (tup (c3 t))) (fst (distribute_tetra t us)).
Proof.
  intros H us. destruct (distribute_tetra_inside t us (distribute_unit_simplex ps H)) as [L F].
  split; [rewrite L; apply map_length|exact F].
Qed.

Lemma bary_bad : exists a b c d : rv,
  tup (fst (tetra_barycenter (tetra_init tetra_zero a b c d))) <>
  pscale (/ 4) (padd (padd (tup a) (tup b)) (padd (tup c) (tup d))).
Proof.
  exists (V3 0 0 0), (V3 0 0 0), (V3 0 0 0), (V3 4 0 0).
  unfold tetra_barycenter, tetra_init, tup, pscale, padd; cbn [baryValid fst c0 c1 c2 c3 v0 v1 v2]; rn.
  intro H. apply trip_eq in H. lra.
Qed.

Lemma contains_inside_history cs a b c d v :
  last_corners (corners tetra_zero) cs = (a, b, c, d) ->
  odet (tup a) (tup b) (tup c) (tup d) <> 0 ->
  in_tetra_open (tup v) (tup a) (tup b) (tup c) (tup d) ->
  fst (tetra_contains (trun tetra_zero cs) v) = true.
Proof.
  intros L N (w1 & w2 & w3 & w4 & H1 & H2 & H3 & H4 & W & E).
  assert (Z0 : cache_ok tetra_zero) by (split; cbn; discriminate).
  destruct (trun_ok cs _ Z0) as [O C]. rewrite L in C. unfold corners in C. injection C as <- <- <- <-.
  exact (contains_inside _ v O w1 w2 w3 w4 H1 H2 H3 H4 W E N).
Qed.

Lemma contains_outside_history cs a b c d v :
  last_corners (corners tetra_zero) cs = (a, b, c, d) ->
  odet (tup a) (tup b) (tup c) (tup d) <> 0 ->
  ~ in_tetra (tup v) (tup a) (tup b) (tup c) (tup d) ->
  fst (tetra_contains (trun tetra_zero cs) v) = false.
Proof.
  intros L N E. assert (Z0 : cache_ok tetra_zero) by (split; cbn; discriminate).
  destruct (trun_ok cs _ Z0) as [O C]. rewrite L in C. unfold corners in C. injection C as <- <- <- <-.
  exact (contains_outside _ v O N E).
Qed.

Lemma cell_bounds_example :
  let t := tetra_init tetra_zero (V3 0 0 0) (V3 3 0 0) (V3 0 1 0) (V3 0 0 (-1)) in
  tup (origin (tetra_cell_bounds t 2)) = (0, 0, -1)%Z /\ tup (width (tetra_cell_bounds t 2)) = (2, 1, 2)%Z.
Proof.
  cbv zeta. unfold tetra_cell_bounds, tetra_init, cell_bounds1, minmax_step, tup;
  cbn [c0 c1 c2 c3 v0 v1 v2 origin width]; rn.
  assert (F0 : Zfloor (0 / 2) = 0%Z) by (apply Zfloor_imp; cbn; lra).
  repeat (match goal with |- context [Rlt_bool ?a ?b] =>
    first [rewrite (Rlt_bool_true a b) by lra | rewrite (Rlt_bool_false a b) by lra] end; cbv iota beta).
  cbn [fst snd].
  replace (3 - 0 + 0) with 3 by ring. replace (1 - 0 + 0) with 1 by ring. replace (0 - -1 + -1) with 0 by ring.
  rewrite (Zfloor_imp 1 (3 / 2)) by (cbn; lra). rewrite (Zfloor_imp 0 (1 / 2)) by (cbn; lra).
  rewrite (Zfloor_imp (-1) (-1 / 2)) by (cbn; lra). rewrite F0. split; reflexivity.
Qed.
