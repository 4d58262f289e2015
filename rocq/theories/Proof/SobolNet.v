(** The first two Sobol coordinates taken together. *)
From Coq Require Import ZArith List Lia Lra Bool Reals Btauto.
From Coq Require Import ZifyBool ZifyNat.
From Flocq Require Import Core BinarySingleNaN.
From Verif Require Import Base.Res Base.ResFacts Base.Num Base.IEEE Base.IEEER Model.Rand Spec.Streams
  Spec.Nets Proof.TausP Proof.SobolP Proof.Primes Proof.XorPeriod Proof.SobolQ.
Import ListNotations.
Open Scope Z_scope.

Ltac bits := apply Z.bits_inj; intro; rewrite ?Z.lxor_spec, ?Z.bits_0; btauto.

(** ** Elimination over GF(2): rows are (value, combination of arguments) *)

Fixpoint red (ps : list (Z * Z)) (xc : Z * Z) : Z * Z :=
  match ps with
  | [] => xc
  | (v, c) :: ps' =>
      red ps' (if Z.testbit (fst xc) (Z.log2 v) then (Z.lxor (fst xc) v, Z.lxor (snd xc) c) else xc)
  end.

Section Elim.
Variable im : Z -> Z.
Fixpoint build (n : nat) (j : Z) (ps : list (Z * Z)) (w : Z) : list (Z * Z) * Z :=
  match n with
  | O => (ps, w)
  | S n' => let xc := red ps (im j, 2 ^ j) in
      if fst xc =? 0 then build n' (j + 1) ps (snd xc) else build n' (j + 1) (ps ++ [xc]) w
  end.

Definition good (p : nat) : bool :=
  let '(ps, w) := build p 0 [] 0 in
  negb (w =? 0) && forallb (fun i => fst (red ps (2 ^ Z.of_nat i, 0)) =? 0) (seq 0 (p - 1)).

Variable f : Z -> Z.
Hypothesis fx : forall u v, f (Z.lxor u v) = Z.lxor (f u) (f v).
Variable p : nat.
Hypothesis fim : forall j, 0 <= j < Z.of_nat p -> f (2 ^ j) = im j.

Definition row (xc : Z * Z) : Prop := f (snd xc) = fst xc /\ 0 <= snd xc < 2 ^ Z.of_nat p.

Lemma red_keep ps : Forall row ps -> forall xc, 0 <= snd xc < 2 ^ Z.of_nat p ->
  Z.lxor (f (snd (red ps xc))) (fst (red ps xc)) = Z.lxor (f (snd xc)) (fst xc) /\
  0 <= snd (red ps xc) < 2 ^ Z.of_nat p.
Proof using fx. clear fim im.
  induction ps as [|[v c] ps IH]; intros F xc H; cbn [red]; [auto|].
  pose proof (Forall_inv F) as [F1 F2]. cbn [fst snd] in F1, F2. apply Forall_inv_tail in F.
  destruct (Z.testbit (fst xc) (Z.log2 v)); [|now apply IH].
  destruct (IH F (Z.lxor (fst xc) v, Z.lxor (snd xc) c)) as [A B].
  - cbn [snd]. apply lxor_low; auto; lia.
  - split; auto. rewrite A. cbn [fst snd]. rewrite fx, F1. bits.
Qed.

Lemma f_zero : f 0 = 0.
Proof using fx. clear fim im. pose proof (fx 0 0) as H. rewrite (Z.lxor_nilpotent (f 0)) in H. exact H. Qed.

Lemma build_ok n : forall j ps w, 0 <= j -> j + Z.of_nat n <= Z.of_nat p ->
  Forall row ps -> row (0, w) ->
  Forall row (fst (build n j ps w)) /\ row (0, snd (build n j ps w)).
Proof using fx fim.
  induction n as [|n IH]; intros j ps w Hj Hn F W; cbn [build]; [auto|].
  assert (R : row (red ps (im j, 2 ^ j))).
  { destruct (red_keep ps F (im j, 2 ^ j)) as [A B].
    - cbn [snd]. split; [apply Z.pow_nonneg; lia|]. apply Z.pow_lt_mono_r; lia.
    - split; auto. cbn [fst snd] in A. rewrite fim, Z.lxor_nilpotent in A by lia.
      now apply Z.lxor_eq in A. }
  destruct (fst (red ps (im j, 2 ^ j)) =? 0) eqn:E; apply IH; auto; try lia.
  - destruct R as [A B]. apply Z.eqb_eq in E. split; cbn [fst snd]; auto. now rewrite A.
  - apply Forall_app. auto.
Qed.

Lemma good_ok : good p = true ->
  exists w (us : nat -> Z), w <> 0 /\ 0 <= w < 2 ^ Z.of_nat p /\ f w = 0 /\
    forall i, (i < p - 1)%nat -> 0 <= us i < 2 ^ Z.of_nat p /\ f (us i) = 2 ^ Z.of_nat i.
Proof using fx fim.
  unfold good. intros H.
  assert (P : 0 < 2 ^ Z.of_nat p) by (apply Z.pow_pos_nonneg; lia).
  destruct (build_ok p 0 [] 0) as [F W]; auto; try lia.
  { split; cbn [fst snd]; [apply f_zero|lia]. }
  destruct (build p 0 [] 0) as [ps w]. cbn [fst snd] in F, W.
  apply andb_prop in H. destruct H as [H1 H2]. rewrite forallb_forall in H2.
  exists w, (fun i => snd (red ps (2 ^ Z.of_nat i, 0))).
  destruct W as [W1 W2]. cbn [fst snd] in W1, W2. repeat split; auto; try lia.
  - destruct (red_keep ps F (2 ^ Z.of_nat i, 0)) as [_ B]; cbn [snd]; lia.
  - destruct (red_keep ps F (2 ^ Z.of_nat i, 0)) as [_ B]; cbn [snd]; lia.
  - destruct (red_keep ps F (2 ^ Z.of_nat i, 0)) as [A _]; [cbn [snd]; lia|].
    specialize (H2 i). rewrite in_seq in H2. specialize (H2 ltac:(lia)). apply Z.eqb_eq in H2.
    rewrite H2, Z.lxor_0_r in A. rewrite A. cbn [fst snd]. rewrite f_zero. apply Z.lxor_0_l.
Qed.

(** Arguments that combine to a given value. *)
Fixpoint comb (us : nat -> Z) (n : nat) (y : Z) : Z :=
  match n with
  | O => 0
  | S m => Z.lxor (comb us m y) (if Z.testbit y (Z.of_nat m) then us m else 0)
  end.

Lemma comb_ok us n : (forall i, (i < n)%nat -> 0 <= us i < 2 ^ Z.of_nat p /\ f (us i) = 2 ^ Z.of_nat i) ->
  forall y, 0 <= comb us n y < 2 ^ Z.of_nat p /\
  forall i, 0 <= i -> Z.testbit (f (comb us n y)) i = (i <? Z.of_nat n) && Z.testbit y i.
Proof using fx. clear fim im.
  assert (P : 0 < 2 ^ Z.of_nat p) by (apply Z.pow_pos_nonneg; lia).
  induction n as [|n IH]; intros H y; cbn [comb].
  - split; [lia|]. intros i Hi. rewrite f_zero, Z.bits_0.
    destruct (Z.ltb_spec i (Z.of_nat 0)); [lia|reflexivity].
  - destruct (IH ltac:(intros; apply H; lia) y) as [A B]. destruct (H n ltac:(lia)) as [C D].
    split.
    + apply lxor_low; auto; [lia|]. destruct (Z.testbit y (Z.of_nat n)); lia.
    + intros i Hi. rewrite fx, Z.lxor_spec, B by auto.
      destruct (Z.eq_dec i (Z.of_nat n)) as [->|N].
      * destruct (Z.ltb_spec (Z.of_nat n) (Z.of_nat n)); [lia|].
        destruct (Z.ltb_spec (Z.of_nat n) (Z.of_nat (S n))); [|lia]. cbn [andb].
        destruct (Z.testbit y (Z.of_nat n)); [rewrite D, Z.pow2_bits_true by lia; reflexivity|].
        rewrite f_zero, Z.bits_0. reflexivity.
      * assert (X : Z.testbit (f (if Z.testbit y (Z.of_nat n) then us n else 0)) i = false).
        { destruct (Z.testbit y (Z.of_nat n)).
          - rewrite D. apply Z.pow2_bits_false. lia.
          - rewrite f_zero. apply Z.bits_0. }
        rewrite X, xorb_false_r.
        destruct (Z.ltb_spec i (Z.of_nat n)), (Z.ltb_spec i (Z.of_nat (S n))); auto; lia.
Qed.

Lemma comb_f us n y : (forall i, (i < n)%nat -> 0 <= us i < 2 ^ Z.of_nat p /\ f (us i) = 2 ^ Z.of_nat i) ->
  0 <= y < 2 ^ Z.of_nat n -> f (comb us n y) = y.
Proof using fx. clear fim im.
  intros H Hy. destruct (comb_ok us n H y) as [_ B]. apply Z.bits_inj'. intros i Hi.
  rewrite B by auto. destruct (Z.ltb_spec i (Z.of_nat n)); [reflexivity|].
  symmetry. destruct (Z.eq_dec y 0) as [->|]; [apply Z.bits_0|].
  apply Z.bits_above_log2; [lia|]. assert (Z.log2 y < Z.of_nat n) by (apply Z.log2_lt_pow2; lia). lia.
Qed.

(** Every value is taken exactly twice. *)
Lemma good_two : (1 <= p)%nat -> good p = true -> exists w, w <> 0 /\ 0 <= w < 2 ^ Z.of_nat p /\
  forall y, 0 <= y < 2 ^ Z.of_nat (p - 1) ->
    exists u0, 0 <= u0 < 2 ^ Z.of_nat p /\
      forall u, 0 <= u < 2 ^ Z.of_nat p -> f u = y <-> u = u0 \/ u = Z.lxor u0 w.
Proof using fx fim.
  intros Hp G. destruct (good_ok G) as (w & us & W0 & W1 & W2 & U).
  exists w. split; auto. split; auto.
  set (n := (p - 1)%nat) in *.
  assert (P : 0 < 2 ^ Z.of_nat n) by (apply Z.pow_pos_nonneg; lia).
  assert (PP : 2 ^ Z.of_nat p = 2 * 2 ^ Z.of_nat n).
  { replace (Z.of_nat p) with (Z.succ (Z.of_nat n)) by lia. apply Z.pow_succ_r. lia. }
  set (g := fun t => Z.lxor (comb us n (t / 2)) (if Z.odd t then w else 0)).
  assert (T2 : forall t, 0 <= t < 2 ^ Z.of_nat p -> 0 <= t / 2 < 2 ^ Z.of_nat n).
  { intros t Ht. split; [apply Z.div_pos; lia|]. apply Z.div_lt_upper_bound; lia. }
  assert (Fg : forall t, 0 <= t < 2 ^ Z.of_nat p -> f (g t) = t / 2).
  { intros t Ht. unfold g. rewrite fx, comb_f by auto.
    assert (Z0 : f (if Z.odd t then w else 0) = 0) by (destruct (Z.odd t); auto using f_zero).
    rewrite Z0. apply Z.lxor_0_r. }
  assert (S : forall u, 0 <= u < 2 ^ Z.of_nat p -> exists t, 0 <= t < 2 ^ Z.of_nat p /\ g t = u).
  { apply finite_surj.
    - intros t Ht. unfold g. apply lxor_low; [lia| |].
      + apply (comb_ok us n U).
      + destruct (Z.odd t); lia.
    - intros a b Ha Hb E. pose proof (Fg a Ha) as A. pose proof (Fg b Hb) as B.
      rewrite E in A. assert (H2 : a / 2 = b / 2) by congruence.
      unfold g in E. rewrite H2 in E.
      assert (E2 : (if Z.odd a then w else 0) = (if Z.odd b then w else 0)).
      { set (k := comb us n (b / 2)) in *. clearbody k.
        set (x := if Z.odd a then w else 0) in *. set (y := if Z.odd b then w else 0) in *.
        clearbody x y. apply Z.lxor_eq. apply (f_equal (Z.lxor k)) in E.
        rewrite <- !Z.lxor_assoc, Z.lxor_nilpotent, !Z.lxor_0_l in E. rewrite E.
        apply Z.lxor_nilpotent. }
      pose proof (Zdiv2_odd_eqn a) as A1. pose proof (Zdiv2_odd_eqn b) as B1.
      rewrite Z.div2_div in A1, B1.
      destruct (Z.odd a), (Z.odd b); try (exfalso; congruence); lia. }
  intros y Hy. exists (comb us n y). destruct (comb_ok us n U y) as [R _].
  split; auto. intros u Hu. split.
  - intros E. destruct (S u Hu) as (t & Ht & <-). rewrite Fg in E by auto. unfold g. rewrite E.
    destruct (Z.odd t); [right; reflexivity|left; apply Z.lxor_0_r].
  - intros [->| ->]; [now apply comb_f|]. rewrite fx, W2, Z.lxor_0_r. now apply comb_f.
Qed.
End Elim.

(** ** The two coordinates *)

Definition pair_im (a b j : Z) : Z :=
  Z.lxor (Z.shiftl (Z.shiftr (V 0 j) (30 - a)) b) (Z.shiftr (V 1 j) (30 - b)).

Definition pair_check : bool :=
  forallb (fun p => forallb (fun a => good (pair_im (Z.of_nat a) (Z.of_nat (p - 1 - a))) p)
                      (seq 0 p)) (seq 1 29).

Lemma pair_checked : pair_check = true.
Proof. vm_compute. reflexivity. Qed.

#[local] Opaque lin gray.
Definition pair_f (a b u : Z) : Z :=
  Z.lxor (Z.shiftl (Z.shiftr (lin 0 30 u) (30 - a)) b) (Z.shiftr (lin 1 30 u) (30 - b)).

Lemma pair_f_lxor a b u v : pair_f a b (Z.lxor u v) = Z.lxor (pair_f a b u) (pair_f a b v).
Proof.
  unfold pair_f. rewrite !lin_lxor, !Z.shiftr_lxor, Z.shiftl_lxor. bits.
Qed.

Lemma pair_f_im a b j : 0 <= j < 30 -> pair_f a b (2 ^ j) = pair_im a b j.
Proof.
  intros Hj. unfold pair_f, pair_im. rewrite !lin_pow2 by lia.
  destruct (Z.ltb_spec j (Z.of_nat 30)); [reflexivity|lia].
Qed.

(** The joined value says both parts. *)
Lemma join_eq b A B A' B' : 0 <= b -> 0 <= B < 2 ^ b -> 0 <= B' < 2 ^ b ->
  Z.lxor (Z.shiftl A b) B = Z.lxor (Z.shiftl A' b) B' <-> A = A' /\ B = B'.
Proof.
  intros Hb H H'. rewrite !Z.shiftl_mul_pow2 by lia. rewrite <- !add_low by lia. split.
  - intros E. assert (A = A') by nia. subst. lia.
  - intros [-> ->]. reflexivity.
Qed.

Lemma shiftr_word_range k a u : 0 <= k < 6 -> 0 <= a <= 30 -> 0 <= Z.shiftr (lin k 30 u) (30 - a) < 2 ^ a.
Proof. intros Hk Ha. apply shiftr_range; auto. apply lin_range; [auto|lia]. Qed.

Lemma join_range a b A B : 0 <= a -> 0 <= b -> 0 <= A < 2 ^ a -> 0 <= B < 2 ^ b ->
  0 <= Z.lxor (Z.shiftl A b) B < 2 ^ (a + b).
Proof.
  intros Ha Hb HA HB. rewrite Z.shiftl_mul_pow2 by lia. rewrite <- add_low by lia.
  rewrite Z.pow_add_r by lia. nia.
Qed.

Lemma gray_surj p u : 0 <= p -> 0 <= u < 2 ^ p -> exists r, 0 <= r < 2 ^ p /\ gray r = u.
Proof.
  intros Hp. apply finite_surj.
  - intros x Hx. now apply gray_range.
  - intros x y Hx Hy E. apply Z.lxor_eq. apply gray_zero.
    + apply Z.lxor_nonneg. lia.
    + rewrite gray_lxor, E. apply Z.lxor_nilpotent.
Qed.

Lemma gray_inj x y : 0 <= x -> 0 <= y -> gray x = gray y -> x = y.
Proof.
  intros Hx Hy E. apply Z.lxor_eq. apply gray_zero.
  - apply Z.lxor_nonneg. lia.
  - rewrite gray_lxor, E. apply Z.lxor_nilpotent.
Qed.

Lemma pair_two a b c ya yb : 0 <= a -> 0 <= b -> a + b <= 28 -> 0 <= c ->
  0 <= ya < 2 ^ a -> 0 <= yb < 2 ^ b ->
  exists m1 m2, m1 <> m2 /\
    c * 2 ^ (a + b + 1) <= m1 < (c + 1) * 2 ^ (a + b + 1) /\
    c * 2 ^ (a + b + 1) <= m2 < (c + 1) * 2 ^ (a + b + 1) /\
    forall m, c * 2 ^ (a + b + 1) <= m < (c + 1) * 2 ^ (a + b + 1) ->
      (Z.shiftr (word 0 m) (30 - a) = ya /\ Z.shiftr (word 1 m) (30 - b) = yb) <-> m = m1 \/ m = m2.
Proof.
  intros Ha Hb Hab Hc Hya Hyb.
  set (P := a + b + 1) in *. assert (HP : 1 <= P <= 29) by lia.
  set (p := Z.to_nat P). assert (Ep : Z.of_nat p = P) by lia.
  assert (P0 : 0 < 2 ^ P) by (apply Z.pow_pos_nonneg; lia).
  assert (G : good (pair_im a b) p = true).
  { pose proof pair_checked as C. unfold pair_check in C. rewrite forallb_forall in C.
    specialize (C p). rewrite in_seq in C. specialize (C ltac:(lia)).
    rewrite forallb_forall in C. specialize (C (Z.to_nat a)). rewrite in_seq in C.
    specialize (C ltac:(lia)). replace (Z.of_nat (Z.to_nat a)) with a in C by lia.
    replace (Z.of_nat (p - 1 - Z.to_nat a)) with b in C by lia. exact C. }
  destruct (good_two (pair_im a b) (pair_f a b) (pair_f_lxor a b) p) as (w & W0 & W1 & T); auto; try lia.
  { intros j Hj. apply pair_f_im. lia. }
  rewrite Ep in W1, T. replace (Z.of_nat (p - 1)) with (a + b) in T by lia.
  (* the shift common to the block *)
  set (K := Z.lxor (gray (c * 2 ^ P)) 1).
  set (Y := Z.lxor (Z.lxor (Z.shiftl ya b) yb) (pair_f a b K)).
  assert (KR : 0 <= pair_f a b K < 2 ^ (a + b)).
  { apply join_range; auto; apply shiftr_word_range; lia. }
  destruct (T Y) as (u0 & U0 & U).
  { apply lxor_low; auto; [lia|]. now apply join_range. }
  destruct (gray_surj P u0 ltac:(lia) U0) as (r1 & R1 & E1).
  destruct (gray_surj P (Z.lxor u0 w) ltac:(lia) ltac:(apply lxor_low; auto; lia)) as (r2 & R2 & E2).
  exists (c * 2 ^ P + r1), (c * 2 ^ P + r2).
  assert (N12 : r1 <> r2).
  { intros ->. rewrite E1 in E2. apply (f_equal (Z.lxor u0)) in E2.
    rewrite <- Z.lxor_assoc, Z.lxor_nilpotent, Z.lxor_0_l in E2. auto. }
  split; [lia|]. split; [lia|]. split; [lia|]. intros m Hm0. split.
  - intros [A B]. destruct (block P c m ltac:(lia) ltac:(lia)) as (r & R & X1 & X2).
    assert (Fu : pair_f a b (gray r) = Y).
    { unfold Y. rewrite <- A, <- B. fold (pair_f a b (Z.lxor (gray m) 1)).
      unfold word. fold (pair_f a b (Z.lxor (gray m) 1)). rewrite <- pair_f_lxor. f_equal.
      unfold K. rewrite X1, gray_lxor. bits. }
    apply U in Fu; [|apply gray_range; lia].
    destruct Fu as [Fu|Fu]; [left; rewrite <- E1 in Fu|right; rewrite <- E2 in Fu];
      apply gray_inj in Fu; lia.
  - intros Hm. 
    assert (X : exists r, 0 <= r < 2 ^ P /\ m = c * 2 ^ P + r /\ pair_f a b (gray r) = Y).
    { destruct Hm as [->| ->].
      - exists r1. repeat split; try lia. apply U; [|left; auto]. rewrite E1. auto.
      - exists r2. repeat split; try lia. apply U; [|right; auto]. rewrite E2. apply lxor_low; auto; lia. }
    destruct X as (r & R & -> & F).
    rewrite add_low by lia.
    assert (J : pair_f a b (Z.lxor (gray (Z.lxor (c * 2 ^ P) r)) 1) = Z.lxor (Z.shiftl ya b) yb).
    { replace (Z.lxor (gray (Z.lxor (c * 2 ^ P) r)) 1) with (Z.lxor (gray r) K).
      - rewrite pair_f_lxor, F. unfold Y. bits.
      - unfold K. rewrite gray_lxor. bits. }
    unfold pair_f in J. unfold word. eapply join_eq; [exact Hb| |exact Hyb|exact J].
    apply shiftr_word_range; lia.
Qed.

Lemma sobol_plane d n : 2 <= d <= 6 -> Z.of_nat n <= 2 ^ 30 - 2 ->
  exists s0 pts s, new_sobol = Ok s0 /\ draws (fun s => sobol_next s d) n s0 = Ok (pts, s) /\
    length pts = n /\
    forall p a b c, 0 <= a -> 0 <= b -> p = a + b + 1 -> 2 <= c * 2 ^ p ->
      (c + 1) * 2 ^ p <= Z.of_nat n + 2 ->
    forall ya yb, 0 <= ya < 2 ^ a -> 0 <= yb < 2 ^ b ->
      exists i1 i2, i1 <> i2 /\ c * 2 ^ p <= Z.of_nat i1 + 2 < (c + 1) * 2 ^ p /\
        c * 2 ^ p <= Z.of_nat i2 + 2 < (c + 1) * 2 ^ p /\
        forall i, c * 2 ^ p <= Z.of_nat i + 2 < (c + 1) * 2 ^ p ->
          (cell a ya (B2R (nth 0 (nth i pts []) (nofZ 0))) /\
           cell b yb (B2R (nth 1 (nth i pts []) (nofZ 0)))) <-> i = i1 \/ i = i2.
Proof.
  intros Hd Hn. destruct (sobol_points d n ltac:(lia) Hn) as (s0 & pts & s & E0 & E & L & C).
  exists s0, pts, s. split; auto. split; auto. split; auto.
  intros p a b c Ha Hb -> Hc Hlast ya yb Hya Hyb.
  assert (P0 : 0 < 2 ^ (a + b + 1)) by (apply Z.pow_pos_nonneg; lia).
  assert (C0 : 0 < c) by nia.
  assert (P28 : a + b <= 28).
  { destruct (Z.le_gt_cases (a + b) 28); auto. exfalso.
    assert (2 ^ 30 <= 2 ^ (a + b + 1)) by (apply Z.pow_le_mono_r; lia). nia. }
  destruct (pair_two a b c ya yb) as (m1 & m2 & N & M1 & M2 & M); auto; try lia.
  exists (Z.to_nat (m1 - 2)), (Z.to_nat (m2 - 2)). split; [lia|]. split; [lia|]. split; [lia|].
  intros i Hi. specialize (M (Z.of_nat i + 2) ltac:(lia)).
  pose proof (word_range 0 (Z.of_nat i + 2) ltac:(lia)) as R0.
  pose proof (word_range 1 (Z.of_nat i + 2) ltac:(lia)) as R1.
  rewrite (C i 0%nat), (C i 1%nat) by lia.
  change (Z.of_nat 0) with 0; change (Z.of_nat 1) with 1.
  rewrite cell_word by lia. rewrite cell_word by lia. rewrite M. lia.
Qed.
