(** How evenly the Sobol points are spread. *)
From Coq Require Import ZArith List Lia Lra Bool Reals Btauto.
From Coq Require Import ZifyBool ZifyNat.
From Flocq Require Import Core BinarySingleNaN.
From Verif Require Import Base.Res Base.ResFacts Base.Num Base.IEEE Base.IEEER Model.Rand Spec.Streams
  Spec.Nets Proof.TausP Proof.SobolP Proof.Primes.
Import ListNotations.
Open Scope Z_scope.

(** ** Finite sets of integers *)

Lemma finite_surj n (f : Z -> Z) : (forall x, 0 <= x < n -> 0 <= f x < n) ->
  (forall x y, 0 <= x < n -> 0 <= y < n -> f x = f y -> x = y) ->
  forall y, 0 <= y < n -> exists x, 0 <= x < n /\ f x = y.
Proof.
  intros R I y Hy.
  set (dom := map (fun x => x - 1) (residues (n + 1))).
  assert (D : forall x, In x dom <-> 0 <= x < n).
  { intros x. unfold dom. rewrite in_map_iff. split.
    - intros (z & <- & Hz). apply in_residues in Hz. lia.
    - intros H. exists (x + 1). split; [lia|]. apply in_residues. lia. }
  assert (ND : NoDup (map f dom)).
  { apply NoDup_map_on.
    - apply NoDup_map_on; [apply residues_nodup|]. intros; lia.
    - intros a b Ha Hb. apply D in Ha, Hb. auto. }
  assert (IN : In y (map f dom)).
  { apply (NoDup_length_incl (l' := dom) ND).
    - rewrite map_length. lia.
    - intros z Hz. apply in_map_iff in Hz. destruct Hz as (x & <- & Hx). apply D in Hx.
      apply D. auto.
    - now apply D. }
  apply in_map_iff in IN. destruct IN as (x & E & Hx). exists x. split; auto. now apply D.
Qed.

Lemma lxor_low p a b : 0 <= p -> 0 <= a < 2 ^ p -> 0 <= b < 2 ^ p -> 0 <= Z.lxor a b < 2 ^ p.
Proof.
  intros Hp Ha Hb. assert (P : 0 <= Z.lxor a b) by (apply Z.lxor_nonneg; lia). split; auto.
  destruct (Z.eq_dec (Z.lxor a b) 0) as [->|N]; [lia|].
  destruct (Z.eq_dec p 0) as [->|Np].
  { assert (a = 0) by (change (2 ^ 0) with 1 in *; lia).
    assert (b = 0) by (change (2 ^ 0) with 1 in *; lia). subst. now elim N. }
  assert (LA : forall z, 0 <= z < 2 ^ p -> Z.log2 z < p).
  { intros z Hz. destruct (Z.eq_dec z 0) as [->|]; [change (Z.log2 0) with 0; lia|].
    apply Z.log2_lt_pow2; lia. }
  apply Z.log2_lt_pow2; [lia|].
  pose proof (Z.log2_lxor a b ltac:(lia) ltac:(lia)). pose proof (LA a Ha). pose proof (LA b Hb). lia.
Qed.

(** ** One coordinate *)

(** An argument below 2^p is fixed by the top [p] bits of its image. *)
Lemma lin_top_zero k p u : 0 <= k < 6 -> 0 <= p <= 30 -> 0 <= u < 2 ^ p ->
  Z.shiftr (lin k 30 u) (30 - p) = 0 -> u = 0.
Proof.
  intros Hk Hp Hu E. destruct (Z.eq_dec u 0) as [|N]; auto. exfalso.
  assert (Hl : 0 <= Z.log2 u < p) by (split; [apply Z.log2_nonneg|apply Z.log2_lt_pow2; lia]).
  pose proof (lin_top k (Z.log2 u) u Hk ltac:(lia)) as T.
  assert (T1 : forall i, Z.log2 u < i -> Z.testbit u i = false).
  { intros i Hi. apply Z.bits_above_log2; lia. }
  specialize (T T1 30%nat ltac:(lia)).
  replace (29 - Z.log2 u) with (p - 1 - Z.log2 u + (30 - p)) in T by lia.
  rewrite <- Z.shiftr_spec, E, Z.bits_0, Z.bit_log2 in T by lia.
  destruct (Z.ltb_spec (Z.log2 u) (Z.of_nat 30)); [discriminate|lia].
Qed.

Lemma shiftr_range x p : 0 <= p <= 30 -> 0 <= x < 2 ^ 30 -> 0 <= Z.shiftr x (30 - p) < 2 ^ p.
Proof.
  intros Hp Hx. rewrite Z.shiftr_div_pow2 by lia.
  assert (0 < 2 ^ (30 - p)) by (apply Z.pow_pos_nonneg; lia). split.
  - apply Z.div_pos; lia.
  - apply Z.div_lt_upper_bound; [lia|]. rewrite <- Z.pow_add_r by lia.
    replace (30 - p + p) with 30 by lia. lia.
Qed.

(** The block of point numbers from c 2^p to (c + 1) 2^p. *)
Lemma block p c m : 0 <= p -> c * 2 ^ p <= m < (c + 1) * 2 ^ p ->
  exists r, 0 <= r < 2 ^ p /\ m = Z.lxor (c * 2 ^ p) r /\ m = c * 2 ^ p + r.
Proof.
  intros Hp Hm. exists (m - c * 2 ^ p). split; [lia|]. split; [|lia].
  rewrite <- add_low by lia. lia.
Qed.

#[local] Opaque lin gray.
Definition word (k m : Z) : Z := lin k 30 (Z.lxor (gray m) 1).

Lemma word_range k m : 0 <= k < 6 -> 0 <= word k m < 2 ^ 30.
Proof. intros Hk. apply lin_range; [auto|lia]. Qed.

Lemma word_lxor k m m' : Z.lxor (word k m) (word k m') = lin k 30 (gray (Z.lxor m m')).
Proof.
  unfold word. rewrite gray_lxor, !lin_lxor. apply Z.bits_inj. intro i. rewrite !Z.lxor_spec. btauto.
Qed.

Lemma lxor_zero_eq a b : Z.lxor a b = 0 -> a = b.
Proof. apply Z.lxor_eq. Qed.

Lemma word_top_inj k p c m m' : 0 <= k < 6 -> 0 <= p <= 30 -> 0 <= c ->
  c * 2 ^ p <= m < (c + 1) * 2 ^ p -> c * 2 ^ p <= m' < (c + 1) * 2 ^ p ->
  Z.shiftr (word k m) (30 - p) = Z.shiftr (word k m') (30 - p) -> m = m'.
Proof.
  intros Hk Hp Hc Hm Hm' E.
  destruct (block p c m ltac:(lia) Hm) as (r & R & E1 & _).
  destruct (block p c m' ltac:(lia) Hm') as (r' & R' & E1' & _).
  assert (X : Z.lxor m m' = Z.lxor r r').
  { rewrite E1, E1'. apply Z.bits_inj. intro i. rewrite !Z.lxor_spec. btauto. }
  assert (L : 0 <= Z.lxor r r' < 2 ^ p) by (apply lxor_low; auto; lia).
  apply lxor_zero_eq. rewrite X. apply gray_zero; [lia|].
  apply (lin_top_zero k p); auto.
  - apply gray_range; lia.
  - rewrite <- X, <- word_lxor, Z.shiftr_lxor, E. apply Z.lxor_nilpotent.
Qed.

Lemma word_top_surj k p c y : 0 <= k < 6 -> 0 <= p <= 30 -> 0 <= c -> 0 <= y < 2 ^ p ->
  exists m, c * 2 ^ p <= m < (c + 1) * 2 ^ p /\ Z.shiftr (word k m) (30 - p) = y.
Proof.
  intros Hk Hp Hc Hy.
  destruct (finite_surj (2 ^ p) (fun r => Z.shiftr (word k (c * 2 ^ p + r)) (30 - p))) with (y := y)
    as (r & Hr & E); auto.
  - intros x Hx. apply shiftr_range; auto. now apply word_range.
  - intros a b Ha Hb H. apply (word_top_inj k p c) in H; auto; lia.
  - exists (c * 2 ^ p + r). split; [lia|auto].
Qed.

Lemma cell_word p c X : 0 <= p <= 30 -> 0 <= X ->
  cell p c (IZR X * bpow radix2 (-30)) <-> Z.shiftr X (30 - p) = c.
Proof.
  intros Hp HX. unfold cell. rewrite Z.shiftr_div_pow2 by lia.
  assert (P : 0 < 2 ^ p) by (apply Z.pow_pos_nonneg; lia).
  assert (Q : 0 < 2 ^ (30 - p)) by (apply Z.pow_pos_nonneg; lia).
  assert (PQ : 2 ^ p * 2 ^ (30 - p) = 1073741824).
  { rewrite <- Z.pow_add_r by lia. replace (p + (30 - p)) with 30 by lia. reflexivity. }
  set (P2 := 2 ^ p) in *. set (Q2 := 2 ^ (30 - p)) in *. clearbody P2 Q2.
  assert (b30 : (bpow radix2 (-30) = / 1073741824)%R) by (simpl; reflexivity).
  rewrite b30.
  assert (PR : (0 < IZR P2)%R) by now apply IZR_lt.
  assert (PQR : (IZR P2 * IZR Q2 = 1073741824)%R) by (rewrite <- mult_IZR, PQ; reflexivity).
  assert (X1 : (IZR X * / 1073741824 * IZR P2 * IZR Q2 = IZR X)%R).
  { replace (IZR X * / 1073741824 * IZR P2 * IZR Q2)%R
      with (IZR X * / 1073741824 * (IZR P2 * IZR Q2))%R by ring. rewrite PQR. field. }
  assert (QR : (0 < IZR Q2)%R) by now apply IZR_lt.
  assert (S1 : (IZR c / IZR P2 <= IZR X * / 1073741824)%R <-> c * Q2 <= X).
  { split; intros H.
    - apply le_IZR. rewrite mult_IZR, <- X1. apply Rmult_le_compat_r; [lra|].
      apply Rmult_le_reg_r with (/ IZR P2)%R; [now apply Rinv_0_lt_compat|].
      rewrite (Rmult_assoc (IZR X * / 1073741824)%R), Rinv_r, Rmult_1_r by lra. exact H.
    - apply IZR_le in H. rewrite mult_IZR, <- X1 in H. apply Rmult_le_reg_r in H; [|lra].
      apply Rmult_le_reg_r with (IZR P2); [lra|]. unfold Rdiv. rewrite Rmult_assoc, Rinv_l by lra. lra. }
  assert (S2 : (IZR X * / 1073741824 < (IZR c + 1) / IZR P2)%R <-> X < (c + 1) * Q2).
  { split; intros H.
    - apply lt_IZR. rewrite mult_IZR, plus_IZR, <- X1. apply Rmult_lt_compat_r; [lra|].
      apply Rmult_lt_reg_r with (/ IZR P2)%R; [now apply Rinv_0_lt_compat|].
      rewrite (Rmult_assoc (IZR X * / 1073741824)%R), Rinv_r, Rmult_1_r by lra. exact H.
    - apply IZR_lt in H. rewrite mult_IZR, plus_IZR, <- X1 in H. apply Rmult_lt_reg_r in H; [|lra].
      apply Rmult_lt_reg_r with (IZR P2); [lra|]. replace ((IZR c + 1) / IZR P2 * IZR P2)%R with (IZR c + 1)%R by (field; lra). lra. }
  rewrite S1, S2. split.
  - intros [A B]. symmetry. apply Z.div_unique with (X - Q2 * c); lia.
  - intros <-. pose proof (Z.div_mod X Q2 ltac:(lia)). pose proof (Z.mod_pos_bound X Q2 ltac:(lia)). lia.
Qed.

(** The first [n] points of a new sequence. *)
Lemma sobol_points d n : 1 <= d <= 6 -> Z.of_nat n <= 2 ^ 30 - 2 ->
  exists s0 pts s, new_sobol = Ok s0 /\ draws (fun s => sobol_next s d) n s0 = Ok (pts, s) /\
    length pts = n /\
    forall i k, (i < n)%nat -> (Z.of_nat k < d) ->
      B2R (nth k (nth i pts []) (nofZ 0)) = (IZR (word (Z.of_nat k) (Z.of_nat i + 2)) * bpow radix2 (-30))%R.
Proof.
  intros Hd Hn.
  destruct (sobol_draws d 1 ltac:(lia) n 0 sobol0 ltac:(lia) ltac:(lia) (sst_init d ltac:(lia)))
    as (pts & s & E & L & _ & C).
  exists sobol0, pts, s. split; [apply new_sobol_eq|]. split; auto. split; auto.
  intros i k Hi Hk. destruct (C i ltac:(lia)) as [_ Ci].
  specialize (Ci (Z.of_nat k) ltac:(lia)). unfold zn in Ci. rewrite Nat2Z.id in Ci. rewrite Ci.
  unfold coord. replace (0 + 1 + Z.of_nat i + 1) with (Z.of_nat i + 2) by lia.
  fold (word (Z.of_nat k) (Z.of_nat i + 2)).
  destruct (fl_den _ (word_range (Z.of_nat k) (Z.of_nat i + 2) ltac:(lia))) as [_ B]. exact B.
Qed.

Lemma sobol_coordinate d n : 1 <= d <= 6 -> Z.of_nat n <= 2 ^ 30 - 2 ->
  exists s0 pts s, new_sobol = Ok s0 /\ draws (fun s => sobol_next s d) n s0 = Ok (pts, s) /\
    length pts = n /\
    forall k p c, Z.of_nat k < d -> 0 <= p -> 2 <= c * 2 ^ p -> (c + 1) * 2 ^ p <= Z.of_nat n + 2 ->
    forall y, 0 <= y < 2 ^ p ->
      exists i, c * 2 ^ p <= Z.of_nat i + 2 < (c + 1) * 2 ^ p /\
        forall j, c * 2 ^ p <= Z.of_nat j + 2 < (c + 1) * 2 ^ p ->
          cell p y (B2R (nth k (nth j pts []) (nofZ 0))) <-> j = i.
Proof.
  intros Hd Hn. destruct (sobol_points d n Hd Hn) as (s0 & pts & s & E0 & E & L & C).
  exists s0, pts, s. split; auto. split; auto. split; auto.
  intros k p c Hk Hp Hc Hlast y Hy.
  assert (P0 : 0 < 2 ^ p) by (apply Z.pow_pos_nonneg; lia).
  assert (C0 : 0 < c) by nia.
  assert (P30 : p <= 30).
  { destruct (Z.le_gt_cases p 30); auto. exfalso.
    assert (2 ^ 31 <= 2 ^ p) by (apply Z.pow_le_mono_r; lia). nia. }
  destruct (word_top_surj (Z.of_nat k) p c y) as (m & Hm & Em); auto; try lia.
  exists (Z.to_nat (m - 2)). split; [lia|]. intros j Hj.
  rewrite C by lia. rewrite cell_word by (try (apply word_range); lia). split.
  - intros Q. rewrite <- Em in Q. apply (word_top_inj (Z.of_nat k) p c) in Q; auto; lia.
  - intros ->. replace (Z.of_nat (Z.to_nat (m - 2)) + 2) with m by lia. auto.
Qed.

(** ** Coordinates three and four *)

Lemma second_bits : forallb (fun j => Bool.eqb (Z.testbit (V 2 j) 28) (Z.testbit (V 3 j) 28))
  (map Z.of_nat (seq 0 30)) = true.
Proof. vm_compute. reflexivity. Qed.

#[local] Transparent lin.
Lemma lin_second n u : (n <= 30)%nat -> Z.testbit (lin 2 n u) 28 = Z.testbit (lin 3 n u) 28.
Proof.
  induction n as [|n IH]; intros Hn; [reflexivity|]. cbn [lin]. rewrite !Z.lxor_spec, IH by lia.
  f_equal. destruct (Z.testbit u (Z.of_nat n)); [|reflexivity].
  pose proof second_bits as T. rewrite forallb_forall in T. apply Bool.eqb_prop, T.
  apply in_map_iff. exists n. split; auto. apply in_seq. lia.
Qed.

#[local] Opaque lin.
Lemma sobol_hole d n : 4 <= d <= 6 -> Z.of_nat n <= 2 ^ 30 - 2 ->
  exists s0 pts s, new_sobol = Ok s0 /\ draws (fun s => sobol_next s d) n s0 = Ok (pts, s) /\
    length pts = n /\
    Forall (fun p : list f64 => ~ (cell 2 0 (B2R (nth 2 p (nofZ 0))) /\ cell 2 1 (B2R (nth 3 p (nofZ 0))))) pts.
Proof.
  intros Hd Hn. destruct (sobol_points d n ltac:(lia) Hn) as (s0 & pts & s & E0 & E & L & C).
  exists s0, pts, s. split; auto. split; auto. split; auto.
  apply Forall_forall. intros p Hp. apply (In_nth _ _ []) in Hp. destruct Hp as (i & Hi & <-).
  cbv beta. rewrite (C i 2%nat), (C i 3%nat) by lia.
  pose proof (word_range 2 (Z.of_nat i + 2) ltac:(lia)) as W2.
  pose proof (word_range 3 (Z.of_nat i + 2) ltac:(lia)) as W3.
  change (Z.of_nat 2) with 2. change (Z.of_nat 3) with 3.
  rewrite cell_word by lia. rewrite cell_word by lia.
  intros [A B]. unfold word in A, B.
  pose proof (lin_second 30 (Z.lxor (gray (Z.of_nat i + 2)) 1) ltac:(lia)) as S.
  set (u := Z.lxor (gray (Z.of_nat i + 2)) 1) in *.
  apply (f_equal (fun z => Z.testbit z 0)) in A, B.
  rewrite Z.shiftr_spec in A, B by lia. change (0 + (30 - 2)) with 28 in A, B.
  rewrite S, B in A. discriminate.
Qed.
