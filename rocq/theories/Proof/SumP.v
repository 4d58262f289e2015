(** Finite sums. *)
From Coq Require Import ZArith List Lia Lra Bool Reals Psatz.
From Coq Require Import ZifyBool ZifyNat.
From Verif Require Import Spec.Matrix.
Import ListNotations.
Open Scope R_scope.

Lemma sum_nil lo hi f : (hi <= lo)%Z -> sum lo hi f = 0.
Proof. intros H. unfold sum. replace (Z.to_nat (hi - lo)) with O by lia. reflexivity. Qed.

Lemma sum_last lo hi f : (lo <= hi)%Z -> sum lo (hi + 1) f = sum lo hi f + f hi.
Proof.
  intros H. unfold sum. replace (Z.to_nat (hi + 1 - lo)) with (S (Z.to_nat (hi - lo))) by lia.
  cbn [sum_n]. f_equal. f_equal. lia.
Qed.

Lemma sum_last' lo hi f : (lo < hi)%Z -> sum lo hi f = sum lo (hi - 1) f + f (hi - 1)%Z.
Proof. intros H. rewrite <- sum_last by lia. f_equal. lia. Qed.

(** Induction on the upper limit. *)
Lemma sum_ind (P : Z -> R -> Prop) lo f : P lo 0 ->
  (forall k s, (lo <= k)%Z -> s = sum lo k f -> P k s -> P (k + 1)%Z (s + f k)) ->
  forall hi, (lo <= hi)%Z -> P hi (sum lo hi f).
Proof.
  intros H0 HS hi Hhi. replace hi with (lo + Z.of_nat (Z.to_nat (hi - lo)))%Z by lia.
  generalize (Z.to_nat (hi - lo)). induction n as [|n IH].
  - replace (lo + Z.of_nat 0)%Z with lo by lia. rewrite sum_nil by lia. auto.
  - replace (lo + Z.of_nat (S n))%Z with (lo + Z.of_nat n + 1)%Z by lia. rewrite sum_last by lia.
    apply HS; auto. lia.
Qed.

Lemma sum_ext lo hi f g : (forall k, (lo <= k < hi)%Z -> f k = g k) -> sum lo hi f = sum lo hi g.
Proof.
  intros H. destruct (Z_lt_le_dec hi lo); [rewrite !sum_nil by lia; auto|].
  cut (forall k, (lo <= k)%Z -> (k <= hi)%Z -> sum lo k f = sum lo k g); [intros K; apply K; lia|].
  intros k Hk. apply (sum_ind (fun k s => (k <= hi)%Z -> s = sum lo k g)); auto.
  - intros _. now rewrite sum_nil by lia.
  - intros q s Hq _ IH Hh. rewrite sum_last by lia. rewrite IH by lia. rewrite H by lia. auto.
Qed.

Lemma sum_const0 lo hi : sum lo hi (fun _ => 0) = 0.
Proof.
  destruct (Z_lt_le_dec hi lo); [rewrite sum_nil by lia; auto|].
  apply (sum_ind (fun _ s => s = 0)); auto. intros. lra.
Qed.

Lemma sum_zero lo hi f : (forall k, (lo <= k < hi)%Z -> f k = 0) -> sum lo hi f = 0.
Proof. intros H. rewrite (sum_ext lo hi f (fun _ => 0)) by auto. apply sum_const0. Qed.

Lemma sum_plus lo hi f g : sum lo hi (fun k => f k + g k) = sum lo hi f + sum lo hi g.
Proof.
  destruct (Z_lt_le_dec hi lo); [rewrite !sum_nil by lia; lra|].
  apply (sum_ind (fun k s => s = sum lo k f + sum lo k g)); auto.
  - rewrite !sum_nil by lia. lra.
  - intros k s Hk _ ->. rewrite !sum_last by lia. lra.
Qed.

Lemma sum_scal lo hi c f : sum lo hi (fun k => c * f k) = c * sum lo hi f.
Proof.
  destruct (Z_lt_le_dec hi lo); [rewrite !sum_nil by lia; lra|].
  apply (sum_ind (fun k s => s = c * sum lo k f)); auto.
  - rewrite !sum_nil by lia. lra.
  - intros k s Hk _ ->. rewrite !sum_last by lia. lra.
Qed.

Lemma sum_scal_r lo hi c f : sum lo hi (fun k => f k * c) = sum lo hi f * c.
Proof. rewrite Rmult_comm, <- sum_scal. apply sum_ext. intros; ring. Qed.

Lemma sum_minus lo hi f g : sum lo hi (fun k => f k - g k) = sum lo hi f - sum lo hi g.
Proof.
  transitivity (sum lo hi f + -1 * sum lo hi g); [|ring]. rewrite <- sum_scal, <- sum_plus.
  apply sum_ext; intros; ring.
Qed.

Lemma sum_split lo mid hi f : (lo <= mid <= hi)%Z -> sum lo hi f = sum lo mid f + sum mid hi f.
Proof.
  intros H. apply (sum_ind (fun k s => (lo <= mid <= k)%Z -> sum lo k f = sum lo mid f + s) mid f); auto; try lia.
  - intros _. lra.
  - intros k s Hk _ IH _. rewrite sum_last by lia. rewrite IH by lia. lra.
Qed.

Lemma sum_first lo hi f : (lo < hi)%Z -> sum lo hi f = f lo + sum (lo + 1) hi f.
Proof.
  intros H. rewrite (sum_split lo (lo + 1) hi) by lia. rewrite sum_last by lia. rewrite sum_nil by lia. lra.
Qed.

Lemma sum_swap lo hi lo' hi' f :
  sum lo hi (fun i => sum lo' hi' (fun j => f i j)) = sum lo' hi' (fun j => sum lo hi (fun i => f i j)).
Proof.
  destruct (Z_lt_le_dec hi lo).
  - rewrite sum_nil by lia. symmetry. apply sum_zero. intros; apply sum_nil; lia.
  - apply (sum_ind (fun k s => s = sum lo' hi' (fun j => sum lo k (fun i => f i j)))); auto.
    + symmetry. apply sum_zero. intros; apply sum_nil; lia.
    + intros k s Hk _ ->. rewrite <- sum_plus. apply sum_ext. intros. rewrite sum_last by lia. auto.
Qed.

(** Only one term. *)
Lemma sum_single lo hi f m : (lo <= m < hi)%Z -> (forall k, (lo <= k < hi)%Z -> k <> m -> f k = 0) ->
  sum lo hi f = f m.
Proof.
  intros Hm H. rewrite (sum_split lo m hi) by lia. rewrite (sum_first m hi) by lia.
  rewrite (sum_zero lo m) by (intros; apply H; lia). rewrite (sum_zero (m + 1) hi) by (intros; apply H; lia). lra.
Qed.

Lemma sum_shift lo hi c f : sum lo hi (fun k => f (k + c)%Z) = sum (lo + c) (hi + c) f.
Proof.
  destruct (Z_lt_le_dec hi lo); [rewrite !sum_nil by lia; lra|].
  apply (sum_ind (fun k s => s = sum (lo + c) (k + c) f)); auto.
  - rewrite sum_nil by lia. lra.
  - intros k s Hk _ ->. replace (k + 1 + c)%Z with (k + c + 1)%Z by lia. rewrite sum_last by lia. auto.
Qed.

Lemma sum_opp lo hi f : sum lo hi (fun k => - f k) = - sum lo hi f.
Proof. transitivity (-1 * sum lo hi f); [|ring]. rewrite <- sum_scal. apply sum_ext; intros; ring. Qed.

(** Terms that vanish outside a sub-range. *)
Lemma sum_sub lo hi lo' hi' f : (lo <= lo')%Z -> (lo' <= hi')%Z -> (hi' <= hi)%Z ->
  (forall k, (lo <= k < hi)%Z -> (k < lo' \/ hi' <= k)%Z -> f k = 0) -> sum lo hi f = sum lo' hi' f.
Proof.
  intros H1 H2 H3 H. rewrite (sum_split lo lo' hi), (sum_split lo' hi' hi) by lia.
  rewrite (sum_zero lo lo') by (intros; apply H; lia). rewrite (sum_zero hi' hi) by (intros; apply H; lia). lra.
Qed.

Lemma sum_nonneg lo hi f : (forall k, (lo <= k < hi)%Z -> 0 <= f k) -> 0 <= sum lo hi f.
Proof.
  intros H. destruct (Z_lt_le_dec hi lo); [rewrite sum_nil by lia; lra|].
  cut (forall k, (lo <= k)%Z -> (k <= hi)%Z -> 0 <= sum lo k f); [intros K; apply K; lia|].
  intros k Hk. apply (sum_ind (fun k s => (k <= hi)%Z -> 0 <= s)); auto; [intros; lra|].
  intros q s Hq _ IH Hh. specialize (IH ltac:(lia)). specialize (H q ltac:(lia)). lra.
Qed.

Lemma sum_nonneg_0 lo hi f : (forall k, (lo <= k < hi)%Z -> 0 <= f k) -> sum lo hi f = 0 ->
  forall k, (lo <= k < hi)%Z -> f k = 0.
Proof.
  intros H E k Hk. rewrite (sum_split lo k hi), (sum_first k hi) in E by lia.
  pose proof (sum_nonneg lo k f ltac:(intros; apply H; lia)).
  pose proof (sum_nonneg (k + 1) hi f ltac:(intros; apply H; lia)). specialize (H k Hk). lra.
Qed.
