(** Polynomials as coefficient lists: roots, substitution, derivatives. *)
From Coq Require Import ZArith List Lia Lra Bool Reals Psatz.
From Coq Require Import ZifyBool ZifyNat.
From Coquelicot Require Import Hierarchy Derive AutoDerive.
From Verif Require Import Base.Res Base.ResFacts Spec.Matrix Spec.Filtering Proof.SumP.
Import ListNotations.
Open Scope R_scope.

Definition all0 (l : list R) : Prop := forall a, In a l -> a = 0.

Lemma poly_div l r : exists q, length q = pred (length l) /\
  (forall t, poly l t = poly l r + (t - r) * poly q t) /\ (all0 q -> poly l r = 0 -> all0 l).
Proof.
  induction l as [|a l IH].
  - exists []. split; [reflexivity|]. split; [intros; cbn [poly]; ring|]. intros _ _ x [].
  - destruct l as [|b l].
    + exists []. split; [reflexivity|]. split; [intros; cbn [poly]; ring|]. intros _ E x [<-|[]]. cbn [poly] in E. lra.
    + destruct IH as [q [L [E Z]]]. exists (poly (b :: l) r :: q). split; [cbn [length pred] in *; lia|].
      split.
      * intros t. change (poly (a :: b :: l) t) with (a + t * poly (b :: l) t). change (poly (a :: b :: l) r) with (a + r * poly (b :: l) r).
        rewrite (E t). cbn [poly]. ring.
      * intros A P0. assert (poly (b :: l) r = 0) as P1 by (apply A; left; auto).
        change (poly (a :: b :: l) r) with (a + r * poly (b :: l) r) in P0. rewrite P1 in P0.
        intros x [<-|I]; [lra|]. apply Z; auto. intros y Iy. apply A. right; auto.
Qed.

Lemma poly_roots n : forall l (r : nat -> R), (length l <= n)%nat ->
  (forall i j, (i < j < n)%nat -> r i <> r j) -> (forall i, (i < n)%nat -> poly l (r i) = 0) -> all0 l.
Proof.
  induction n as [|n IH]; intros l r L D Z.
  - destruct l; [intros x []|cbn [length] in L; lia].
  - destruct (poly_div l (r n)) as [q [Lq [E A]]]. apply A; [|apply Z; lia].
    apply (IH q r); [lia|intros; apply D; lia|]. intros i Hi.
    pose proof (E (r i)) as Ei. rewrite (Z i), (Z n) in Ei by lia.
    assert (r i <> r n) by (apply D; lia). assert ((r i - r n) * poly q (r i) = 0) as P by lra.
    apply Rmult_integral in P. destruct P; [lra|auto].
Qed.

Lemma coord_cons_0 a l : coord (a :: l) 0 = a.
Proof. reflexivity. Qed.
Lemma coord_cons_S a l k : (0 <= k)%Z -> coord (a :: l) (k + 1) = coord l k.
Proof. intros H. unfold coord. now replace (Z.to_nat (k + 1)) with (S (Z.to_nat k)) by lia. Qed.

Lemma poly_sum l t : poly l t = sum 0 (zlen l) (fun j => coord l j * t ^ Z.to_nat j).
Proof.
  induction l as [|a l IH]; [reflexivity|]. cbn [poly]. rewrite zlen_cons.
  rewrite sum_first by (pose proof (zlen_nonneg l); lia). rewrite coord_cons_0. cbn [Z.to_nat pow]. rewrite IH, <- sum_scal.
  rewrite (Z.add_comm 1). change (0 + 1)%Z with (0 + 1)%Z. rewrite <- (sum_shift 0 (zlen l) 1).
  rewrite Rmult_1_r. f_equal. apply sum_ext. intros k Hk. rewrite coord_cons_S by lia.
  replace (Z.to_nat (k + 1)) with (S (Z.to_nat k)) by lia. cbn [pow]. ring.
Qed.

(** Multiplication by (x + h t), and substitution of x + h t. *)
Fixpoint padd (l m : list R) : list R :=
  match l, m with [], _ => m | _, [] => l | a :: l, b :: m => a + b :: padd l m end.

Lemma poly_padd l m t : poly (padd l m) t = poly l t + poly m t.
Proof. revert m. induction l as [|a l IH]; intros [|b m]; cbn [padd poly]; try ring. rewrite IH. ring. Qed.

Lemma length_padd l m : length (padd l m) = Nat.max (length l) (length m).
Proof. revert m. induction l as [|a l IH]; intros [|b m]; cbn [padd length Nat.max]; auto. Qed.

Lemma poly_map c l t : poly (map (Rmult c) l) t = c * poly l t.
Proof. induction l as [|a l IH]; cbn [map poly]; [ring|]. rewrite IH. ring. Qed.

Lemma poly_shift l x h : exists l', length l' = length l /\ forall t, poly l' t = poly l (x + h * t).
Proof.
  induction l as [|a l [l' [L E]]]; [exists []; split; reflexivity|].
  exists (padd (a :: map (Rmult h) l') (map (Rmult x) l')). split.
  - rewrite length_padd. cbn [length]. rewrite !map_length. lia.
  - intros t. rewrite poly_padd. cbn [poly]. rewrite !poly_map, E. ring.
Qed.

(** ** Derivatives *)
Lemma poly_dcoefs a : forall k t, poly (dcoefs k a) t = IZR k * poly a t + t * poly (dpoly a) t.
Proof.
  unfold dpoly. induction a as [|a0 a IH]; intros k t; cbn [dcoefs poly tl]; [ring|].
  rewrite IH, (IH 1%Z), plus_IZR. ring.
Qed.

Lemma poly_derive a t : is_derive (poly a) t (poly (dpoly a) t).
Proof.
  induction a as [|a0 a IH]; cbn [poly].
  - apply @is_derive_const.
  - unfold dpoly. cbn [tl]. rewrite poly_dcoefs.
    replace (1 * poly a t + t * poly (dpoly a) t) with (plus (@zero R_NormedModule) (1 * poly a t + t * poly (dpoly a) t))
      by (unfold plus, zero; cbn; ring).
    apply (is_derive_plus (fun _ => a0) (fun t => t * poly a t) t); [apply @is_derive_const|].
    apply (is_derive_mult (fun t => t) (poly a) t 1 (poly (dpoly a) t)); [apply @is_derive_id|exact IH].
Qed.

Lemma poly_comp_derive a x h c t : is_derive (fun t => c * poly a (x + h * t)) t (c * (h * poly (dpoly a) (x + h * t))).
Proof.
  apply (is_derive_scal (fun t => poly a (x + h * t)) t c).
  apply (is_derive_comp (poly a) (fun t => x + h * t) t (poly (dpoly a) (x + h * t)) h); [apply poly_derive|].
  auto_derive; [auto|ring].
Qed.

Lemma dpoly_n_shift d : forall a b x h c, (forall t, poly b t = c * poly a (x + h * t)) ->
  forall t, poly (dpoly_n d b) t = c * h ^ d * poly (dpoly_n d a) (x + h * t).
Proof.
  induction d as [|d IH]; intros a b x h c E t; cbn [dpoly_n pow]; [rewrite E; ring|].
  rewrite (IH (dpoly a) (dpoly b) x h (c * h)); [ring|]. intros u.
  pose proof (poly_derive b u) as D1. pose proof (poly_comp_derive a x h c u) as D2.
  apply (is_derive_ext _ (poly b)) in D2; [|intros; now rewrite E].
  apply is_derive_unique in D1. apply is_derive_unique in D2. rewrite <- D1, D2. ring.
Qed.

Lemma nth_dcoefs a : forall k j, nth j (dcoefs k a) 0 = IZR (k + Z.of_nat j) * nth j a 0.
Proof.
  induction a as [|a0 a IH]; intros k [|j]; cbn [dcoefs nth]; try ring.
  - now rewrite Z.add_0_r.
  - rewrite IH. do 2 f_equal. lia.
Qed.

Lemma nth_dpoly a j : nth j (dpoly a) 0 = INR (S j) * nth (S j) a 0.
Proof.
  unfold dpoly. rewrite nth_dcoefs. rewrite INR_IZR_INZ. destruct a; cbn [tl nth]; [destruct j; ring|]. do 2 f_equal. lia.
Qed.

Lemma nth_dpoly_n d : forall a j, INR (fact j) * nth j (dpoly_n d a) 0 = INR (fact (j + d)) * nth (j + d) a 0.
Proof.
  induction d as [|d IH]; intros a j; cbn [dpoly_n]; [now rewrite Nat.add_0_r|].
  rewrite IH, nth_dpoly. replace (j + S d)%nat with (S (j + d)) by lia.
  change (fact (S (j + d))) with ((S (j + d)) * fact (j + d))%nat. rewrite mult_INR. ring.
Qed.

Lemma poly_0 a : poly a 0 = nth 0 a 0.
Proof. destruct a; cbn [poly nth]; ring. Qed.

Lemma dpoly_n_0 d a : poly (dpoly_n d a) 0 = INR (fact d) * nth d a 0.
Proof. rewrite poly_0. pose proof (nth_dpoly_n d a 0) as E. cbn [Nat.add fact] in E. change (INR 1) with 1 in E. lra. Qed.
