(** Row operations on determinants. *)
From Coq Require Import ZArith List Lia Lra Bool Reals Psatz.
From Coq Require Import ZifyBool ZifyNat.
From Verif Require Import Spec.Matrix Proof.SumP.
Open Scope R_scope.

Definition sgn (r : Z) : R := if Z.even r then 1 else -1.
Definition skip (r i : Z) : Z := if (i <? r)%Z then i else (i + 1)%Z.

Lemma sgn_succ r : sgn (r + 1) = - sgn r.
Proof. unfold sgn. rewrite Z.even_add. cbn. destruct (Z.even r); cbn; lra. Qed.

Lemma det_S m A : det (S m) A = sum 0 (Z.of_nat (S m)) (fun r => sgn r * A r 0%Z * det m (minor A r)).
Proof. reflexivity. Qed.

Lemma det_ext n : forall A B, (forall i j, (0 <= i < Z.of_nat n)%Z -> (0 <= j < Z.of_nat n)%Z -> A i j = B i j) -> det n A = det n B.
Proof.
  induction n as [|m IH]; intros A B H; [reflexivity|]. rewrite !det_S. apply sum_ext. intros r Hr.
  rewrite H by lia. f_equal. apply IH. intros i j Hi Hj. unfold minor. apply H; [|lia].
  destruct (Z.ltb_spec i r); lia.
Qed.

Definition setrow (A : Z -> Z -> R) (a : Z) (u : Z -> R) (i j : Z) : R := if (i =? a)%Z then u j else A i j.

Lemma det_row_lin n : forall A a u v c, (0 <= a < Z.of_nat n)%Z ->
  det n (setrow A a (fun j => u j + c * v j)) = det n (setrow A a u) + c * det n (setrow A a v).
Proof.
  induction n as [|m IH]; intros A a u v c Ha; [lia|]. rewrite !det_S, <- sum_scal, <- sum_plus.
  apply sum_ext. intros r Hr. destruct (Z.eq_dec r a) as [->|NE].
  - assert (forall w, det m (minor (setrow A a w) a) = det m (minor A a)) as E.
    { intros w. apply det_ext. intros i j Hi Hj. unfold minor, setrow.
      destruct (Z.ltb_spec i a); [destruct (Z.eqb_spec i a)|destruct (Z.eqb_spec (i + 1) a)]; auto; lia. }
    rewrite !E. unfold setrow. rewrite !Z.eqb_refl. ring.
  - set (a' := if (a <? r)%Z then a else (a - 1)%Z).
    assert (forall w, det m (minor (setrow A a w) r) = det m (setrow (minor A r) a' (fun j => w (j + 1)%Z))) as E.
    { intros w. apply det_ext. intros i j Hi Hj. unfold minor, setrow, a'.
      destruct (Z.ltb_spec i r), (Z.ltb_spec a r);
        match goal with |- (if (?p =? ?q)%Z then _ else _) = (if (?s =? ?t)%Z then _ else _) =>
          destruct (Z.eqb_spec p q), (Z.eqb_spec s t) end; auto; lia. }
    rewrite !E. rewrite (IH (minor A r) a' (fun j => u (j + 1)%Z) (fun j => v (j + 1)%Z) c)
      by (unfold a'; destruct (Z.ltb_spec a r); lia).
    assert (forall w, setrow A a w r 0%Z = A r 0%Z) as E0
      by (intros w; unfold setrow; destruct (Z.eqb_spec r a); [lia|auto]).
    rewrite !E0. ring.
Qed.

Lemma det_swap_adj n : forall A a, (0 <= a)%Z -> (a + 1 < Z.of_nat n)%Z ->
  det n (fun i j => A (transp a (a + 1) i) j) = - det n A.
Proof.
  induction n as [|m IH]; intros A a H0 H1; [lia|]. rewrite !det_S.
  set (T := transp a (a + 1)). set (N := Z.of_nat (S m)) in *.
  assert (forall r, r <> a -> r <> (a + 1)%Z -> T r = r) as TO.
  { intros r R1 R2. unfold T, transp. destruct (Z.eqb_spec r a), (Z.eqb_spec r (a + 1)); lia. }
  assert (T a = (a + 1)%Z) as TA by (unfold T, transp; now rewrite Z.eqb_refl).
  assert (T (a + 1)%Z = a) as TB by (unfold T, transp; destruct (Z.eqb_spec (a + 1) a); [lia|]; now rewrite Z.eqb_refl).
  assert (forall r, (0 <= r < N)%Z -> r <> a -> r <> (a + 1)%Z ->
    sgn r * A (T r) 0%Z * det m (minor (fun i j => A (T i) j) r) = - (sgn r * A r 0%Z * det m (minor A r))) as O.
  { intros r Hr R1 R2. rewrite TO by auto.
    set (b := if (r <? a)%Z then (a - 1)%Z else a).
    rewrite (det_ext m _ (fun i j => minor A r (transp b (b + 1) i) j)).
    - rewrite IH; [ring| |]; unfold b; destruct (Z.ltb_spec r a); lia.
    - intros i j Hi Hj. unfold minor, T, transp, b. f_equal.
      destruct (Z.ltb_spec i r), (Z.ltb_spec r a);
        repeat match goal with |- context [(?p =? ?q)%Z] =>
          lazymatch p with context [if _ then _ else _] => fail | _ => destruct (Z.eqb_spec p q) end end;
        try lia;
        repeat match goal with |- context [(?p <? ?q)%Z] => destruct (Z.ltb_spec p q) end; lia. }
  assert (det m (minor (fun i j => A (T i) j) a) = det m (minor A (a + 1))) as DA.
  { apply det_ext. intros i j Hi Hj. unfold minor. f_equal.
    destruct (Z.ltb_spec i a); [rewrite TO by lia; destruct (Z.ltb_spec i (a + 1)); lia|].
    destruct (Z.eq_dec i a) as [->|]; [rewrite TB; destruct (Z.ltb_spec a (a + 1)); lia|].
    rewrite TO by lia. destruct (Z.ltb_spec i (a + 1)); lia. }
  assert (det m (minor (fun i j => A (T i) j) (a + 1)) = det m (minor A a)) as DB.
  { apply det_ext. intros i j Hi Hj. unfold minor. f_equal.
    destruct (Z.ltb_spec i (a + 1)).
    - destruct (Z.eq_dec i a) as [->|]; [rewrite TA; destruct (Z.ltb_spec a a); lia|].
      rewrite TO by lia. destruct (Z.ltb_spec i a); lia.
    - rewrite TO by lia. destruct (Z.ltb_spec i a); lia. }
  assert (forall f, sum 0 N f = sum 0 a f + (f a + (f (a + 1)%Z + sum (a + 2) N f))) as SP.
  { intros f. rewrite (sum_split 0 a N) by lia. rewrite (sum_first a N) by lia. rewrite (sum_first (a + 1) N) by lia.
    replace (a + 1 + 1)%Z with (a + 2)%Z by lia. reflexivity. }
  rewrite !SP. rewrite TA, TB, DA, DB, sgn_succ.
  assert (forall f g lo hi, (forall k, (lo <= k < hi)%Z -> f k = - g k) -> sum lo hi f = - sum lo hi g) as SO.
  { intros f g lo hi H. rewrite <- sum_opp. apply sum_ext. auto. }
  rewrite (SO _ (fun r => sgn r * A r 0%Z * det m (minor A r)) 0%Z a) by (intros; apply O; lia).
  rewrite (SO _ (fun r => sgn r * A r 0%Z * det m (minor A r)) (a + 2)%Z N) by (intros; apply O; lia).
  ring.
Qed.

Lemma det_swap_lt n A a : (0 <= a)%Z -> forall d, (a + 1 + Z.of_nat d < Z.of_nat n)%Z ->
  det n (fun i j => A (transp a (a + 1 + Z.of_nat d) i) j) = - det n A.
Proof.
  intros Ha d. revert A. induction d as [|d IH]; intros A Hd.
  - rewrite <- (det_swap_adj n A a) by lia. replace (a + 1 + Z.of_nat 0)%Z with (a + 1)%Z by lia. reflexivity.
  - set (b := (a + 1 + Z.of_nat d)%Z) in *. replace (a + 1 + Z.of_nat (S d))%Z with (b + 1)%Z in * by lia.
    assert (forall i, transp a (b + 1) i = transp b (b + 1) (transp a b (transp b (b + 1) i))) as E.
    { intros i. unfold transp.
      repeat match goal with |- context [(?p =? ?q)%Z] =>
        lazymatch p with context [if _ then _ else _] => fail | _ => destruct (Z.eqb_spec p q); try lia end end. }
    rewrite (det_ext n _ (fun i j => (fun i j => (fun i j => A (transp b (b + 1) i) j) (transp a b i) j) (transp b (b + 1) i) j)).
    2:{ intros i j _ _. cbv beta. now rewrite E. }
    rewrite (det_swap_adj n (fun i j => (fun i j => A (transp b (b + 1) i) j) (transp a b i) j) b) by lia.
    rewrite (IH (fun i j => A (transp b (b + 1) i) j)) by lia.
    rewrite det_swap_adj by lia. ring.
Qed.

Lemma det_swap n A a b : (0 <= a < Z.of_nat n)%Z -> (0 <= b < Z.of_nat n)%Z -> a <> b ->
  det n (fun i j => A (transp a b i) j) = - det n A.
Proof.
  intros Ha Hb NE. destruct (Z_lt_le_dec a b).
  - rewrite <- (det_swap_lt n A a ltac:(lia) (Z.to_nat (b - a - 1))) by lia.
    replace (a + 1 + Z.of_nat (Z.to_nat (b - a - 1)))%Z with b by lia. reflexivity.
  - rewrite <- (det_swap_lt n A b ltac:(lia) (Z.to_nat (a - b - 1))) by lia.
    apply det_ext. intros i j _ _. f_equal. replace (b + 1 + Z.of_nat (Z.to_nat (a - b - 1)))%Z with a by lia.
    unfold transp. destruct (Z.eqb_spec i a), (Z.eqb_spec i b); lia.
Qed.

Lemma det_equal_rows n A a b : (0 <= a < Z.of_nat n)%Z -> (0 <= b < Z.of_nat n)%Z -> a <> b ->
  (forall j, (0 <= j < Z.of_nat n)%Z -> A a j = A b j) -> det n A = 0.
Proof.
  intros Ha Hb NE E. enough (det n A = - det n A) by lra. rewrite <- (det_swap n A a b) by auto.
  apply det_ext. intros i j Hi Hj. unfold transp. destruct (Z.eqb_spec i a) as [->|]; [auto|].
  destruct (Z.eqb_spec i b) as [->|]; auto. symmetry. auto.
Qed.

Lemma det_rowadd n A a b c : (0 <= a < Z.of_nat n)%Z -> (0 <= b < Z.of_nat n)%Z -> a <> b ->
  det n (setrow A a (fun j => A a j + c * A b j)) = det n A.
Proof.
  intros Ha Hb NE. rewrite (det_row_lin n A a (fun j => A a j) (fun j => A b j) c) by auto.
  rewrite (det_equal_rows n (setrow A a (fun j => A b j)) a b); auto.
  - rewrite Rmult_0_r, Rplus_0_r. apply det_ext. intros i j Hi Hj. unfold setrow. destruct (Z.eqb_spec i a); subst; auto.
  - intros j Hj. unfold setrow. rewrite Z.eqb_refl. destruct (Z.eqb_spec b a); [lia|auto].
Qed.

Lemma det_elim n A k c : (0 <= k < Z.of_nat n)%Z -> c k = 0 ->
  det n (fun i j => A i j - c i * A k j) = det n A.
Proof.
  intros Hk C0.
  assert (forall q, (q <= n)%nat -> det n (fun i j => A i j - (if (i <? Z.of_nat q)%Z then c i else 0) * A k j) = det n A) as K.
  { induction q as [|q IH]; intros Hq.
    - apply det_ext. intros i j Hi Hj. destruct (Z.ltb_spec i (Z.of_nat 0)); [lia|ring].
    - rewrite <- IH by lia. set (B := fun i j => A i j - (if (i <? Z.of_nat q)%Z then c i else 0) * A k j).
      destruct (Z.eq_dec k (Z.of_nat q)) as [E|NE].
      + apply det_ext. intros i j Hi Hj. unfold B. destruct (Z.ltb_spec i (Z.of_nat (S q))), (Z.ltb_spec i (Z.of_nat q)); try lia; auto.
        assert (i = k) by lia. subst i. rewrite C0. ring.
      + rewrite <- (det_rowadd n B (Z.of_nat q) k (- c (Z.of_nat q))) by lia.
        apply det_ext. intros i j Hi Hj. unfold setrow, B.
        destruct (Z.eqb_spec i (Z.of_nat q)) as [->|].
        * destruct (Z.ltb_spec (Z.of_nat q) (Z.of_nat (S q))), (Z.ltb_spec (Z.of_nat q) (Z.of_nat q)); try lia.
          destruct (Z.ltb_spec k (Z.of_nat q)); rewrite ?C0; ring.
        * destruct (Z.ltb_spec i (Z.of_nat (S q))), (Z.ltb_spec i (Z.of_nat q)); try lia; ring. }
  rewrite <- (K n) by lia. apply det_ext. intros i j Hi Hj. destruct (Z.ltb_spec i (Z.of_nat n)); [auto|lia].
Qed.

Fixpoint prod_n (n : nat) (f : Z -> R) : R := match n with O => 1 | S n => prod_n n f * f (Z.of_nat n) end.

Lemma prod_ext n f g : (forall i, (0 <= i < Z.of_nat n)%Z -> f i = g i) -> prod_n n f = prod_n n g.
Proof.
  induction n as [|n IH]; intros H; [reflexivity|]. cbn [prod_n]. rewrite IH by (intros; apply H; lia).
  rewrite (H (Z.of_nat n)) by lia. reflexivity.
Qed.

Lemma prod_first n : forall f, prod_n (S n) f = f 0%Z * prod_n n (fun i => f (i + 1)%Z).
Proof.
  induction n as [|n IH]; intros f; [cbn; ring|]. change (prod_n (S (S n)) f) with (prod_n (S n) f * f (Z.of_nat (S n))).
  rewrite IH. cbn [prod_n]. replace (Z.of_nat n + 1)%Z with (Z.of_nat (S n)) by lia. ring.
Qed.

Lemma det_upper n : forall A, (forall i j, (0 <= j < i)%Z -> (i < Z.of_nat n)%Z -> A i j = 0) -> det n A = prod_n n (fun i => A i i).
Proof.
  induction n as [|m IH]; intros A H; [reflexivity|]. rewrite det_S, prod_first.
  rewrite (sum_single 0 (Z.of_nat (S m)) _ 0%Z) by first [lia|intros k Hk NE; rewrite H by lia; ring].
  rewrite IH.
  - unfold sgn. cbn [Z.even]. rewrite Rmult_1_l. f_equal.
    apply prod_ext. intros i Hi. unfold minor. destruct (Z.ltb_spec i 0); [lia|auto].
  - intros i j Hj Hi. unfold minor. destruct (Z.ltb_spec i 0); [lia|]. apply H; lia.
Qed.
