(** Fermat's little theorem and the primality of the factors of 2^128 - 1. *)
From Coq Require Import ZArith List Lia Bool Znumtheory Permutation Zpow_facts.
From Coq Require Import ZifyBool ZifyNat.
Import ListNotations.
Open Scope Z_scope.

(** ** Trial division *)

Fixpoint no_divisor (n : Z) (k : nat) (d : Z) : bool :=
  match k with
  | O => true
  | S k' => negb (n mod d =? 0) && no_divisor n k' (d + 1)
  end.

Lemma no_divisor_spec n k : forall d, no_divisor n k d = true ->
  forall e, d <= e < d + Z.of_nat k -> n mod e <> 0.
Proof.
  induction k as [|k IH]; intros d H e He; [lia|]. cbn [no_divisor] in H.
  apply andb_prop in H. destruct H as [H1 H2].
  destruct (Z.eq_dec e d) as [->|N].
  - intro E. rewrite E in H1. discriminate.
  - apply (IH (d + 1) H2). lia.
Qed.

Lemma small_divisor n : 1 < n -> ~ prime n -> exists d, 1 < d /\ d * d <= n /\ (d | n).
Proof.
  intros H N. destruct (not_prime_divide n H N) as (d & [D1 D2] & [c Hc]).
  assert (0 < c) by nia. destruct (Z.le_gt_cases d c).
  - exists d. repeat split; try nia. now exists c.
  - exists c. repeat split; try nia. exists d. lia.
Qed.

Lemma trial_prime n k : 1 < n -> n < (Z.of_nat k + 2) * (Z.of_nat k + 2) ->
  no_divisor n k 2 = true -> prime n.
Proof.
  intros H1 H2 T. destruct (prime_dec n) as [|N]; auto. exfalso.
  destruct (small_divisor n H1 N) as (d & D1 & D2 & D3).
  apply (no_divisor_spec n k 2 T d); [nia|]. apply Zdivide_mod. auto.
Qed.

Lemma prime_factor d : 1 < d -> exists q, prime q /\ (q | d).
Proof.
  intros D1. assert (D0 : 0 <= d) by lia. revert D0 D1. revert d.
  apply (Z_lt_induction (fun d => 1 < d -> exists q, prime q /\ (q | d))).
  intros x IH Hx. destruct (prime_dec x) as [P|P]; [exists x; split; auto; apply Z.divide_refl|].
  destruct (not_prime_divide x Hx P) as (y & Hy & Dy).
  destruct (IH y ltac:(lia) ltac:(lia)) as (q & Pq & Dq). exists q. split; auto.
  now apply Z.divide_trans with y.
Qed.

(** ** Fermat *)

Definition lprod (l : list Z) : Z := fold_right Z.mul 1 l.

Lemma lprod_perm l l' : Permutation l l' -> lprod l = lprod l'.
Proof. induction 1; cbn [lprod fold_right] in *; unfold lprod in *; cbn [fold_right]; nia. Qed.

Definition residues (p : Z) : list Z := map Z.of_nat (seq 1 (Z.to_nat (p - 1))).

Lemma in_residues p x : In x (residues p) <-> 1 <= x < p.
Proof.
  unfold residues. rewrite in_map_iff. split.
  - intros (n & <- & H). apply in_seq in H. lia.
  - intros H. exists (Z.to_nat x). split; [lia|]. apply in_seq. lia.
Qed.

Lemma residues_nodup p : NoDup (residues p).
Proof.
  unfold residues. generalize (seq_NoDup (Z.to_nat (p - 1)) 1).
  generalize (seq 1 (Z.to_nat (p - 1))). induction 1; cbn [map]; constructor; auto.
  intro H1. apply in_map_iff in H1. destruct H1 as (y & E & Hy).
  apply Nat2Z.inj in E. subst. auto.
Qed.

Lemma residues_length p : length (residues p) = Z.to_nat (p - 1).
Proof. unfold residues. now rewrite map_length, seq_length. Qed.

Lemma NoDup_map_on {A B} (f : A -> B) l : NoDup l ->
  (forall x y, In x l -> In y l -> f x = f y -> x = y) -> NoDup (map f l).
Proof.
  induction 1 as [|a l H H1 IH]; intros I; cbn [map]; constructor.
  - intro K. apply in_map_iff in K. destruct K as (y & E & Hy).
    apply I in E; [subst; auto | right; auto | left; auto].
  - apply IH. intros x y Hx Hy. apply I; right; auto.
Qed.

Lemma lprod_map_mod a p l : 0 < p ->
  lprod (map (fun x => (a * x) mod p) l) mod p = (a ^ Z.of_nat (length l) * lprod l) mod p.
Proof.
  intros Hp. induction l as [|x l IH]; [reflexivity|].
  cbn [map length]. unfold lprod in *. cbn [fold_right].
  rewrite Zmult_mod, IH. rewrite Zmod_mod, <- Zmult_mod.
  f_equal. rewrite Nat2Z.inj_succ, Z.pow_succ_r by lia. ring.
Qed.

Lemma lprod_coprime p l : prime p -> (forall x, In x l -> 1 <= x < p) -> rel_prime (lprod l) p.
Proof.
  intros P. induction l as [|x l IH]; intros H; unfold lprod in *; cbn [fold_right].
  - apply rel_prime_1.
  - apply rel_prime_sym, rel_prime_mult; apply rel_prime_sym.
    + apply rel_prime_le_prime; auto. apply H. now left.
    + apply IH. intros y Hy. apply H. now right.
Qed.

Lemma fermat p a : prime p -> rel_prime a p -> (p | a ^ (p - 1) - 1).
Proof.
  intros P A. assert (1 < p) by (destruct P; auto).
  set (f := fun x => (a * x) mod p).
  assert (N : NoDup (map f (residues p))).
  { apply NoDup_map_on; [apply residues_nodup|]. intros x y Hx Hy E.
    apply in_residues in Hx, Hy. unfold f in E.
    assert (D : (p | a * (x - y))).
    { apply Zmod_divide; [lia|]. rewrite Z.mul_sub_distr_l, Zminus_mod, E, Z.sub_diag. reflexivity. }
    apply Gauss in D; [|now apply rel_prime_sym]. destruct D as [q Hq].
    assert (q = 0) by nia. subst q. lia. }
  assert (I : incl (map f (residues p)) (residues p)).
  { intros z Hz. apply in_map_iff in Hz. destruct Hz as (x & <- & Hx).
    apply in_residues in Hx. apply in_residues. unfold f.
    pose proof (Z.mod_pos_bound (a * x) p ltac:(lia)).
    assert ((a * x) mod p <> 0); [|lia]. intro E. apply Zmod_divide in E; [|lia].
    apply Gauss in E; [|now apply rel_prime_sym]. apply Z.divide_pos_le in E; lia. }
  assert (Pm : Permutation (map f (residues p)) (residues p)).
  { apply NoDup_Permutation_bis; auto. rewrite map_length. lia. }
  pose proof (lprod_map_mod a p (residues p) ltac:(lia)) as M. fold f in M.
  rewrite (lprod_perm _ _ Pm) in M. rewrite residues_length in M.
  rewrite Z2Nat.id in M by lia.
  assert (D : (p | lprod (residues p) * (a ^ (p - 1) - 1))).
  { apply Zmod_divide; [lia|].
    replace (lprod (residues p) * (a ^ (p - 1) - 1))
      with (a ^ (p - 1) * lprod (residues p) - lprod (residues p)) by ring.
    rewrite Zminus_mod, <- M, Z.sub_diag. reflexivity. }
  apply Gauss in D; auto. apply rel_prime_sym. apply lprod_coprime; auto.
  intros x Hx. now apply in_residues.
Qed.

(** ** Pocklington's criterion *)

Lemma pow_one_mult p a e k : 0 <= e -> 0 <= k -> (p | a ^ e - 1) -> (p | a ^ (e * k) - 1).
Proof.
  intros He Hk D. rewrite Z.pow_mul_r by lia. set (b := a ^ e) in *.
  revert Hk. revert k. apply natlike_ind.
  - exists 0. reflexivity.
  - intros k Hk IH. rewrite Z.pow_succ_r by lia.
    replace (b * b ^ k - 1) with (b * (b ^ k - 1) + (b - 1)) by ring.
    apply Z.divide_add_r; auto. now apply Z.divide_mul_r.
Qed.

(** If [r] is a prime factor of [n - 1] and [a] has the right powers modulo [n],
    every prime factor of [n] is one more than a multiple of [r]. *)
Lemma pocklington n r a m q : prime r -> n - 1 = r * m -> 0 < m ->
  (n | a ^ (n - 1) - 1) -> rel_prime (a ^ m - 1) n -> prime q -> (q | n) -> (r | q - 1).
Proof.
  intros R E M F G Q D. assert (1 < q) by (destruct Q; auto). assert (1 < r) by (destruct R; auto).
  assert (Fq : (q | a ^ (n - 1) - 1)) by (now apply Z.divide_trans with n).
  destruct (Zdivide_dec r (q - 1)) as [|N]; auto. exfalso.
  assert (Aq : rel_prime a q).
  { apply rel_prime_sym, prime_rel_prime; auto. intro K.
    assert (K1 : (q | 1)).
    { replace 1 with (a ^ (n - 1) - (a ^ (n - 1) - 1)) by ring. apply Z.divide_sub_r; auto.
      replace (n - 1) with (Z.succ (n - 2)) by lia. rewrite Z.pow_succ_r by nia.
      now apply Z.divide_mul_l. }
    apply Z.divide_1_r_nonneg in K1; lia. }
  pose proof (fermat q a Q Aq) as Ff.
  assert (C : rel_prime r (q - 1)) by (now apply prime_rel_prime).
  apply rel_prime_bezout in C. destruct C as [u v C].
  (* non-negative coefficients: V (q-1) = U r + 1 *)
  assert (X : exists U V, 0 <= U /\ 0 <= V /\ V * (q - 1) = U * r + 1).
  { exists (- u + (q - 1) * (Z.abs u + Z.abs v)), (v + r * (Z.abs u + Z.abs v)).
    repeat split; nia. }
  destruct X as (U & V & HU & HV & X).
  assert (P1 : (q | a ^ ((q - 1) * (V * m)) - 1)) by (apply pow_one_mult; auto; nia).
  assert (P2 : (q | a ^ ((n - 1) * U) - 1)) by (apply pow_one_mult; auto; nia).
  replace ((q - 1) * (V * m)) with (m + (n - 1) * U) in P1 by (rewrite E; nia).
  rewrite Z.pow_add_r in P1 by nia.
  assert (P3 : (q | a ^ m - 1)).
  { replace (a ^ m - 1) with (a ^ m * a ^ ((n - 1) * U) - 1 - a ^ m * (a ^ ((n - 1) * U) - 1)) by ring.
    apply Z.divide_sub_r; auto. now apply Z.divide_mul_r. }
  assert (K1 : (q | 1)).
  { destruct G as [_ _ G]. now apply G. }
  apply Z.divide_1_r_nonneg in K1; lia.
Qed.

(** Powers modulo [n] by repeated squaring. *)
Fixpoint pow_mod (a : Z) (e : positive) (n : Z) : Z :=
  match e with
  | xH => a mod n
  | xO e' => let b := pow_mod a e' n in (b * b) mod n
  | xI e' => let b := pow_mod a e' n in (a * ((b * b) mod n)) mod n
  end.

Lemma pow_mod_spec a e n : 0 < n -> pow_mod a e n = (a ^ Zpos e) mod n.
Proof.
  intros H. induction e as [e IH|e IH|]; cbn [pow_mod]; rewrite ?IH.
  - rewrite Pos2Z.inj_xI, Z.add_1_r, Z.pow_succ_r, Z.mul_comm with (n := 2), Z.pow_mul_r, Z.pow_2_r by lia.
    rewrite <- Zmult_mod. rewrite Zmult_mod_idemp_r. reflexivity.
  - rewrite Pos2Z.inj_xO, Z.mul_comm with (n := 2), Z.pow_mul_r, Z.pow_2_r by lia.
    now rewrite <- Zmult_mod.
  - now rewrite Z.pow_1_r.
Qed.

Lemma pow_mod_1 a e n : 1 < n -> pow_mod a e n = 1 -> (n | a ^ Zpos e - 1).
Proof.
  intros H E. rewrite pow_mod_spec in E by lia. apply Zmod_divide; [lia|].
  rewrite Zminus_mod, E. rewrite (Z.mod_small 1) by lia. reflexivity.
Qed.

Lemma pow_mod_coprime a e n u v : 1 < n -> u * (pow_mod a e n - 1) + v * n = 1 ->
  rel_prime (a ^ Zpos e - 1) n.
Proof.
  intros H E. rewrite pow_mod_spec in E by lia. apply bezout_rel_prime.
  apply Bezout_intro with u (v - u * (a ^ Zpos e / n)).
  pose proof (Z.div_mod (a ^ Zpos e) n ltac:(lia)). nia.
Qed.

(** ** The factors of 2^128 - 1 *)

Lemma prime_r : prime 2998279.
Proof. apply (trial_prime _ 1730); [lia|lia|]. vm_compute. reflexivity. Qed.

Lemma prime_373 : prime 373.
Proof. apply (trial_prime _ 18); [lia|lia|]. vm_compute. reflexivity. Qed.

Definition big : Z := 67280421310721.

Lemma prime_big : prime big.
Proof.
  destruct (prime_dec big) as [|N]; auto. exfalso.
  destruct (small_divisor big ltac:(reflexivity) N) as (d & D1 & D2 & D3).
  pose proof (prime_factor d D1) as Q.
  destruct Q as (q & Pq & Dq). assert (1 < q) by (destruct Pq; auto).
  assert (Db : (q | big)) by (now apply Z.divide_trans with d).
  apply Z.divide_pos_le in Dq; [|lia].
  assert (F : (big | 3 ^ (big - 1) - 1)) by (apply (pow_mod_1 3 67280421310720 big); reflexivity).
  assert (A : (2998279 | q - 1)).
  { apply (pocklington big 2998279 3 22439680 q prime_r); auto; try reflexivity.
    apply (pow_mod_coprime 3 22439680 big 47000331560307 (-42717961376404)); reflexivity. }
  assert (B : (373 | q - 1)).
  { apply (pocklington big 373 3 180376464640 q prime_373); auto; try reflexivity.
    apply (pow_mod_coprime 3 180376464640 big 20076373578344 (-19557386559839)); reflexivity. }
  assert (C : (2998279 * 373 | q - 1)).
  { destruct A as [c Hc]. rewrite Hc, Z.mul_comm in B. apply Gauss in B.
    - destruct B as [e He]. exists e. lia.
    - apply Zgcd_1_rel_prime. reflexivity. }
  apply Z.divide_pos_le in C; [|lia]. unfold big in D2. nia.
Qed.

Definition factors : list Z := [3; 5; 17; 257; 641; 65537; 274177; 6700417; big].

Lemma factors_product : lprod factors = 2 ^ 128 - 1.
Proof. reflexivity. Qed.

Lemma factors_prime q : In q factors -> prime q.
Proof.
  unfold factors. cbn [In].
  intros [<-|[<-|[<-|[<-|[<-|[<-|[<-|[<-|[<-|[]]]]]]]]]];
  [apply (trial_prime _ 1)|apply (trial_prime _ 1)|apply (trial_prime _ 3)|apply (trial_prime _ 15)
  |apply (trial_prime _ 24)|apply (trial_prime _ 255)|apply (trial_prime _ 522)
  |apply (trial_prime _ 2587)|exact prime_big]; (lia || (vm_compute; reflexivity)).
Qed.

(** A prime that divides a product of primes is one of them. *)
Lemma prime_among q l : prime q -> (forall p, In p l -> prime p) -> (q | lprod l) -> In q l.
Proof.
  intros Q. induction l as [|p l IH]; intros H D; unfold lprod in *; cbn [fold_right] in D.
  - apply Z.divide_1_r_nonneg in D; destruct Q; lia.
  - apply prime_mult in D; auto. destruct D as [D|D].
    + left. assert (prime p) by (apply H; now left). symmetry. now apply prime_div_prime.
    + right. apply IH; auto. intros x Hx. apply H. now right.
Qed.
