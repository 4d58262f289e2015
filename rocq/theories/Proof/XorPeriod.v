(** The period of the Xorshift generator. *)
From Coq Require Import ZArith NArith List Lia Bool Znumtheory.
From Coq Require Import ZifyBool ZifyNat ZifyN.
From Verif Require Import Base.Res Base.ResFacts Base.Num Base.IEEE Model.Rand Spec.Streams
  Proof.XorshiftP Proof.Primes.
Import ListNotations.
Open Scope Z_scope.

(** ** The step is linear over GF(2) *)

Definition xadd (s t : xorst) : xorst :=
  XorSt (Z.lxor (xx s) (xx t)) (Z.lxor (xy s) (xy t)) (Z.lxor (xz s) (xz t)) (Z.lxor (xw s) (xw t)).
Definition xnil : xorst := XorSt 0 0 0 0.

Lemma xst_eq a b c d a' b' c' d' : a = a' -> b = b' -> c = c' -> d = d' ->
  XorSt a b c d = XorSt a' b' c' d'.
Proof. congruence. Qed.

Lemma shl32_lxor a b k : shl32 (Z.lxor a b) k = Z.lxor (shl32 a k) (shl32 b k).
Proof.
  unfold shl32. rewrite Z.shiftl_lxor. apply Z.bits_inj'. intros n Hn.
  rewrite Z.lxor_spec. destruct (Z.lt_ge_cases n 32).
  - rewrite !Z.mod_pow2_bits_low, Z.lxor_spec by lia. reflexivity.
  - rewrite !Z.mod_pow2_bits_high by lia. reflexivity.
Qed.

Ltac lx := apply Z.bits_inj'; intros ? ?; rewrite ?Z.lxor_spec;
  repeat match goal with |- context [Z.testbit ?a ?b] => destruct (Z.testbit a b) end; reflexivity.

Lemma step_xadd s t : xor_step (xadd s t) = xadd (xor_step s) (xor_step t).
Proof.
  unfold xor_step, xadd; cbn [xx xy xz xw]. apply xst_eq; try reflexivity.
  rewrite shl32_lxor, !Z.shiftr_lxor.
  generalize (shl32 (xx s) 11), (shl32 (xx t) 11). intros. rewrite ?Z.shiftr_lxor. lx.
Qed.

Lemma step_nil : xor_step xnil = xnil.
Proof. reflexivity. Qed.

Lemma xadd_nil_l s : xadd xnil s = s.
Proof. destruct s. reflexivity. Qed.
Lemma xadd_nil_r s : xadd s xnil = s.
Proof. destruct s as [a b c d]. unfold xadd, xnil; cbn [xx xy xz xw]. now rewrite !Z.lxor_0_r. Qed.
Lemma xadd_self s : xadd s s = xnil.
Proof. unfold xadd. now rewrite !Z.lxor_nilpotent. Qed.
Lemma xadd_assoc a b c : xadd a (xadd b c) = xadd (xadd a b) c.
Proof. unfold xadd; cbn [xx xy xz xw]. now rewrite !Z.lxor_assoc. Qed.
Lemma xadd_comm a b : xadd a b = xadd b a.
Proof. unfold xadd. apply xst_eq; apply Z.lxor_comm. Qed.
Lemma xadd_swap a b c d : xadd (xadd a b) (xadd c d) = xadd (xadd a c) (xadd b d).
Proof. rewrite <- !xadd_assoc. f_equal. rewrite !xadd_assoc. f_equal. apply xadd_comm. Qed.

(** ** Polynomials in the step, as bit strings *)

Fixpoint actp (p : positive) (s : xorst) : xorst :=
  match p with
  | xH => s
  | xO p' => xor_step (actp p' s)
  | xI p' => xadd s (xor_step (actp p' s))
  end.
Definition act (p : N) (s : xorst) : xorst :=
  match p with N0 => xnil | Npos p' => actp p' s end.

Lemma act_double p s : act (N.double p) s = xor_step (act p s).
Proof. destruct p; reflexivity. Qed.

Lemma act_lxor p q s : act (N.lxor p q) s = xadd (act p s) (act q s).
Proof.
  destruct p as [|p]; [now rewrite xadd_nil_l|].
  destruct q as [|q]; [now rewrite xadd_nil_r|]. cbn [N.lxor].
  revert q. induction p as [p IH|p IH|]; intros [q|q|]; cbn [Pos.lxor actp act];
  repeat match goal with
  | |- context [Pos.Ndouble ?a] => change (Pos.Ndouble a) with (N.double a)
  | |- context [Pos.Nsucc_double ?a] => change (Pos.Nsucc_double a) with (N.succ_double a)
  end.
  - rewrite act_double, IH, step_xadd, xadd_swap, xadd_self, xadd_nil_l. reflexivity.
  - assert (E : forall n, act (N.succ_double n) s = xadd s (xor_step (act n s))).
    { intros [|n]; cbn [N.succ_double act actp]; rewrite ?step_nil, ?xadd_nil_r; reflexivity. }
    rewrite E, IH, step_xadd, xadd_assoc. reflexivity.
  - rewrite xadd_comm, xadd_assoc, xadd_self, xadd_nil_l. reflexivity.
  - assert (E : forall n, act (N.succ_double n) s = xadd s (xor_step (act n s))).
    { intros [|n]; cbn [N.succ_double act actp]; rewrite ?step_nil, ?xadd_nil_r; reflexivity. }
    rewrite E, IH, step_xadd. cbn [act]. rewrite !xadd_assoc. f_equal. apply xadd_comm.
  - rewrite act_double, IH, step_xadd. reflexivity.
  - rewrite xadd_comm. reflexivity.
  - rewrite xadd_assoc, xadd_self, xadd_nil_l. reflexivity.
  - reflexivity.
  - now rewrite xadd_self.
Qed.

Lemma actp_xadd p s t : actp p (xadd s t) = xadd (actp p s) (actp p t).
Proof.
  induction p as [p IH|p IH|]; cbn [actp]; rewrite ?IH, ?step_xadd; auto. apply xadd_swap.
Qed.

Lemma actp_step p s : actp p (xor_step s) = xor_step (actp p s).
Proof. induction p as [p IH|p IH|]; cbn [actp]; rewrite ?IH, ?step_xadd; auto. Qed.

Lemma actp_nil p : actp p xnil = xnil.
Proof. induction p as [p IH|p IH|]; cbn [actp]; rewrite ?IH, ?step_nil; reflexivity. Qed.

(** ** The characteristic polynomial *)

Definition charp : positive := 0x1000000010046d8b3f985d65ffd3c8001.

(** Every additive condition on words that holds of the powers of two holds. *)
Lemma word_ind (Q : Z -> Prop) : Q 0 -> (forall a b, Q a -> Q b -> Q (Z.lxor a b)) ->
  forall n, (forall i, (i < n)%nat -> Q (2 ^ Z.of_nat i)) ->
  forall w, 0 <= w < 2 ^ Z.of_nat n -> Q w.
Proof.
  intros Q0 QX. induction n as [|n IH]; intros B w Hw.
  - replace w with 0 by (change (2 ^ Z.of_nat 0) with 1 in Hw; lia). auto.
  - rewrite Nat2Z.inj_succ, Z.pow_succ_r in Hw by lia.
    assert (0 < 2 ^ Z.of_nat n) by (apply Z.pow_pos_nonneg; lia).
    destruct (Z.lt_ge_cases w (2 ^ Z.of_nat n)) as [L|G].
    + apply IH; [|lia]. intros; apply B; lia.
    + replace w with (Z.lxor (2 ^ Z.of_nat n) (w - 2 ^ Z.of_nat n)).
      * apply QX; [apply B; lia|]. apply IH; [|lia]. intros; apply B; lia.
      * rewrite <- Z.add_nocarry_lxor; [lia|].
        apply Z.bits_inj'. intros k Hk. rewrite Z.land_spec, Z.bits_0.
        destruct (Z.eq_dec k (Z.of_nat n)) as [->|N].
        -- destruct (Z.eq_dec (w - 2 ^ Z.of_nat n) 0) as [->|].
           ++ rewrite Z.testbit_0_l. apply andb_false_r.
           ++ rewrite (Z.bits_above_log2 (w - 2 ^ Z.of_nat n)); [apply andb_false_r|lia|].
              apply Z.log2_lt_pow2; lia.
        -- rewrite Z.pow2_bits_false by lia. reflexivity.
Qed.

Definition last_words : list xorst := map (fun i => XorSt 0 0 0 (2 ^ Z.of_nat i)) (seq 0 32).

Definition xst_eqb (s t : xorst) : bool :=
  (xx s =? xx t) && (xy s =? xy t) && (xz s =? xz t) && (xw s =? xw t).

Lemma xst_eqb_eq s t : xst_eqb s t = true -> s = t.
Proof.
  unfold xst_eqb. destruct s as [a b c d], t as [e f g h]; cbn [xx xy xz xw]. intros H.
  apply andb_prop in H; destruct H as [H H4]. apply andb_prop in H; destruct H as [H H3].
  apply andb_prop in H; destruct H as [H1 H2]. apply xst_eq; lia.
Qed.

Lemma charp_check : forallb (fun s => xst_eqb (actp charp s) xnil) last_words = true.
Proof. vm_compute. reflexivity. Qed.

Definition killed (s : xorst) : Prop := actp charp s = xnil.

Lemma killed_xadd s t : killed s -> killed t -> killed (xadd s t).
Proof. unfold killed. intros H K. now rewrite actp_xadd, H, K. Qed.

Lemma killed_step s : killed s -> killed (xor_step s).
Proof. unfold killed. intros H. now rewrite actp_step, H. Qed.

Lemma killed_nil : killed xnil.
Proof. apply actp_nil. Qed.

Lemma killed_w w : u32ok w -> killed (XorSt 0 0 0 w).
Proof.
  intros H. apply (word_ind (fun w => killed (XorSt 0 0 0 w))) with (n := 32%nat).
  - apply killed_nil.
  - intros a b A B. apply (killed_xadd _ _ A B).
  - intros i Hi. apply xst_eqb_eq.
    pose proof charp_check as C. rewrite forallb_forall in C. apply C.
    unfold last_words. apply in_map_iff. exists i. split; auto. apply in_seq. lia.
  - exact H.
Qed.

Lemma killed_z z : u32ok z -> killed (XorSt 0 0 z 0).
Proof.
  intros H. set (z' := Z.lxor z (Z.shiftr z 19)).
  assert (u32ok z') by (apply lxor_u32; auto; apply shr_u32; auto; lia).
  replace (XorSt 0 0 z 0) with (xadd (xor_step (XorSt 0 0 0 z)) (XorSt 0 0 0 z')).
  - apply killed_xadd; [apply killed_step|]; apply killed_w; auto.
  - unfold xadd, xor_step; cbn [xx xy xz xw]. apply xst_eq; auto using Z.lxor_0_r.
    change (Z.lxor (Z.lxor z' 0) z' = 0). rewrite Z.lxor_0_r.
    apply Z.lxor_nilpotent.
Qed.

Lemma killed_y y : u32ok y -> killed (XorSt 0 y 0 0).
Proof. intros H. apply (killed_step (XorSt 0 0 y 0)). now apply killed_z. Qed.

Lemma killed_x x : u32ok x -> killed (XorSt x 0 0 0).
Proof. intros H. apply (killed_step (XorSt 0 x 0 0)). now apply killed_y. Qed.

Lemma killed_all s : xor_ok s -> killed s.
Proof.
  destruct s as [x y z w]. intros (X & Y & Z_ & W). cbn [xx xy xz xw] in *.
  replace (XorSt x y z w) with
    (xadd (xadd (XorSt x 0 0 0) (XorSt 0 y 0 0)) (xadd (XorSt 0 0 z 0) (XorSt 0 0 0 w))).
  - repeat apply killed_xadd; auto using killed_x, killed_y, killed_z, killed_w.
  - unfold xadd; cbn [xx xy xz xw]. apply xst_eq; rewrite ?Z.lxor_0_l, ?Z.lxor_0_r; auto.
Qed.

(** ** Powers of the step *)

Definition xt (a : N) : N :=
  let b := N.double a in if N.testbit b 128 then N.lxor b (Npos charp) else b.

Fixpoint mm (a : N) (b : positive) : N :=
  match b with
  | xH => a
  | xO b' => xt (mm a b')
  | xI b' => N.lxor a (xt (mm a b'))
  end.

Definition sq (a : N) : N := match a with N0 => N0 | Npos b => mm a b end.

Fixpoint pwx (n : positive) : N :=
  match n with
  | xH => xt 1
  | xO n' => sq (pwx n')
  | xI n' => xt (sq (pwx n'))
  end.

Lemma act_xt a s : killed s -> act (xt a) s = xor_step (act a s).
Proof.
  intros K. unfold xt. destruct (N.testbit (N.double a) 128).
  - rewrite act_lxor, act_double. cbn [act]. rewrite K. apply xadd_nil_r.
  - apply act_double.
Qed.

Lemma act_mm a b s : killed s -> act (mm a b) s = actp b (act a s).
Proof.
  intros K. induction b as [b IH|b IH|]; cbn [mm actp].
  - now rewrite act_lxor, act_xt, IH.
  - now rewrite act_xt, IH.
  - reflexivity.
Qed.

Lemma act_sq a s : killed s -> act (sq a) s = act a (act a s).
Proof. intros K. destruct a as [|a]; [reflexivity|]. unfold sq. now rewrite act_mm. Qed.

Notation it n s := (N.iter n xor_step s).

Lemma it_add n m s : it (n + m)%N s = it n (it m s).
Proof. apply N.iter_add. Qed.

Lemma it_killed n s : killed s -> killed (it n s).
Proof. intros K. apply N.iter_invariant; auto using killed_step. Qed.

Lemma it_ok n s : xor_ok s -> xor_ok (it n s).
Proof. intros K. apply N.iter_invariant; auto using xor_step_ok. Qed.

Lemma it_nz n s : xor_ok s -> ~ xor_zero s -> ~ xor_zero (it n s).
Proof.
  intros K Z0. apply (N.iter_invariant n _ xor_step (fun s => xor_ok s /\ ~ xor_zero s)); auto.
  intros x [A B]. auto using xor_step_ok, xor_step_nz.
Qed.

Lemma act_pwx n : forall s, killed s -> act (pwx n) s = it (Npos n) s.
Proof.
  induction n as [n IH|n IH|]; intros s K; cbn [pwx].
  - rewrite act_xt, act_sq by auto.
    replace (Npos (xI n)) with (N.succ (Npos n + Npos n)) by lia.
    rewrite N.iter_succ, it_add. rewrite (IH s K), IH by now apply it_killed. reflexivity.
  - rewrite act_sq by auto. replace (Npos (xO n)) with (Npos n + Npos n)%N by lia.
    rewrite it_add, (IH s K), IH by now apply it_killed. reflexivity.
  - rewrite act_xt by auto. reflexivity.
Qed.

Definition period : N := 2 ^ 128 - 1.

Lemma full_power : pwx 340282366920938463463374607431768211455 = 1%N.
Proof. vm_compute. reflexivity. Qed.

Lemma it_period s : xor_ok s -> it period s = s.
Proof.
  intros OK. change period with (Npos 340282366920938463463374607431768211455).
  rewrite <- act_pwx by now apply killed_all. rewrite full_power. reflexivity.
Qed.

(** For each prime factor [q], the inverse of x^(N/q) - 1 modulo the
    characteristic polynomial. *)
Definition inverses : list (Z * positive) := [
  (3, 133953335144028078570501892093482299452%positive);
  (5, 151794906280615946920587260728475445023%positive);
  (17, 288676104794235856817578729415729568722%positive);
  (257, 140239344036719843198371133677329421916%positive);
  (641, 272365965476946169307397722556321934694%positive);
  (65537, 19606021719553718632817052679888491436%positive);
  (274177, 123238532970663673086441209674178830033%positive);
  (6700417, 97083650747657427314725846816444512388%positive);
  (big, 71481420630604488033091811775364421675%positive)].

Lemma inverses_check : forallb (fun '(q, c) =>
  N.eqb (mm (N.lxor (pwx (Z.to_pos ((2 ^ 128 - 1) / q))) 1) c) 1) inverses = true.
Proof. vm_compute. reflexivity. Qed.

Lemma inverse_of q : In q factors ->
  exists c, mm (N.lxor (pwx (Z.to_pos ((2 ^ 128 - 1) / q))) 1) c = 1%N.
Proof.
  intros H. assert (X : exists c, In (q, c) inverses).
  { unfold factors in H. cbn [In] in H. unfold inverses.
    destruct H as [<-|[<-|[<-|[<-|[<-|[<-|[<-|[<-|[<-|[]]]]]]]]]]; eexists; cbn [In]; tauto. }
  destruct X as [c Hc]. exists c. pose proof inverses_check as C.
  rewrite forallb_forall in C. specialize (C _ Hc). cbv beta iota in C. now apply N.eqb_eq in C.
Qed.

(** ** No shorter period *)

Lemma it_mul k u s : it k s = s -> it (u * k)%N s = s.
Proof.
  intros H. induction u as [|u IH] using N.peano_ind; [reflexivity|].
  rewrite N.mul_succ_l, it_add, H. exact IH.
Qed.

Lemma xzero_nil s : xor_zero s <-> s = xnil.
Proof.
  unfold xor_zero, xnil. destruct s as [x y z w]; cbn [xx xy xz xw]. split.
  - intros (-> & -> & -> & ->). reflexivity.
  - intros [= -> -> -> ->]. auto.
Qed.

Lemma no_cofactor q s : In q factors -> xor_ok s -> ~ xor_zero s ->
  it (Z.to_N ((2 ^ 128 - 1) / q)) s <> s.
Proof.
  intros Hq OK NZ E. apply NZ, xzero_nil. destruct (inverse_of q Hq) as [c Hc].
  pose proof (killed_all s OK) as K.
  pose proof (act_mm (N.lxor (pwx (Z.to_pos ((2 ^ 128 - 1) / q))) 1) c s K) as A.
  rewrite Hc in A. cbn [act actp] in A. rewrite A, act_lxor, act_pwx by auto.
  assert (P : Npos (Z.to_pos ((2 ^ 128 - 1) / q)) = Z.to_N ((2 ^ 128 - 1) / q)).
  { assert (0 < (2 ^ 128 - 1) / q); [|lia].
    unfold factors in Hq. cbn [In] in Hq.
    destruct Hq as [<-|[<-|[<-|[<-|[<-|[<-|[<-|[<-|[<-|[]]]]]]]]]]; reflexivity. }
  rewrite P, E. cbn [act actp]. rewrite xadd_self. apply actp_nil.
Qed.

Lemma no_short k s : xor_ok s -> ~ xor_zero s -> (0 < k < period)%N -> it k s <> s.
Proof.
  intros OK NZ Hk E.
  set (g := N.gcd k period).
  assert (Eg : it g s = s).
  { destruct (N.gcd_bezout_pos k period ltac:(lia)) as (u & v & B). fold g in B.
    pose proof (it_mul k u s E) as A. rewrite B, it_add in A.
    rewrite it_mul in A by now apply it_period. exact A. }
  assert (Gk : (g <= k)%N).
  { apply N.divide_pos_le; [lia|]. apply N.gcd_divide_l. }
  destruct (N.gcd_divide_r k period) as [c Hc]. fold g in Hc.
  assert (Pz : Z.of_N period = 2 ^ 128 - 1) by reflexivity.
  assert (C1 : (1 < c)%N).
  { destruct (N.lt_trichotomy c 1) as [L|[L|L]]; auto.
    - assert (c = 0%N) by lia. subst c. lia.
    - subst c. lia. }
  destruct (prime_factor (Z.of_N c) ltac:(lia)) as (q & Pq & [e He]).
  assert (Q : In q factors).
  { apply prime_among; auto using factors_prime. rewrite factors_product, <- Pz, Hc.
    rewrite N2Z.inj_mul, He. exists (e * Z.of_N g). ring. }
  assert (Hq : 1 < q) by (destruct Pq; auto).
  assert (E0 : 0 < e) by nia.
  apply (no_cofactor q s Q OK NZ).
  replace (Z.to_N ((2 ^ 128 - 1) / q)) with (Z.to_N e * g)%N; [now apply it_mul|].
  rewrite <- Pz, Hc, N2Z.inj_mul, He.
  replace (e * q * Z.of_N g) with (e * Z.of_N g * q) by ring. rewrite Z.div_mul by lia.
  rewrite Z2N.inj_mul by lia. now rewrite N2Z.id.
Qed.

Lemma it_inj i j s : xor_ok s -> ~ xor_zero s -> (i < j < i + period)%N -> it i s <> it j s.
Proof.
  intros OK NZ H E.
  apply (no_short (j - i) (it i s)); auto using it_ok, it_nz; [lia|].
  rewrite <- it_add. replace (j - i + i)%N with j by lia. now rewrite E.
Qed.

(** ** One cycle through every non-zero state *)

Definition code (s : xorst) : Z := xx s + 2 ^ 32 * xy s + 2 ^ 64 * xz s + 2 ^ 96 * xw s.

Lemma code_inj s t : xor_ok s -> xor_ok t -> code s = code t -> s = t.
Proof.
  destruct s as [a b c d], t as [e f g h]. unfold xor_ok, u32ok, code; cbn [xx xy xz xw].
  intros H K E. apply xst_eq; lia.
Qed.

Lemma code_range s : xor_ok s -> ~ xor_zero s -> 1 <= code s < 2 ^ 128.
Proof.
  destruct s as [a b c d]. unfold xor_ok, u32ok, xor_zero, code; cbn [xx xy xz xw].
  intros H K. lia.
Qed.

Lemma period_nat : exists n, N.of_nat n = period.
Proof. exists (N.to_nat period). apply N2Nat.id. Qed.

Lemma one_cycle s t : xor_ok s -> ~ xor_zero s -> xor_ok t -> ~ xor_zero t ->
  exists i, (i < period)%N /\ it i s = t.
Proof.
  intros OK NZ OKt NZt. destruct period_nat as [n Hn].
  assert (Pz : Z.of_N period = 2 ^ 128 - 1) by reflexivity.
  assert (Zn : Z.of_nat n = 2 ^ 128 - 1) by lia.
  set (l := map (fun i => code (it (N.of_nat i) s)) (seq 0 n)).
  assert (ND : NoDup l).
  { apply NoDup_map_on; [apply seq_NoDup|]. intros x y Hx Hy E.
    apply in_seq in Hx, Hy. apply code_inj in E; auto using it_ok.
    destruct (Nat.lt_trichotomy x y) as [L|[L|L]]; auto; exfalso.
    - apply (it_inj (N.of_nat x) (N.of_nat y) s) in E; auto. lia.
    - symmetry in E. apply (it_inj (N.of_nat y) (N.of_nat x) s) in E; auto. lia. }
  assert (I : incl l (residues (2 ^ 128))).
  { intros z Hz. apply in_map_iff in Hz. destruct Hz as (i & <- & _).
    apply in_residues. apply code_range; auto using it_ok, it_nz. }
  assert (R : In (code t) l).
  { apply (NoDup_length_incl (l' := residues (2 ^ 128)) ND).
    - unfold l. rewrite residues_length, map_length, seq_length. lia.
    - exact I.
    - apply in_residues. now apply code_range. }
  apply in_map_iff in R. destruct R as (i & E & Hi). apply in_seq in Hi.
  exists (N.of_nat i). split; [lia|]. apply code_inj; auto using it_ok.
Qed.

(** ** The same for draws, which pass over the states with w = 0 *)

Definition shown (s : xorst) : bool := negb (xw s =? 0).
Definition cnt (s : xorst) (K : nat) : nat :=
  length (filter (fun i => shown (it (N.of_nat i) s)) (seq 1 K)).

Lemma steps_it k s : steps k s = it (N.of_nat k) s.
Proof.
  induction k as [|k IH]; [reflexivity|]. cbn [steps].
  rewrite Nat2N.inj_succ, N.iter_succ, IH. reflexivity.
Qed.

Lemma filter_shift {A} (f : nat -> A) (b : A -> bool) k K : forall i,
  length (filter (fun j => b (f j)) (seq (i + k) K)) =
  length (filter (fun j => b (f (j + k)%nat)) (seq i K)).
Proof.
  induction K as [|K IH]; intros i; [reflexivity|]. cbn [seq filter].
  specialize (IH (S i)). cbn [Nat.add] in IH.
  destruct (b (f (i + k)%nat)); cbn [length]; congruence.
Qed.

Lemma cnt_add s k K : cnt s (k + K) = (cnt s k + cnt (it (N.of_nat k) s) K)%nat.
Proof.
  unfold cnt. rewrite seq_app, filter_app, app_length. f_equal.
  rewrite (filter_shift (fun j => it (N.of_nat j) s) shown k K 1). f_equal.
  apply filter_ext. intros j. now rewrite Nat2N.inj_add, it_add.
Qed.

Lemma cnt_first s k : (1 <= k)%nat -> xw (steps k s) <> 0 ->
  (forall j, (1 <= j < k)%nat -> xw (steps j s) = 0) -> cnt s k = 1%nat.
Proof.
  intros Hk NZ Zj. destruct k as [|k]; [lia|].
  replace (S k) with (k + 1)%nat by lia. rewrite cnt_add.
  assert (C0 : cnt s k = 0%nat).
  { unfold cnt. destruct (filter _ _) as [|a l] eqn:E; [reflexivity|]. exfalso.
    assert (I : In a (a :: l)) by now left. rewrite <- E in I.
    apply filter_In in I. destruct I as [I1 I2]. apply in_seq in I1.
    unfold shown in I2. rewrite <- steps_it, Zj in I2 by lia. discriminate. }
  rewrite C0. unfold cnt. cbn [seq filter]. rewrite <- it_add.
  replace (N.of_nat 1 + N.of_nat k)%N with (N.of_nat (S k)) by lia.
  unfold shown. rewrite <- steps_it. destruct (Z.eqb_spec (xw (steps (S k) s)) 0); [contradiction|].
  reflexivity.
Qed.

(** [n] draws stop at the step that shows the [n]-th state. *)
Lemma draws_at n : forall s, xor_ok s -> ~ xor_zero s ->
  exists vs K, draws xor_next n s = Ok (vs, it (N.of_nat K) s) /\ cnt s K = n /\ (n <= K <= 4 * n)%nat.
Proof.
  induction n as [|n IH]; intros s OK NZ; cbn [draws].
  - exists [], 0%nat. repeat split; lia.
  - destruct (xor_next_char s OK NZ) as (k & Hk & W & Zj & E). rewrite E. cbn [bind].
    destruct (IH (steps k s) (steps_ok k s OK) (steps_nz k s OK NZ)) as (vs & K & D & C & B).
    rewrite D. cbn [bind]. exists (xor_value (steps k s) :: vs), (k + K)%nat.
    rewrite cnt_add, (cnt_first s k) by (auto; lia). rewrite steps_it in C |- *.
    rewrite C. rewrite <- it_add. repeat split; try lia.
    replace (N.of_nat K + N.of_nat k)%N with (N.of_nat (k + K)) by lia. reflexivity.
Qed.

Lemma draws_to K : forall s, xor_ok s -> ~ xor_zero s -> xw (it (N.of_nat K) s) <> 0 ->
  exists vs, draws xor_next (cnt s K) s = Ok (vs, it (N.of_nat K) s).
Proof.
  induction K as [K IH] using lt_wf_ind. intros s OK NZ W.
  destruct K as [|K]; [exists []; reflexivity|].
  destruct (xor_next_char s OK NZ) as (k & Hk & Wk & Zj & E).
  assert (L : (k <= S K)%nat).
  { destruct (Nat.le_gt_cases k (S K)); auto. exfalso. apply W. rewrite <- steps_it. apply Zj. lia. }
  replace (S K) with (k + (S K - k))%nat by lia.
  rewrite cnt_add, (cnt_first s k) by (auto; lia). cbn [Nat.add draws]. rewrite E. cbn [bind].
  destruct (IH (S K - k)%nat ltac:(lia) (steps k s) (steps_ok k s OK) (steps_nz k s OK NZ)) as (vs & D).
  { rewrite steps_it, <- it_add. replace (N.of_nat (S K - k) + N.of_nat k)%N with (N.of_nat (S K)) by lia.
    exact W. }
  rewrite steps_it in D |- *. rewrite D. cbn [bind]. eexists. rewrite <- it_add.
  replace (N.of_nat (S K - k) + N.of_nat k)%N with (N.of_nat (k + (S K - k))) by lia. reflexivity.
Qed.

Lemma cnt_mono s K K' : (K <= K')%nat -> (cnt s K <= cnt s K')%nat.
Proof. intros H. replace K' with (K + (K' - K))%nat by lia. rewrite cnt_add. lia. Qed.

Lemma shown_code s : xor_ok s -> shown s = true <-> 2 ^ 96 <= code s.
Proof.
  destruct s as [a b c d]. unfold xor_ok, u32ok, shown, code; cbn [xx xy xz xw].
  intros H. destruct (Z.eqb_spec d 0); cbn [negb]; split; intros; try discriminate; try reflexivity; lia.
Qed.

Lemma nat_of z : 0 <= z -> exists m, Z.of_nat m = z.
Proof. intros H. exists (Z.to_nat z). now apply Z2Nat.id. Qed.

Lemma cnt_period s n : xor_ok s -> ~ xor_zero s -> N.of_nat n = period ->
  Z.of_nat (cnt s n) = 2 ^ 128 - 2 ^ 96.
Proof.
  intros OK NZ Hn.
  assert (Pz : Z.of_N period = 2 ^ 128 - 1) by reflexivity.
  assert (Zn : Z.of_nat n = 2 ^ 128 - 1) by lia.
  set (l := filter (fun i => shown (it (N.of_nat i) s)) (seq 1 n)).
  destruct (nat_of (2 ^ 128 - 2 ^ 96) ltac:(lia)) as [m Hm].
  set (top := map (fun i => Z.of_nat i + 2 ^ 96) (seq 0 m)).
  assert (TI : forall z, In z top <-> 2 ^ 96 <= z < 2 ^ 128).
  { intros z. unfold top. rewrite in_map_iff. split.
    - intros (i & <- & Hi). apply in_seq in Hi. lia.
    - intros H. exists (Z.to_nat (z - 2 ^ 96)). split; [lia|]. apply in_seq. lia. }
  assert (TN : NoDup top) by (apply NoDup_map_on; [apply seq_NoDup|]; intros; lia).
  assert (LN : NoDup (map (fun i => code (it (N.of_nat i) s)) l)).
  { apply NoDup_map_on; [apply NoDup_filter, seq_NoDup|]. intros x y Hx Hy E.
    apply filter_In in Hx, Hy. destruct Hx as [Hx _], Hy as [Hy _].
    apply in_seq in Hx, Hy. apply code_inj in E; auto using it_ok.
    destruct (Nat.lt_trichotomy x y) as [L|[L|L]]; auto; exfalso.
    - apply (it_inj (N.of_nat x) (N.of_nat y) s) in E; auto. lia.
    - symmetry in E. apply (it_inj (N.of_nat y) (N.of_nat x) s) in E; auto. lia. }
  assert (Len : length (map (fun i => code (it (N.of_nat i) s)) l) = length top).
  { apply Nat.le_antisymm; apply NoDup_incl_length; auto.
    - intros z Hz. apply in_map_iff in Hz. destruct Hz as (i & <- & Hi).
      apply filter_In in Hi. destruct Hi as [_ Hi]. apply TI. split.
      + apply shown_code; auto using it_ok.
      + apply code_range; auto using it_ok, it_nz.
    - intros z Hz. apply TI in Hz.
      set (t := XorSt (z mod 2 ^ 32) ((z / 2 ^ 32) mod 2 ^ 32) ((z / 2 ^ 64) mod 2 ^ 32) (z / 2 ^ 96)).
      assert (B : 0 <= z mod 2 ^ 32 < 2 ^ 32 /\ 0 <= (z / 2 ^ 32) mod 2 ^ 32 < 2 ^ 32 /\
                  0 <= (z / 2 ^ 64) mod 2 ^ 32 < 2 ^ 32).
      { repeat split; apply Z.mod_pos_bound; reflexivity. }
      assert (W : 1 <= z / 2 ^ 96 < 2 ^ 32).
      { split; [apply Z.div_le_lower_bound|apply Z.div_lt_upper_bound]; lia. }
      assert (Ct : code t = z).
      { unfold t, code; cbn [xx xy xz xw].
        replace (z / 2 ^ 96) with (z / 2 ^ 64 / 2 ^ 32) by (rewrite Z.div_div by lia; reflexivity).
        replace (z / 2 ^ 64) with (z / 2 ^ 32 / 2 ^ 32) by (rewrite Z.div_div by lia; reflexivity).
        pose proof (Z.div_mod z (2 ^ 32) ltac:(lia)).
        pose proof (Z.div_mod (z / 2 ^ 32) (2 ^ 32) ltac:(lia)).
        pose proof (Z.div_mod (z / 2 ^ 32 / 2 ^ 32) (2 ^ 32) ltac:(lia)).
        set (q1 := z / 2 ^ 32) in *. set (q2 := q1 / 2 ^ 32) in *. set (q3 := q2 / 2 ^ 32) in *.
        set (r1 := z mod 2 ^ 32) in *. set (r2 := q1 mod 2 ^ 32) in *. set (r3 := q2 mod 2 ^ 32) in *.
        clearbody q1 q2 q3 r1 r2 r3. lia. }
      assert (OKt : xor_ok t).
      { unfold xor_ok, u32ok, t; cbn [xx xy xz xw]. intuition lia. }
      assert (NZt : ~ xor_zero t) by (unfold xor_zero, t; cbn [xx xy xz xw]; lia).
      destruct (one_cycle s t OK NZ OKt NZt) as (i & Hi & Ei).
      apply in_map_iff.
      assert (X : exists j, (1 <= j <= n)%nat /\ it (N.of_nat j) s = t).
      { destruct (N.eq_dec i 0) as [->|Ni].
        - exists n. split; [lia|]. rewrite Hn, it_period by auto. exact Ei.
        - exists (N.to_nat i). split; [lia|]. now rewrite N2Nat.id. }
      destruct X as (j & Hj & Ej). exists j. split; [now rewrite Ej|].
      apply filter_In. split; [apply in_seq; lia|]. rewrite Ej. apply shown_code; auto. lia. }
  rewrite map_length in Len. unfold cnt. fold l. rewrite Len. unfold top.
  rewrite map_length, seq_length. lia.
Qed.

Lemma draws_period s n : xor_ok s -> xw s <> 0 -> Z.of_nat n = 2 ^ 128 - 2 ^ 96 ->
  (exists vs, draws xor_next n s = Ok (vs, s)) /\
  (forall m vs s', (0 < m < n)%nat -> draws xor_next m s = Ok (vs, s') -> s' <> s).
Proof.
  intros OK W Hn. assert (NZ : ~ xor_zero s) by (intros (_ & _ & _ & E); auto).
  destruct period_nat as [p Hp].
  assert (C : cnt s p = n) by (pose proof (cnt_period s p OK NZ Hp); lia).
  split.
  - destruct (draws_to p s OK NZ) as [vs D].
    + now rewrite Hp, it_period.
    + exists vs. now rewrite C, Hp, it_period in D.
  - intros m vs s' Hm D. destruct (draws_at m s OK NZ) as (ws & K & D' & CK & B).
    rewrite D in D'. injection D' as _ ->. apply no_short; auto.
    assert (K < p)%nat; [|lia]. destruct (Nat.lt_ge_cases K p); auto. exfalso.
    pose proof (cnt_mono s p K ltac:(lia)). lia.
Qed.
