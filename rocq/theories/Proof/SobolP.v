From Coq Require Import ZArith List Lia Lra Bool Reals Btauto.
From Coq Require Import ZifyBool ZifyNat.
From Flocq Require Import Core BinarySingleNaN.
From Verif Require Import Base.Res Base.ResFacts Base.Num Base.IEEE Base.IEEER Model.Rand Spec.Streams
  Proof.TausP.
Import ListNotations.
Open Scope Z_scope.

Definition iv0 : list Z := Eval vm_compute in
  match sobol_directions initMDeg initIp initIv with Ok iv => iv | _ => [] end.

Definition sobol0 : sobol := Sobol 0 (repeat 0 6) initMDeg initIp iv0 true.

Lemma new_sobol_eq : new_sobol = Ok sobol0.
Proof. vm_compute. reflexivity. Qed.

(** Direction number [j] of coordinate [k]. *)
Definition V (k j : Z) : Z := zn 0 iv0 (6 * j + k).

Lemma V_table : forallb (fun k => forallb (fun j =>
    (0 <=? V k j) && (V k j <? 2 ^ 30) && Z.testbit (V k j) (29 - j) &&
    (V k j mod 2 ^ (29 - j) =? 0)) (map Z.of_nat (seq 0 30))) (map Z.of_nat (seq 0 6)) = true.
Proof. vm_compute. reflexivity. Qed.

Lemma V_ok k j : 0 <= k < 6 -> 0 <= j < 30 ->
  0 <= V k j < 2 ^ 30 /\ Z.testbit (V k j) (29 - j) = true /\
  forall i, i < 29 - j -> Z.testbit (V k j) i = false.
Proof.
  intros Hk Hj. pose proof V_table as T. rewrite forallb_forall in T.
  assert (Ik : In k (map Z.of_nat (seq 0 6))).
  { apply in_map_iff. exists (Z.to_nat k). split; [lia|]. apply in_seq; lia. }
  specialize (T k Ik). rewrite forallb_forall in T.
  assert (Ij : In j (map Z.of_nat (seq 0 30))).
  { apply in_map_iff. exists (Z.to_nat j). split; [lia|]. apply in_seq; lia. }
  specialize (T j Ij). rewrite !andb_true_iff in T. destruct T as [[[A B] C] D].
  split; [lia|]. split; auto. intros i Hi.
  destruct (Z.ltb_spec i 0); [apply Z.testbit_neg_r; lia|].
  assert (V k j = V k j / 2 ^ (29 - j) * 2 ^ (29 - j)) as ->.
  { pose proof (Z.div_mod (V k j) (2 ^ (29 - j)) ltac:(lia)). lia. }
  apply Z.mul_pow2_bits_low. lia.
Qed.

(** The GF(2)-linear map given by the direction numbers. *)
Fixpoint lin (k : Z) (n : nat) (u : Z) : Z :=
  match n with
  | O => 0
  | S m => Z.lxor (lin k m u) (if Z.testbit u (Z.of_nat m) then V k (Z.of_nat m) else 0)
  end.

Lemma lin_lxor k n u v : lin k n (Z.lxor u v) = Z.lxor (lin k n u) (lin k n v).
Proof.
  induction n as [|n IH]; simpl; [reflexivity|].
  rewrite IH, Z.lxor_spec. apply Z.bits_inj. intro i.
  destruct (Z.testbit u (Z.of_nat n)), (Z.testbit v (Z.of_nat n)); cbn [xorb];
    rewrite ?Z.lxor_spec, ?Z.bits_0; btauto.
Qed.

Lemma lin_0 k n : lin k n 0 = 0.
Proof. induction n; cbn [lin]; auto. rewrite IHn, Z.bits_0. reflexivity. Qed.

Lemma lin_pow2 k n z : 0 <= z -> lin k n (2 ^ z) = if z <? Z.of_nat n then V k z else 0.
Proof.
  intros Hz. induction n as [|n IH]; cbn [lin]; [destruct (Z.ltb_spec z (Z.of_nat 0)); auto; lia|].
  rewrite IH, Z.pow2_bits_eqb by auto.
  destruct (Z.eqb_spec z (Z.of_nat n)) as [->|N].
  - destruct (Z.ltb_spec (Z.of_nat n) (Z.of_nat n)), (Z.ltb_spec (Z.of_nat n) (Z.of_nat (S n)));
      try lia. now rewrite Z.lxor_0_l.
  - rewrite Z.lxor_0_r.
    destruct (Z.ltb_spec z (Z.of_nat n)), (Z.ltb_spec z (Z.of_nat (S n))); auto; lia.
Qed.

Lemma lin_range k n u : 0 <= k < 6 -> (n <= 30)%nat -> 0 <= lin k n u < 2 ^ 30.
Proof.
  intros Hk Hn.
  assert (L : forall a b, 0 <= a < 2 ^ 30 -> 0 <= b < 2 ^ 30 -> 0 <= Z.lxor a b < 2 ^ 30).
  { intros a b Ha Hb. assert (0 <= Z.lxor a b) as P by (apply Z.lxor_nonneg; lia).
    split; auto. destruct (Z.eq_dec (Z.lxor a b) 0) as [->|N]; [lia|].
    assert (LA : forall z, 0 <= z < 2 ^ 30 -> Z.log2 z < 30).
    { intros z Hz. destruct (Z.eq_dec z 0) as [->|]; [reflexivity|]. apply Z.log2_lt_pow2; lia. }
    apply Z.log2_lt_pow2; [lia|].
    pose proof (Z.log2_lxor a b ltac:(lia) ltac:(lia)).
    pose proof (LA a Ha). pose proof (LA b Hb). lia. }
  induction n as [|n IH]; cbn [lin]; [lia|]. apply L; [apply IH; lia|].
  destruct (Z.testbit u (Z.of_nat n)); [|lia]. apply V_ok; lia.
Qed.

(** The highest set bit [j] of the argument shows as bit [29 - j]. *)
Lemma lin_top k j u : 0 <= k < 6 -> 0 <= j < 30 ->
  (forall i, j < i -> Z.testbit u i = false) ->
  forall n, (n <= 30)%nat ->
  Z.testbit (lin k n u) (29 - j) = (j <? Z.of_nat n) && Z.testbit u j.
Proof.
  intros Hk Hj Hu n. induction n as [|n IH]; intros Hn; cbn [lin].
  - rewrite Z.bits_0. destruct (Z.ltb_spec j (Z.of_nat 0)); auto; lia.
  - rewrite Z.lxor_spec, IH by lia.
    destruct (Z.lt_trichotomy j (Z.of_nat n)) as [L|[E|G]].
    + rewrite (Hu (Z.of_nat n) L). rewrite Z.bits_0, xorb_false_r.
      destruct (Z.ltb_spec j (Z.of_nat n)), (Z.ltb_spec j (Z.of_nat (S n))); auto; lia.
    + subst j. destruct (Z.ltb_spec (Z.of_nat n) (Z.of_nat n)); [lia|].
      destruct (Z.ltb_spec (Z.of_nat n) (Z.of_nat (S n))); [|lia].
      destruct (Z.testbit u (Z.of_nat n)); cbn [andb xorb].
      * destruct (V_ok k (Z.of_nat n) Hk Hj) as (_ & T & _). now rewrite T.
      * now rewrite Z.bits_0.
    + destruct (Z.ltb_spec j (Z.of_nat n)), (Z.ltb_spec j (Z.of_nat (S n))); try lia.
      cbn [andb]. rewrite xorb_false_l.
      destruct (Z.testbit u (Z.of_nat n)); [|apply Z.bits_0].
      destruct (V_ok k (Z.of_nat n) Hk ltac:(lia)) as (_ & _ & T). apply T. lia.
Qed.

Lemma lin_kernel k u : 0 <= k < 6 -> 0 <= u < 2 ^ 30 -> lin k 30 u = 0 -> u = 0.
Proof.
  intros Hk Hu E. destruct (Z.eq_dec u 0) as [|N]; auto. exfalso.
  assert (Hl : 0 <= Z.log2 u < 30) by (split; [apply Z.log2_nonneg|apply Z.log2_lt_pow2; lia]).
  pose proof (lin_top k (Z.log2 u) u Hk Hl) as T.
  assert (T1 : forall i, Z.log2 u < i -> Z.testbit u i = false).
  { intros i Hi. apply Z.bits_above_log2; lia. }
  specialize (T T1 30%nat ltac:(lia)). rewrite E, Z.bits_0, Z.bit_log2 in T by lia.
  destruct (Z.ltb_spec (Z.log2 u) (Z.of_nat 30)); [discriminate|lia].
Qed.

(** ** Gray code *)
Definition gray (n : Z) : Z := Z.lxor n (Z.shiftr n 1).

Lemma gray_lxor a b : gray (Z.lxor a b) = Z.lxor (gray a) (gray b).
Proof.
  unfold gray. rewrite Z.shiftr_lxor. apply Z.bits_inj. intro i.
  rewrite !Z.lxor_spec. btauto.
Qed.

Lemma gray_zero x : 0 <= x -> gray x = 0 -> x = 0.
Proof.
  intros H E. apply Z.lxor_eq in E. rewrite Z.shiftr_div_pow2 in E by lia. 
  change (2 ^ 1) with 2 in E. pose proof (Z.div_mod x 2 ltac:(lia)).
  pose proof (Z.mod_pos_bound x 2 ltac:(lia)). lia.
Qed.

Lemma gray_range x p : 0 <= p -> 0 <= x < 2 ^ p -> 0 <= gray x < 2 ^ p.
Proof.
  intros Hp Hx. unfold gray. rewrite Z.shiftr_div_pow2 by lia. change (2 ^ 1) with 2.
  assert (0 <= x / 2 <= x).
  { split; [apply Z.div_pos; lia|]. apply Z.div_le_upper_bound; lia. }
  assert (0 <= Z.lxor x (x / 2)) as P by (apply Z.lxor_nonneg; lia).
  split; auto. destruct (Z.eq_dec (Z.lxor x (x / 2)) 0) as [->|N]; [lia|].
  apply Z.log2_lt_pow2; [lia|].
  pose proof (Z.log2_lxor x (x / 2) ltac:(lia) ltac:(lia)) as L.
  pose proof (Z.log2_le_mono (x / 2) x ltac:(lia)).
  destruct (Z.eq_dec x 0) as [->|]. { simpl in N. lia. }
  assert (Z.log2 x < p) by (apply Z.log2_lt_pow2; lia). lia.
Qed.

Lemma add_low q z b : 0 <= z -> 0 <= b < 2 ^ z -> q * 2 ^ z + b = Z.lxor (q * 2 ^ z) b.
Proof.
  intros Hz Hb. apply Z.add_nocarry_lxor. apply Z.bits_inj_0. intro i. rewrite Z.land_spec.
  destruct (Z.ltb_spec i z).
  - rewrite Z.mul_pow2_bits_low by lia. reflexivity.
  - destruct (Z.eq_dec b 0) as [->|]; [rewrite Z.bits_0; apply andb_false_r|].
    rewrite (Z.bits_above_log2 b i); [apply andb_false_r|lia|].
    assert (Z.log2 b < z) by (apply Z.log2_lt_pow2; lia). lia.
Qed.

Lemma gray_step n q z : 0 <= z -> n = q * 2 ^ (z + 1) + (2 ^ z - 1) ->
  Z.lxor (gray (n + 1)) (gray n) = 2 ^ z.
Proof.
  intros Hz ->. assert (P : 0 < 2 ^ z) by (apply Z.pow_pos_nonneg; lia).
  assert (P1 : 2 ^ (z + 1) = 2 * 2 ^ z) by (rewrite Z.pow_add_r by lia; lia).
  replace (q * 2 ^ (z + 1) + (2 ^ z - 1) + 1) with (q * 2 ^ (z + 1) + 2 ^ z) by lia.
  rewrite !add_low by lia. rewrite <- gray_lxor.
  assert (O1 : Z.lxor (Z.lxor (q * 2 ^ (z + 1)) (2 ^ z)) (Z.lxor (q * 2 ^ (z + 1)) (2 ^ z - 1)) =
               Z.lxor (1 * 2 ^ z) (2 ^ z - 1)).
  { rewrite Z.mul_1_l. apply Z.bits_inj; intro i. rewrite !Z.lxor_spec. btauto. }
  rewrite O1. rewrite <- add_low by lia.
  unfold gray. rewrite Z.shiftr_div_pow2 by lia. change (2 ^ 1) with 2.
  replace ((1 * 2 ^ z + (2 ^ z - 1)) / 2) with (2 ^ z - 1).
  - rewrite (add_low 1) by lia. rewrite Z.lxor_assoc, Z.lxor_nilpotent, Z.lxor_0_r. lia.
  - apply Z.div_unique with 1; lia.
Qed.

Lemma land_bit n z : 0 <= z -> (Z.land n (Z.shiftl 1 z) =? 0) = negb (Z.testbit n z).
Proof.
  intros Hz. rewrite Z.shiftl_1_l. destruct (Z.testbit n z) eqn:E.
  - apply Z.eqb_neq. intro H. assert (T : Z.testbit (Z.land n (2 ^ z)) z = true).
    { rewrite Z.land_spec, E, Z.pow2_bits_true by auto. reflexivity. }
    rewrite H, Z.bits_0 in T. discriminate.
  - apply Z.eqb_eq. apply Z.bits_inj_0. intro i. rewrite Z.land_spec, Z.pow2_bits_eqb by auto.
    destruct (Z.eqb_spec z i); [subst; now rewrite E|apply andb_false_r].
Qed.

Lemma low_zero_spec f : forall z num q, 0 <= z -> num = q * 2 ^ z + (2 ^ z - 1) ->
  let r := low_zero f z num in
  (z <= r < z + Z.of_nat f /\ exists q', num = q' * 2 ^ (r + 1) + (2 ^ r - 1)) \/
  (r = z + Z.of_nat f /\ exists q', num = q' * 2 ^ r + (2 ^ r - 1)).
Proof.
  induction f as [|f IH]; intros z num q Hz E; cbn [low_zero].
  - right. split; [lia|]. exists q. auto.
  - assert (P : 0 < 2 ^ z) by (apply Z.pow_pos_nonneg; lia).
    assert (P1 : 2 ^ (z + 1) = 2 * 2 ^ z) by (rewrite Z.pow_add_r by lia; lia).
    assert (B : Z.testbit num z = Z.odd q).
    { rewrite Z.testbit_odd, Z.shiftr_div_pow2 by lia. f_equal. symmetry.
      apply Z.div_unique with (2 ^ z - 1); lia. }
    rewrite land_bit by auto. rewrite B. destruct (Z.odd q) eqn:O; cbn [negb].
    + apply Z.odd_spec in O. destruct O as [h Hh].
      specialize (IH (z + 1) num h ltac:(lia)).
      destruct IH as [[R [q' Q]]|[R [q' Q]]].
      * rewrite P1. nia.
      * left. split; [lia|]. exists q'. exact Q.
      * right. split; [lia|]. exists q'. exact Q.
    + rewrite <- Z.negb_even in O. apply negb_false_iff in O. apply Z.even_spec in O.
      destruct O as [h Hh]. left. split; [lia|]. exists h. rewrite P1. nia.
Qed.

Lemma low_zero_ok num : 0 <= num < 2 ^ 30 - 1 ->
  let r := low_zero 30 0 num in 0 <= r < 30 /\ exists q, num = q * 2 ^ (r + 1) + (2 ^ r - 1).
Proof.
  intros H r. destruct (low_zero_spec 30 0 num num ltac:(lia) ltac:(lia)) as [[R Q]|[R [q Q]]];
    fold r in R, Q.
  - split; [lia|auto].
  - exfalso. rewrite R in Q. change (2 ^ (0 + Z.of_nat 30)) with (2 ^ 30) in Q. lia.
Qed.

Lemma low_zero_full : low_zero 30 0 (2 ^ 30 - 1) = 30.
Proof. vm_compute. reflexivity. Qed.

(** ** The state after [n] calls *)
Definition fl (x : Z) : f64 := nmul (nofZ x) (f64lit 1 (-30)).

#[local] Opaque lin gray.
Record sst (d base n : Z) (s : sobol) : Prop := {
  ss_num : seqNum s = n;
  ss_len : zlen (six s) = 6;
  ss_iv : siv s = iv0;
  ss_init : isInit s = true;
  ss_ix : forall k, 0 <= k < d -> zn 0 (six s) k = lin k 30 (Z.lxor (gray (n + 1)) base) }.

Definition coord (base m k : Z) : f64 := fl (lin k 30 (Z.lxor (gray (m + 1)) base)).

Lemma sobol_step d base n s : 0 <= d <= 6 -> 0 <= n -> n + 1 <= 2 ^ 30 - 2 -> sst d base n s ->
  exists pt s', sobol_next s d = Ok (pt, s') /\ sst d base (n + 1) s' /\
    zlen pt = d /\ forall k, 0 <= k < d -> zn (nofZ 0) pt k = coord base (n + 1) k.
Proof.
  intros Hd Hn Hn2 [Num Len Iv Ini Ix]. unfold sobol_next, MaxDim, maxSeqNum. rewrite Num.
  destruct (Z.gtb_spec d 6); [lia|].
  rewrite Z.geb_leb. destruct (Z.leb_spec (2 ^ 30) n); [lia|].
  cbv zeta. rewrite Iv.
  pose proof (low_zero_ok (n + 1) ltac:(lia)) as LZ. cbv zeta in LZ.
  destruct LZ as [Hz [q Q]]. set (z := low_zero 30 0 (n + 1)) in *.
  assert (STEP : forall k, 0 <= k < 6 ->
     Z.lxor (lin k 30 (Z.lxor (gray (n + 1)) base)) (V k z) =
     lin k 30 (Z.lxor (gray (n + 1 + 1)) base)).
  { intros k Hk. replace (V k z) with (lin k 30 (2 ^ z)).
    2:{ rewrite lin_pow2 by lia. destruct (Z.ltb_spec z (Z.of_nat 30)); [auto|lia]. }
    rewrite <- (gray_step (n + 1) q z) by (auto; lia). rewrite !lin_lxor.
    apply Z.bits_inj; intro i. rewrite !Z.lxor_spec. btauto. }
  match goal with |- context [for_ 0 d ?b ?i] => set (body := b); set (st := i) end.
  assert (LV : zlen iv0 = 180) by reflexivity.
  assert (W : wp (for_ 0 d body st) (fun st => let '(tg, ix) := st in
     zlen tg = d /\ zlen ix = 6 /\
     forall k, 0 <= k < d ->
       if k <? d then
         zn 0 ix k = lin k 30 (Z.lxor (gray (n + 1 + 1)) base) /\
         zn (nofZ 0) tg k = coord base (n + 1) k
       else zn 0 ix k = lin k 30 (Z.lxor (gray (n + 1)) base))).
  { pose (I := fun (i : Z) (st : list f64 * list Z) => let '(tg, ix) := st in
     zlen tg = d /\ zlen ix = 6 /\
     forall k, 0 <= k < d ->
       if k <? i then
         zn 0 ix k = lin k 30 (Z.lxor (gray (n + 1 + 1)) base) /\
         zn (nofZ 0) tg k = coord base (n + 1) k
       else zn 0 ix k = lin k 30 (Z.lxor (gray (n + 1)) base)).
    apply (for_inv I); [lia| |].
    - unfold I, st. split; [rewrite zlen_repeat; lia|]. split; auto.
      intros k Hk. destruct (Z.ltb_spec k 0); [lia|]. auto.
    - intros i [tg ix] Hi (Lt & Lx & C). unfold body.
      rewrite (get_ok 0) by lia. cbn [bind]. rewrite (get_ok 0) by lia. cbn [bind].
      rewrite set_ok by lia. cbn [bind]. rewrite (get_ok 0) by (rewrite zlen_upd; lia). cbn [bind].
      rewrite zn_upd_eq by lia. rewrite set_ok by lia. cbn [bind wp].
      unfold I. split; [rewrite zlen_upd; auto|]. split; [rewrite zlen_upd; auto|].
      intros k Hk. rewrite !zn_upd by lia.
      pose proof (C i Hi) as Ci. destruct (Z.ltb_spec i i); [lia|].
      replace (zn 0 iv0 (z * 6 + i)) with (V i z) by (unfold V; f_equal; lia).
      rewrite Ci, STEP by lia.
      destruct (Z.eqb_spec k i) as [->|N].
      + destruct (Z.ltb_spec i (i + 1)); [|lia]. split; reflexivity.
      + specialize (C k Hk). destruct (Z.ltb_spec k i), (Z.ltb_spec k (i + 1)); try lia; exact C. }
  apply wp_ok in W. destruct W as [[tg ix] [E (Lt & Lx & C)]].
  rewrite E. cbn [bind]. eexists tg, _. split; [reflexivity|].
  split; [|split; auto].
  - constructor; cbn [seqNum six siv isInit]; auto.
    intros k Hk. specialize (C k Hk). destruct (Z.ltb_spec k d); [|lia]. apply C.
  - intros k Hk. specialize (C k Hk). destruct (Z.ltb_spec k d); [|lia]. apply C.
Qed.

Lemma sobol_draws d base : 0 <= d <= 6 -> forall m n s, 0 <= n -> n + Z.of_nat m <= 2 ^ 30 - 2 ->
  sst d base n s ->
  exists pts s', draws (fun s => sobol_next s d) m s = Ok (pts, s') /\ length pts = m /\
    sst d base (n + Z.of_nat m) s' /\
    forall i, (i < m)%nat -> zlen (nth i pts []) = d /\
      forall k, 0 <= k < d -> zn (nofZ 0) (nth i pts []) k = coord base (n + 1 + Z.of_nat i) k.
Proof.
  intros Hd. induction m as [|m IH]; intros n s Hn Hm SS.
  - exists [], s. cbn [draws length]. replace (n + Z.of_nat 0) with n by lia.
    repeat split; auto; try apply SS. all: lia.
  - destruct (sobol_step d base n s Hd Hn ltac:(lia) SS) as (pt & s1 & E & S1 & L & C).
    destruct (IH (n + 1) s1 ltac:(lia) ltac:(lia) S1) as (pts & s2 & E2 & L2 & S2 & C2).
    exists (pt :: pts), s2. cbn [draws]. rewrite E; cbn [bind]. rewrite E2; cbn [bind].
    split; auto. split; [simpl; congruence|].
    replace (n + Z.of_nat (S m)) with (n + 1 + Z.of_nat m) by lia. split; auto.
    intros [|i] Hi; cbn [nth].
    + split; auto. intros k Hk. rewrite C by auto. f_equal. lia.
    + destruct (C2 i ltac:(lia)) as [A B]. split; auto. intros k Hk. rewrite B by auto. f_equal. lia.
Qed.

Lemma sst_init d : d <= 6 -> sst d 1 0 sobol0.
Proof.
  intros Hd. constructor; try reflexivity. intros k Hk.
  cbn [six sobol0]. rewrite zn_repeat by lia.
  change (Z.lxor (gray (0 + 1)) 1) with 0. symmetry. apply lin_0.
Qed.

Lemma fl_den x : 0 <= x < 2 ^ 30 -> den (fl x) (IZR x * bpow radix2 (-30)).
Proof.
  intros H. unfold fl.
  assert (D1 : den (nofZ x) (IZR x)) by (apply den_int; lia).
  assert (T53 : (IZR (2 ^ 53) = 9007199254740992)%R) by (simpl; reflexivity).
  assert (b30 : (bpow radix2 (-30) = / 1073741824)%R) by (simpl; reflexivity).
  assert (D2 : den (f64lit 1 (-30)) (bpow radix2 (-30))).
  { rewrite <- (rnd64_id (bpow radix2 (-30))).
    - rewrite <- (Rmult_1_l (bpow radix2 (-30))). apply den_lit.
      rewrite Rmult_1_l, Rabs_pos_eq by apply bpow_ge_0. rewrite b30, T53. lra.
    - rewrite <- (Rmult_1_l (bpow radix2 (-30))). apply fmt64_mk; lia. }
  assert (0 <= IZR x <= 1073741824)%R by (split; apply IZR_le; lia).
  rewrite <- (rnd64_id (IZR x * bpow radix2 (-30))).
  - apply den_mul; auto. rewrite b30, T53, Rabs_pos_eq by nra. nra.
  - apply fmt64_mk; lia.
Qed.

Lemma coord_inj base i j k : 0 <= k < 6 -> 0 <= base < 2 ^ 30 ->
  0 <= i < 2 ^ 30 - 1 -> 0 <= j < 2 ^ 30 - 1 ->
  B2R (coord base i k) = B2R (coord base j k) -> i = j.
Proof.
  intros Hk Hb Hi Hj E. unfold coord in E.
  destruct (fl_den _ (lin_range k 30 (Z.lxor (gray (i + 1)) base) Hk ltac:(lia))) as [_ Ei].
  destruct (fl_den _ (lin_range k 30 (Z.lxor (gray (j + 1)) base) Hk ltac:(lia))) as [_ Ej].
  rewrite Ei, Ej in E. apply Rmult_eq_reg_r in E.
  2:{ apply Rgt_not_eq, bpow_gt_0. }
  apply eq_IZR in E.
  assert (K : lin k 30 (Z.lxor (gray (i + 1)) (gray (j + 1))) = 0).
  { rewrite !lin_lxor in E. rewrite lin_lxor. apply Z.bits_inj_0. intro b.
    apply (f_equal (fun z => Z.testbit z b)) in E. rewrite !Z.lxor_spec in *.
    destruct (Z.testbit (lin k 30 (gray (i + 1))) b), (Z.testbit (lin k 30 base) b),
      (Z.testbit (lin k 30 (gray (j + 1))) b); simpl in *; congruence. }
  rewrite <- gray_lxor in K. apply lin_kernel in K; auto.
  - apply gray_zero in K.
    + apply Z.lxor_eq in K. lia.
    + apply Z.lxor_nonneg; lia.
  - apply gray_range; [lia|].
    assert (P : 0 <= Z.lxor (i + 1) (j + 1)) by (apply Z.lxor_nonneg; lia).
    split; auto. destruct (Z.eq_dec (Z.lxor (i + 1) (j + 1)) 0) as [->|N]; [lia|].
    apply Z.log2_lt_pow2; [lia|].
    pose proof (Z.log2_lxor (i + 1) (j + 1) ltac:(lia) ltac:(lia)).
    assert (Z.log2 (i + 1) < 30) by (apply Z.log2_lt_pow2; lia).
    assert (Z.log2 (j + 1) < 30) by (apply Z.log2_lt_pow2; lia). lia.
Qed.

Lemma coord_unit base i k : 0 <= k < 6 -> unit64 (coord base i k).
Proof.
  intros Hk. unfold coord.
  pose proof (lin_range k 30 (Z.lxor (gray (i + 1)) base) Hk ltac:(lia)) as R.
  destruct (fl_den _ R) as [A B]. split; auto. rewrite B.
  assert (b30 : (bpow radix2 (-30) = / 1073741824)%R) by (simpl; reflexivity).
  set (x := lin k 30 _) in *. assert (0 <= IZR x <= 1073741823)%R by (split; apply IZR_le; lia).
  rewrite b30. lra.
Qed.

(** C13 *)
Lemma sobol_distinct d n : 1 <= d <= 6 -> Z.of_nat n <= 2 ^ 30 - 2 ->
  exists s0 pts s, new_sobol = Ok s0 /\ draws (fun s => sobol_next s d) n s0 = Ok (pts, s) /\
    length pts = n /\ Forall (fun p => zlen p = d /\ Forall unit64 p) pts /\
    forall i j k, (i < j < n)%nat -> (Z.of_nat k < d) ->
      B2R (nth k (nth i pts []) (nofZ 0)) <> B2R (nth k (nth j pts []) (nofZ 0)).
Proof.
  intros Hd Hn.
  destruct (sobol_draws d 1 ltac:(lia) n 0 sobol0 ltac:(lia) ltac:(lia) (sst_init d ltac:(lia)))
    as (pts & s & E & L & _ & C).
  exists sobol0, pts, s. split; [apply new_sobol_eq|]. split; auto. split; auto. split.
  - apply Forall_forall. intros p Hp. apply (In_nth _ _ []) in Hp. destruct Hp as (i & Hi & <-).
    destruct (C i ltac:(lia)) as [Lp Cp]. split; auto.
    apply Forall_forall. intros x Hx. apply (In_zn (nofZ 0)) in Hx. destruct Hx as (k & Hk & <-).
    rewrite Cp by lia. apply coord_unit. lia.
  - intros i j k Hij Hk Heq.
    destruct (C i ltac:(lia)) as [_ Ci]. destruct (C j ltac:(lia)) as [_ Cj].
    specialize (Ci (Z.of_nat k) ltac:(lia)). specialize (Cj (Z.of_nat k) ltac:(lia)).
    unfold zn in Ci, Cj. rewrite Nat2Z.id in Ci, Cj. rewrite Ci, Cj in Heq.
    apply coord_inj in Heq; lia.
Qed.

(** C14: the call number 2^30 - 1 panics. *)
Lemma sobol_capacity d : 1 <= d <= 6 ->
  exists s0 pts s, new_sobol = Ok s0 /\
    draws (fun s => sobol_next s d) (Z.to_nat (2 ^ 30 - 2)) s0 = Ok (pts, s) /\
    sobol_next s d = Panic.
Proof.
  intros Hd. assert (ZN : Z.of_nat (Z.to_nat (2 ^ 30 - 2)) = 2 ^ 30 - 2) by (apply Z2Nat.id; lia).
  revert ZN. generalize (Z.to_nat (2 ^ 30 - 2)). intros n ZN.
  destruct (sobol_draws d 1 ltac:(lia) n 0 sobol0 ltac:(lia) ltac:(lia) (sst_init d ltac:(lia)))
    as (pts & s & E & L & S & _).
  exists sobol0, pts, s. split; [apply new_sobol_eq|]. split; auto.
  destruct S as [Num Len Iv Ini _]. unfold sobol_next, MaxDim, maxSeqNum. rewrite Num.
  destruct (Z.gtb_spec d 6); [lia|]. rewrite Z.geb_leb.
  destruct (Z.leb_spec (2 ^ 30) (0 + Z.of_nat n)); [lia|].
  cbv zeta. rewrite Iv. replace (0 + Z.of_nat n + 1) with (2 ^ 30 - 1) by lia.
  rewrite low_zero_full. rewrite for_step by lia. rewrite (get_ok 0) by lia. cbn [bind].
  rewrite get_panic; [reflexivity|]. change (zlen iv0) with 180. lia.
Qed.

(** C15 *)
Lemma sobol_reinit_bad : exists s0 p1 s1 s2 q s3,
  new_sobol = Ok s0 /\ sobol_next s0 1 = Ok (p1, s1) /\ sobol_init s1 = Ok s2 /\
  sobol_next s2 1 = Ok (q, s3) /\ map B2SF q <> map B2SF p1.
Proof.
  assert (T : match sobol_next sobol0 1 with
              | Ok (p1, s1) => match sobol_init s1 with
                | Ok s2 => match sobol_next s2 1 with Ok (q, s3) => Some (map B2SF q, map B2SF p1) | _ => None end
                | _ => None end
              | _ => None end = Some (map B2SF [f64lit 1 (-1)], map B2SF [f64lit 3 (-2)])).
  { vm_compute. reflexivity. }
  destruct (sobol_next sobol0 1) as [[p1 s1]| | |] eqn:E1; try discriminate.
  destruct (sobol_init s1) as [s2| | |] eqn:E2; try discriminate.
  destruct (sobol_next s2 1) as [[q s3]| | |] eqn:E3; try discriminate.
  exists sobol0, p1, s1, s2, q, s3. rewrite new_sobol_eq. repeat split; auto.
  injection T as -> ->. vm_compute. discriminate.
Qed.

Lemma sst_reinit d base n s : d <= 6 -> sst d base n s ->
  exists s', sobol_init s = Ok s' /\ sst d (gray (n + 1)) n s'.
Proof.
  intros Hd [Num Len Iv Ini Ix]. unfold sobol_init. rewrite Ini. eexists. split; [reflexivity|].
  constructor; cbn [seqNum six siv isInit]; auto.
  - now rewrite zlen_map.
  - intros k Hk. rewrite (zn_map _ 0) by lia. rewrite Z.lxor_nilpotent. symmetry. apply lin_0.
Qed.

Lemma reinit_arg p c m : 0 <= p -> 0 <= c -> 0 <= m -> m + 1 < 2 ^ p ->
  Z.lxor (gray (c * 2 ^ p + m + 1)) (gray (c * 2 ^ p + 1)) = Z.lxor (gray (m + 1)) 1.
Proof.
  intros Hp Hc Hm H.
  replace (c * 2 ^ p + m + 1) with (c * 2 ^ p + (m + 1)) by lia.
  rewrite (add_low c p (m + 1)) by lia. rewrite (add_low c p 1) by lia.
  rewrite !gray_lxor. change (gray 1) with 1.
  apply Z.bits_inj; intro i. rewrite !Z.lxor_spec. btauto.
Qed.

Lemma sobol_reinit_partial d p c m :
  1 <= d <= 6 -> 0 <= p -> 0 <= c -> Z.of_nat m + 1 < 2 ^ p ->
  c * 2 ^ p + Z.of_nat m <= 2 ^ 30 - 2 ->
  exists s0 pts s pre s1 s2 s3, new_sobol = Ok s0 /\
    draws (fun s => sobol_next s d) m s0 = Ok (pts, s) /\
    draws (fun s => sobol_next s d) (Z.to_nat (c * 2 ^ p)) s0 = Ok (pre, s1) /\
    sobol_init s1 = Ok s2 /\
    draws (fun s => sobol_next s d) m s2 = Ok (pts, s3).
Proof.
  intros Hd Hp Hc Hm H.
  assert (P : 0 <= c * 2 ^ p) by (apply Z.mul_nonneg_nonneg; auto; apply Z.pow_nonneg; lia).
  destruct (sobol_draws d 1 ltac:(lia) m 0 sobol0 ltac:(lia) ltac:(lia) (sst_init d ltac:(lia)))
    as (pts & s & E & L & _ & C).
  set (n := c * 2 ^ p) in *.
  destruct (sobol_draws d 1 ltac:(lia) (Z.to_nat n) 0 sobol0 ltac:(lia) ltac:(lia) (sst_init d ltac:(lia)))
    as (pre & s1 & E1 & L1 & S1 & _).
  replace (0 + Z.of_nat (Z.to_nat n)) with n in S1 by lia.
  destruct (sst_reinit d 1 n s1 ltac:(lia) S1) as (s2 & E2 & S2).
  destruct (sobol_draws d (gray (n + 1)) ltac:(lia) m n s2 ltac:(lia) ltac:(lia) S2)
    as (pts' & s3 & E3 & L3 & _ & C3).
  assert (EQ : pts' = pts).
  { apply (nth_ext _ _ [] []); [lia|]. intros i Hi.
    destruct (C i ltac:(lia)) as [Li Ci]. destruct (C3 i ltac:(lia)) as [Li' Ci'].
    apply (list_ext (nofZ 0)); [lia|]. intros k Hk. rewrite Ci, Ci' by lia. unfold coord.
    f_equal. f_equal.
    replace (n + 1 + Z.of_nat i + 1) with (c * 2 ^ p + (Z.of_nat i + 1) + 1) by lia.
    unfold n. rewrite reinit_arg by lia. f_equal. f_equal. lia. }
  subst pts'. exists sobol0, pts, s, pre, s1, s2, s3. rewrite new_sobol_eq. auto 10.
Qed.

(** Whatever the history before it, a re-initialised sequence still delivers
    in-range, pairwise distinct values. *)
Lemma sobol_reinit_distinct d n m :
  1 <= d <= 6 -> Z.of_nat n + Z.of_nat m <= 2 ^ 30 - 2 ->
  exists s0 pre s1 s2 pts s3, new_sobol = Ok s0 /\
    draws (fun s => sobol_next s d) n s0 = Ok (pre, s1) /\ sobol_init s1 = Ok s2 /\
    draws (fun s => sobol_next s d) m s2 = Ok (pts, s3) /\ length pts = m /\
    Forall (fun p => zlen p = d /\ Forall unit64 p) pts /\
    forall i j k, (i < j < m)%nat -> (Z.of_nat k < d) ->
      B2R (nth k (nth i pts []) (nofZ 0)) <> B2R (nth k (nth j pts []) (nofZ 0)).
Proof.
  intros Hd H.
  destruct (sobol_draws d 1 ltac:(lia) n 0 sobol0 ltac:(lia) ltac:(lia) (sst_init d ltac:(lia)))
    as (pre & s1 & E1 & L1 & S1 & _).
  replace (0 + Z.of_nat n) with (Z.of_nat n) in S1 by lia.
  destruct (sst_reinit d 1 (Z.of_nat n) s1 ltac:(lia) S1) as (s2 & E2 & S2).
  destruct (sobol_draws d _ ltac:(lia) m (Z.of_nat n) s2 ltac:(lia) ltac:(lia) S2)
    as (pts & s3 & E3 & L3 & _ & C).
  exists sobol0, pre, s1, s2, pts, s3. rewrite new_sobol_eq. do 5 (split; auto). split.
  - apply Forall_forall. intros p Hp. apply (In_nth _ _ []) in Hp. destruct Hp as (i & Hi & <-).
    destruct (C i ltac:(lia)) as [Lp Cp]. split; auto.
    apply Forall_forall. intros x Hx. apply (In_zn (nofZ 0)) in Hx. destruct Hx as (k & Hk & <-).
    rewrite Cp by lia. apply coord_unit. lia.
  - intros i j k Hij Hk Heq.
    destruct (C i ltac:(lia)) as [_ Ci]. destruct (C j ltac:(lia)) as [_ Cj].
    specialize (Ci (Z.of_nat k) ltac:(lia)). specialize (Cj (Z.of_nat k) ltac:(lia)).
    unfold zn in Ci, Cj. rewrite Nat2Z.id in Ci, Cj. rewrite Ci, Cj in Heq.
    apply coord_inj in Heq; try lia. apply gray_range; lia.
Qed.
