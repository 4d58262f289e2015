(** Linear, bilinear and trilinear interpolation in exact arithmetic. *)
From Coq Require Import ZArith List Lia Lra Bool Reals Psatz.
From Coq Require Import ZifyBool ZifyNat.
From Flocq Require Import Core.Raux.
From Verif Require Import Base.Res Base.ResFacts Base.Num Model.Interp Spec.Interpolation.
Import ListNotations.
Open Scope R_scope.

Ltac rn := cbn [nadd nsub nmul ndiv nopp nabs nltb nleb neqb nofZ ntrunc nfloor RNum] in *.

(** ** Tables as functions of the index *)
Definition incf (n : Z) (f : Z -> R) := forall i, (0 <= i < n - 1)%Z -> f i < f (i + 1)%Z.

Lemma incf_lt n f : incf n f -> forall i j, (0 <= i < j)%Z -> (j < n)%Z -> f i < f j.
Proof.
  intros H i j Hij Hj. replace j with (i + 1 + Z.of_nat (Z.to_nat (j - i - 1)))%Z by lia.
  assert (i + 1 + Z.of_nat (Z.to_nat (j - i - 1)) < n)%Z as B by lia. revert B.
  generalize (Z.to_nat (j - i - 1)). induction n0; intros B.
  - replace (i + 1 + Z.of_nat 0)%Z with (i + 1)%Z by lia. apply H. lia.
  - eapply Rlt_trans; [apply IHn0; lia|].
    replace (i + 1 + Z.of_nat (S n0))%Z with (i + 1 + Z.of_nat n0 + 1)%Z by lia. apply H. lia.
Qed.

Lemma incf_le n f : incf n f -> forall i j, (0 <= i <= j)%Z -> (j < n)%Z -> f i <= f j.
Proof.
  intros H i j Hij Hj. destruct (Z.eq_dec i j) as [->|N]; [lra|].
  left. apply (incf_lt n); auto; lia.
Qed.

Lemma incf_inv n f : incf n f -> forall i j, (0 <= i < n)%Z -> (0 <= j < n)%Z -> f i < f j -> (i < j)%Z.
Proof.
  intros H i j Hi Hj L. destruct (Z_lt_le_dec i j); auto.
  pose proof (incf_le n f H j i ltac:(lia) ltac:(lia)). lra.
Qed.

Lemma increasing_incf xs : increasing xs -> incf (zlen xs) (zn 0 xs).
Proof.
  induction xs as [|a [|b t] IH]; intros H i Hi.
  - cbn in Hi; lia.
  - cbn in Hi; lia.
  - destruct H as [H1 H2]. rewrite zlen_cons in Hi.
    destruct (Z.eq_dec i 0) as [->|N]; [exact H1|].
    specialize (IH H2 (i - 1)%Z ltac:(lia)).
    unfold zn in *. replace (Z.to_nat i) with (S (Z.to_nat (i - 1))) by lia.
    replace (Z.to_nat (i + 1)) with (S (Z.to_nat (i - 1 + 1))) by lia. exact IH.
Qed.

Lemma incf_increasing xs : incf (zlen xs) (zn 0 xs) -> increasing xs.
Proof.
  induction xs as [|a [|b t] IH]; intros H; cbn [increasing]; auto.
  split; [apply (H 0%Z); rewrite !zlen_cons; pose proof (zlen_nonneg t); lia|].
  apply IH. intros i Hi. specialize (H (i + 1)%Z). rewrite zlen_cons in H. specialize (H ltac:(lia)).
  unfold zn in *. replace (Z.to_nat (i + 1 + 1)) with (S (Z.to_nat (i + 1))) in H by lia.
  replace (Z.to_nat (i + 1)) with (S (Z.to_nat i)) in H at 1 by lia. exact H.
Qed.

(** The value on piece [i]. *)
Definition piece (xf vf : Z -> R) (i : Z) (x : R) : R :=
  vf i + (x - xf i) * (vf (i + 1)%Z - vf i) / (xf (i + 1)%Z - xf i).

Definition pl (n : Z) (xf vf : Z -> R) (x v : R) : Prop :=
  exists i, (0 <= i < n - 1)%Z /\ xf i <= x <= xf (i + 1)%Z /\ v = piece xf vf i x.

Lemma pl_fun n xf vf x v v' : incf n xf -> pl n xf vf x v -> pl n xf vf x v' -> v = v'.
Proof.
  intros I.
  assert (forall i j, (0 <= i < j)%Z -> (j < n - 1)%Z -> xf i <= x <= xf (i + 1)%Z ->
    xf j <= x <= xf (j + 1)%Z -> piece xf vf i x = piece xf vf j x) as K.
  { intros i j Hij Hj Xi Xj.
    destruct (Z.eq_dec j (i + 1)) as [->|N].
    - assert (x = xf (i + 1)%Z) as -> by lra. unfold piece.
      pose proof (I i ltac:(lia)). pose proof (I (i + 1)%Z ltac:(lia)). field. lra.
    - pose proof (incf_lt n xf I (i + 1)%Z j ltac:(lia) ltac:(lia)). lra. }
  intros [i [Hi [Xi ->]]] [j [Hj [Xj ->]]].
  destruct (Z.lt_trichotomy i j) as [L|[->|L]]; auto.
  - apply K; auto; lia.
  - symmetry. apply K; auto; lia.
Qed.

Lemma pl_range n xf vf x v : incf n xf -> pl n xf vf x v -> xf 0%Z <= x <= xf (n - 1)%Z.
Proof.
  intros I [i [Hi [Xi _]]].
  pose proof (incf_le n xf I 0%Z i ltac:(lia) ltac:(lia)).
  pose proof (incf_le n xf I (i + 1)%Z (n - 1)%Z ltac:(lia) ltac:(lia)). lra.
Qed.

Lemma segment_piece x1 x2 v1 v2 x v : x1 < x2 ->
  on_segment (x1, v1) (x2, v2) x v <->
  x1 <= x <= x2 /\ v = v1 + (x - x1) * (v2 - v1) / (x2 - x1).
Proof.
  intros L. unfold on_segment; cbn [fst snd]. split.
  - intros [t [Ht [-> ->]]]. split; [split; nra|]. field. lra.
  - intros [Hx ->]. exists ((x - x1) / (x2 - x1)). split; [|split; field; lra].
    split.
    + apply Rmult_le_pos; [lra|]. left. apply Rinv_0_lt_compat. lra.
    + apply (Rmult_le_reg_r (x2 - x1)); [lra|]. unfold Rdiv. rewrite Rmult_assoc, Rinv_l by lra. lra.
Qed.

Lemma zn_combine (xs vs : list R) i : zlen xs = zlen vs ->
  zn (0, 0) (combine xs vs) i = (zn 0 xs i, zn 0 vs i).
Proof. intros H. unfold zn. apply combine_nth. unfold zlen in H. lia. Qed.

Lemma zlen_combine {A B} (xs : list A) (vs : list B) : zlen xs = zlen vs -> zlen (combine xs vs) = zlen xs.
Proof. intros H. unfold zlen in *. rewrite combine_length. lia. Qed.

Lemma polyline_pl xs vs x v : increasing xs -> zlen xs = zlen vs ->
  on_polyline (combine xs vs) x v <-> pl (zlen xs) (zn 0 xs) (zn 0 vs) x v.
Proof.
  intros I E. pose proof (increasing_incf _ I) as If. split.
  - intros [l [p [q [r [C S]]]]].
    pose proof (zlen_combine xs vs E) as L. rewrite C, zlen_app, !zlen_cons in L.
    pose proof (zlen_nonneg l). pose proof (zlen_nonneg r).
    pose proof (zn_combine xs vs (zlen l) E) as Z1. pose proof (zn_combine xs vs (zlen l + 1) E) as Z2.
    rewrite C, zn_app in Z1, Z2 by lia.
    destruct (Z.ltb_spec (zlen l) (zlen l)); [lia|]. destruct (Z.ltb_spec (zlen l + 1) (zlen l)); [lia|].
    replace (zlen l - zlen l)%Z with 0%Z in Z1 by lia.
    replace (zlen l + 1 - zlen l)%Z with 1%Z in Z2 by lia.
    change (zn (0, 0) (p :: q :: r) 0%Z) with p in Z1.
    change (zn (0, 0) (p :: q :: r) 1%Z) with q in Z2. subst p q.
    apply segment_piece in S; [|apply If; lia].
    exists (zlen l). split; [lia|]. exact S.
  - intros [i [Hi [Hx Hv]]].
    exists (firstn (Z.to_nat i) (combine xs vs)), (zn 0 xs i, zn 0 vs i),
      (zn 0 xs (i + 1)%Z, zn 0 vs (i + 1)%Z), (skipn (S (S (Z.to_nat i))) (combine xs vs)).
    split; [|apply segment_piece; [apply If; lia|split; auto]].
    rewrite <- !zn_combine by auto.
    pose proof (zlen_combine xs vs E) as L. unfold zlen in L, Hi.
    rewrite (nth_split_eq (0, 0) (combine xs vs) (Z.to_nat i)) at 1 by lia. f_equal.
    unfold zn at 1. f_equal.
    assert (Z.to_nat (i + 1) = S (Z.to_nat i)) as E1 by lia.
    unfold zn. rewrite E1. 
    assert (forall A (d : A) k (m : list A), (k < length m)%nat -> skipn k m = nth k m d :: skipn (S k) m) as K.
    { clear. induction k; destruct m; cbn; intros; try lia; auto. apply IHk. lia. }
    apply K. lia.
Qed.

(** ** Searchers *)
Record good (s : searcher R) (n : Z) (f : Z -> R) : Prop := {
  g_n : (2 <= n)%Z;
  g_sn : s_n s = n;
  g_inc : incf n f;
  g_val : forall i, (0 <= i < n)%Z -> val s i = Ok (f i);
  g_in : forall x, f 0%Z <= x <= f (n - 1)%Z ->
    exists i, search s x = Ok i /\ (0 <= i < n - 1)%Z /\ f i <= x <= f (i + 1)%Z;
  g_out : forall x, ~ (f 0%Z <= x <= f (n - 1)%Z) -> search s x = Panic
}.

Lemma bin_search_incr xs x : (2 <= zlen xs)%Z -> incf (zlen xs) (zn 0 xs) ->
  zn 0 xs 0 <= x <= zn 0 xs (zlen xs - 1)%Z ->
  wp (bin_search (S (length xs)) xs true x (zlen xs - 1))
    (fun i => (0 <= i < zlen xs - 1)%Z /\ zn 0 xs i <= x <= zn 0 xs (i + 1)%Z).
Proof.
  intros N I X. unfold bin_search.
  apply loop_inv with
    (I := fun '(lo, hi) => (0 <= lo < hi)%Z /\ (hi <= zlen xs - 1)%Z /\ zn 0 xs lo <= x <= zn 0 xs hi)
    (measure := fun '(lo, hi) => Z.to_nat (hi - lo)).
  - intros [lo hi] [H1 [H2 H3]]. rewrite Z.gtb_ltb. destruct (Z.ltb_spec 1 (hi - lo)).
    + assert (Z.quot (lo + hi) 2 = ((lo + hi) / 2)%Z) as Q by (apply Z.quot_div_nonneg; lia).
      rewrite Q. assert (lo < (lo + hi) / 2 < hi)%Z by lia.
      generalize dependent ((lo + hi) / 2)%Z. intros m _ Hm.
      rewrite (get_ok 0) by lia. cbn [bind]. rn.
      destruct (Rle_bool_spec (zn 0 xs m) x); cbn [Bool.eqb wp]; (split; [split; [lia|split; [lia|lra]]|lia]).
    + cbn [wp]. split; [lia|]. replace (lo + 1)%Z with hi by lia. exact H3.
  - split; [lia|]. split; [lia|exact X].
  - unfold zlen. lia.
Qed.

Lemma guess_ok_incr xs x g : (2 <= zlen xs)%Z ->
  wp (guess_ok xs true x g)
    (fun b => b = true -> (0 <= g < zlen xs - 1)%Z /\ zn 0 xs g <= x <= zn 0 xs (g + 1)%Z).
Proof.
  intros N. unfold guess_ok. rewrite Z.geb_leb.
  destruct (Z.leb_spec 0 g), (Z.ltb_spec g (zlen xs - 1)); cbn [andb]; try (cbn [wp]; discriminate).
  rewrite (get_ok 0) by lia. cbn [bind]. rn.
  destruct (Rle_bool_spec (zn 0 xs g) x); cbn [Bool.eqb wp]; [|discriminate].
  rewrite (get_ok 0) by lia. cbn [bind wp].
  destruct (Rle_bool_spec x (zn 0 xs (g + 1)%Z)); cbn [Bool.eqb]; [|discriminate].
  intros _. split; [lia|lra].
Qed.

Lemma searcher_init_ok (xs : list R) : (2 <= zlen xs)%Z ->
  searcher_init xs = Ok (Searcher xs (zn 0 xs 0)
    ((zn 0 xs (zlen xs - 1)%Z - zn 0 xs 0) / IZR (zlen xs - 1)) (zn 0 xs (zlen xs - 1)%Z)
    (zlen xs) false
    (Rlt_bool 0 ((zn 0 xs (zlen xs - 1)%Z - zn 0 xs 0) / IZR (zlen xs - 1)))).
Proof. intros H. unfold searcher_init. rewrite !(get_ok 0) by lia. reflexivity. Qed.

Lemma good_init xs : (2 <= zlen xs)%Z -> increasing xs ->
  exists s, searcher_init xs = Ok s /\ good s (zlen xs) (zn 0 xs).
Proof.
  intros N I. pose proof (increasing_incf _ I) as If. rewrite searcher_init_ok by auto.
  eexists. split; [reflexivity|].
  pose proof (incf_lt _ _ If 0%Z (zlen xs - 1)%Z ltac:(lia) ltac:(lia)) as LT.
  assert (0 < (zn 0 xs (zlen xs - 1)%Z - zn 0 xs 0) / IZR (zlen xs - 1)) as D.
  { apply Rdiv_lt_0_compat; [lra|]. apply IZR_lt. lia. }
  split; cbn [s_n s_xs s_x0 s_lim s_unif s_dx s_incr]; auto.
  - intros i Hi. unfold val; cbn [s_unif s_xs]. apply get_ok. lia.
  - intros x X. unfold search; cbn [s_n s_xs s_x0 s_lim s_unif s_dx s_incr]. rn.
    destruct (Rlt_bool_spec (zn 0 xs (zlen xs - 1)%Z) x); [lra|].
    destruct (Rlt_bool_spec x (zn 0 xs 0)); [lra|]. cbn [orb].
    rewrite (get_ok 0) by lia. cbn [bind]. rewrite Rlt_bool_true by exact D.
    set (g := Ztrunc _). pose proof (guess_ok_incr xs x g N) as G.
    apply wp_ok in G. destruct G as [b [-> G]]. cbn [bind]. destruct b.
    + exists g. split; auto.
    + pose proof (bin_search_incr xs x N If X) as B. apply wp_ok in B. destruct B as [i [-> B]].
      exists i. auto.
  - intros x X. unfold search; cbn [s_n s_xs s_x0 s_lim s_unif s_dx s_incr]. rn.
    destruct (Rlt_bool_spec (zn 0 xs (zlen xs - 1)%Z) x); [reflexivity|].
    destruct (Rlt_bool_spec x (zn 0 xs 0)); [reflexivity|]. exfalso. apply X. lra.
Qed.

Definition uf (x0 dx : R) (i : Z) : R := IZR i * dx + x0.

Lemma good_unif x0 dx n : (2 <= n)%Z -> 0 < dx -> good (searcher_unif x0 dx n) n (uf x0 dx).
Proof.
  intros N D. split; cbn [searcher_unif s_n s_xs s_x0 s_lim s_unif s_dx s_incr]; auto.
  - intros i Hi. unfold uf. rewrite plus_IZR. lra.
  - intros x X. unfold search; cbn [searcher_unif s_n s_xs s_x0 s_lim s_unif s_dx s_incr]. rn.
    unfold uf in X. 
    destruct (Rlt_bool_spec (IZR (n - 1) * dx + x0) x); [lra|].
    destruct (Rlt_bool_spec x x0); [lra|]. cbn [orb].
    assert (0 <= (x - x0) / dx) as Q0 by (apply Rmult_le_pos; [lra|left; apply Rinv_0_lt_compat; lra]).
    assert (x = (x - x0) / dx * dx + x0) as EX by (field; lra).
    assert ((x - x0) / dx <= IZR (n - 1)) as Q1.
    { apply (Rmult_le_reg_r dx); auto. unfold Rdiv. rewrite Rmult_assoc, Rinv_l by lra. lra. }
    generalize dependent ((x - x0) / dx). intros q Q0 EX Q1.
    rewrite Ztrunc_floor by auto. pose proof (Zfloor_lb q). pose proof (Zfloor_ub q).
    assert (0 <= Zfloor q)%Z by (apply Zfloor_lub; auto).
    assert (Zfloor q <= n - 1)%Z by (apply le_IZR; lra).
    eexists; split; [reflexivity|]. unfold uf.
    destruct (Z.eqb_spec (Zfloor q) (n - 1)) as [E|E].
    + rewrite E in *. split; [lia|]. replace (n - 1 - 1 + 1)%Z with (n - 1)%Z by lia.
      rewrite (minus_IZR (n - 1)). assert (q = IZR (n - 1)) by lra. nra.
    + split; [lia|]. rewrite plus_IZR. rewrite EX. nra.
  - intros x X. unfold search; cbn [searcher_unif s_n s_xs s_x0 s_lim s_unif s_dx s_incr]. rn.
    unfold uf in X.
    destruct (Rlt_bool_spec (IZR (n - 1) * dx + x0) x); [reflexivity|].
    destruct (Rlt_bool_spec x x0); [reflexivity|]. exfalso. apply X. lra.
Qed.

(** ** Linear *)
Lemma linear_eval_good s n f vals x : good s n f -> zlen vals = n ->
  (f 0%Z <= x <= f (n - 1)%Z -> exists v, linear_eval (Linear s vals) x = Ok v /\ pl n f (zn 0 vals) x v) /\
  (~ (f 0%Z <= x <= f (n - 1)%Z) -> linear_eval (Linear s vals) x = Panic).
Proof.
  intros G L. split; intros X; unfold linear_eval; cbn [lin_xs lin_vals].
  - destruct (g_in _ _ _ G x X) as [i [-> [Hi Hx]]]. cbn [bind].
    rewrite !(g_val _ _ _ G) by lia. cbn [bind]. rewrite !(get_ok 0) by lia. cbn [bind]. rn.
    eexists; split; [reflexivity|]. exists i. split; [lia|]. split; [auto|].
    unfold piece. pose proof (g_inc _ _ _ G i ltac:(lia)). field. lra.
  - rewrite (g_out _ _ _ G x X). reflexivity.
Qed.

Lemma hd_zn (xs : list R) : hd 0 xs = zn 0 xs 0.
Proof. destruct xs; reflexivity. Qed.

Lemma last_zn (xs : list R) : last xs 0 = zn 0 xs (zlen xs - 1)%Z.
Proof.
  induction xs as [|a [|b t] IH]; [reflexivity|reflexivity|].
  change (last (a :: b :: t) 0) with (last (b :: t) 0). rewrite IH. unfold zn. rewrite !zlen_cons.
  pose proof (zlen_nonneg t).
  replace (Z.to_nat (1 + (1 + zlen t) - 1)) with (S (Z.to_nat (1 + zlen t - 1))) by lia. reflexivity.
Qed.

Lemma zlen2 {A} (xs : list A) : (2 <= length xs)%nat -> (2 <= zlen xs)%Z.
Proof. unfold zlen. lia. Qed.

Lemma linear_ok xs vals x : increasing xs -> (2 <= length xs)%nat -> length vals = length xs ->
  exists l, new_linear xs vals = Ok l /\
    (forall v, linear_eval l x = Ok v <-> on_polyline (combine xs vals) x v) /\
    (in_range_of xs x -> exists v, linear_eval l x = Ok v) /\
    (~ in_range_of xs x -> linear_eval l x = Panic).
Proof.
  intros I N E. apply zlen2 in N.
  assert (zlen xs = zlen vals) as EL by (unfold zlen; lia).
  destruct (good_init xs N I) as [s [Hs G]]. exists (Linear s vals).
  unfold new_linear. rewrite EL, Z.eqb_refl. cbn [negb]. rewrite Hs. cbn [bind].
  unfold in_range_of. rewrite hd_zn, last_zn.
  destruct (linear_eval_good _ _ _ vals x G (eq_sym EL)) as [Hin Hout].
  split; [reflexivity|]. split; [|split; [intros H; destruct (Hin H) as [v [? _]]; eauto|auto]].
  intros v. rewrite polyline_pl by auto. split; intros H.
  - destruct (Rle_dec (zn 0 xs 0) x), (Rle_dec x (zn 0 xs (zlen xs - 1)%Z)).
    + destruct (Hin (conj r r0)) as [v' [E' P]]. rewrite H in E'. injection E' as ->. exact P.
    + rewrite Hout in H by lra. discriminate.
    + rewrite Hout in H by lra. discriminate.
    + rewrite Hout in H by lra. discriminate.
  - destruct (Hin (pl_range _ _ _ _ _ (g_inc _ _ _ G) H)) as [v' [E' P]].
    rewrite E'. f_equal. eapply pl_fun; eauto. exact (g_inc _ _ _ G).
Qed.

Lemma pl_node n f vf i : incf n f -> (2 <= n)%Z -> (0 <= i < n)%Z -> pl n f vf (f i) (vf i).
Proof.
  intros I N Hi. destruct (Z.eq_dec i (n - 1)) as [->|K].
  - pose proof (I (n - 2)%Z ltac:(lia)) as L.
    exists (n - 2)%Z. unfold piece. replace (n - 2 + 1)%Z with (n - 1)%Z in * by lia.
    split; [lia|]. split; [lra|]. field. lra.
  - pose proof (I i ltac:(lia)) as L. exists i. unfold piece. split; [lia|]. split; [lra|]. field. lra.
Qed.

Lemma linear_node xs vals i : increasing xs -> (2 <= length xs)%nat -> length vals = length xs ->
  (i < length xs)%nat ->
  exists l, new_linear xs vals = Ok l /\ linear_eval l (nth i xs 0) = Ok (nth i vals 0).
Proof.
  intros I N E Hi. destruct (linear_ok xs vals (nth i xs 0) I N E) as [l [Hl [H _]]].
  exists l. split; auto. apply H. apply polyline_pl; auto; [unfold zlen; lia|].
  pose proof (pl_node (zlen xs) (zn 0 xs) (zn 0 vals) (Z.of_nat i) (increasing_incf _ I) (zlen2 _ N)) as P.
  replace (zn 0 xs (Z.of_nat i)) with (nth i xs 0) in P by (unfold zn; now rewrite Nat2Z.id).
  replace (zn 0 vals (Z.of_nat i)) with (nth i vals 0) in P by (unfold zn; now rewrite Nat2Z.id).
  apply P. unfold zlen. lia.
Qed.

(** Decreasing tables: every evaluation panics. *)
Lemma decreasing_last xs : decreasing xs -> (2 <= length xs)%nat -> last xs 0 < hd 0 xs.
Proof.
  induction xs as [|a [|b t] IH]; cbn [length]; intros D N; try lia.
  destruct D as [D1 D2]. change (last (a :: b :: t) 0) with (last (b :: t) 0). cbn [hd].
  destruct t; [cbn; lra|]. specialize (IH D2 ltac:(cbn; lia)). cbn [hd] in IH. lra.
Qed.

Lemma linear_decreasing xs vals x : decreasing xs -> (2 <= length xs)%nat -> length vals = length xs ->
  exists l, new_linear xs vals = Ok l /\ linear_eval l x = Panic.
Proof.
  intros D N E. pose proof (decreasing_last xs D N) as L. rewrite hd_zn, last_zn in L. apply zlen2 in N.
  assert (zlen xs = zlen vals) as EL by (unfold zlen; lia).
  unfold new_linear. rewrite EL, Z.eqb_refl. cbn [negb]. rewrite searcher_init_ok by auto. cbn [bind].
  eexists; split; [reflexivity|]. unfold linear_eval, search; cbn [lin_xs s_lim s_x0]. rn.
  destruct (Rlt_bool_spec (zn 0 xs (zlen xs - 1)%Z) x); [reflexivity|].
  destruct (Rlt_bool_spec x (zn 0 xs 0)); [reflexivity|]. lra.
Qed.

(** Uniform tables. *)
Lemma zn_unif x0 dx n i : (0 <= i < Z.of_nat n)%Z -> zn 0 (unif_xs x0 dx n) i = uf x0 dx i.
Proof.
  intros H. unfold zn, unif_xs, uf.
  rewrite (nth_indep _ 0 (x0 + INR 0 * dx)) by (rewrite map_length, seq_length; lia).
  rewrite (map_nth (fun i => x0 + INR i * dx)). rewrite seq_nth by lia.
  rewrite INR_IZR_INZ. replace (Z.of_nat (0 + Z.to_nat i)) with i by lia. lra.
Qed.

Lemma zlen_unif x0 dx n : zlen (unif_xs x0 dx n) = Z.of_nat n.
Proof. unfold zlen, unif_xs. now rewrite map_length, seq_length. Qed.

Lemma unif_increasing x0 dx n : 0 < dx -> increasing (unif_xs x0 dx n).
Proof.
  intros D. apply incf_increasing. intros i Hi. rewrite zlen_unif in Hi. rewrite !zn_unif by lia.
  unfold uf. rewrite plus_IZR. lra.
Qed.

Lemma pl_ext n f g vf wf x v : (forall i, (0 <= i < n)%Z -> f i = g i) ->
  (forall i, (0 <= i < n)%Z -> vf i = wf i) -> pl n f vf x v -> pl n g wf x v.
Proof.
  intros H W [i [Hi [Hx ->]]]. exists i. unfold piece. rewrite <- !H, <- !W by lia. auto.
Qed.

Lemma unif_linear_ok x0 dx vals x : 0 < dx -> (2 <= length vals)%nat ->
  exists l, new_linear (unif_xs x0 dx (length vals)) vals = Ok l /\
    linear_eval (new_uniform_linear x0 dx vals) x = linear_eval l x.
Proof.
  intros D N. pose proof (zlen2 _ N) as N'.
  pose proof (zlen_unif x0 dx (length vals)) as ZL.
  destruct (good_init (unif_xs x0 dx (length vals))) as [s [Hs G]];
    [rewrite ZL; unfold zlen in N'; lia|apply unif_increasing; auto|].
  exists (Linear s vals). unfold new_linear. rewrite ZL. fold (zlen vals). rewrite Z.eqb_refl. cbn [negb].
  rewrite Hs. split; [reflexivity|].
  rewrite ZL in G. fold (zlen vals) in G.
  pose proof (good_unif x0 dx (zlen vals) N' D) as U.
  destruct (linear_eval_good _ _ _ vals x G eq_refl) as [A1 A2].
  destruct (linear_eval_good _ _ _ vals x U eq_refl) as [B1 B2].
  rewrite !zn_unif in A1, A2 by (unfold zlen in *; lia).
  unfold new_uniform_linear.
  destruct (Rle_dec (uf x0 dx 0) x), (Rle_dec x (uf x0 dx (zlen vals - 1)%Z));
    try (rewrite A2, B2 by lra; reflexivity).
  destruct (A1 (conj r r0)) as [v [-> P]]. destruct (B1 (conj r r0)) as [w [-> Q]].
  f_equal. eapply pl_fun; [apply (g_inc _ _ _ U)|exact Q|].
  eapply pl_ext; [|reflexivity|exact P]. intros i Hi. apply zn_unif. unfold zlen in Hi. lia.
Qed.

(** ** Bilinear *)
Definition pl2 (nx ny : Z) (xf yf : Z -> R) (vf : Z -> Z -> R) (x y v : R) : Prop :=
  exists w, (forall j, (0 <= j < ny)%Z -> pl nx xf (fun i => vf i j) x (w j)) /\ pl ny yf w y v.

Lemma pl2_fun nx ny xf yf vf x y v v' : incf nx xf -> incf ny yf ->
  pl2 nx ny xf yf vf x y v -> pl2 nx ny xf yf vf x y v' -> v = v'.
Proof.
  intros Ix Iy [w [H P]] [w' [H' P']]. eapply pl_fun; [exact Iy|exact P|].
  eapply pl_ext; [reflexivity| |exact P'].
  intros i Hi. eapply pl_fun; [exact Ix|apply H'; auto|apply H; auto].
Qed.

Lemma pl2_range nx ny xf yf vf x y v : (1 <= ny)%Z -> incf nx xf -> incf ny yf ->
  pl2 nx ny xf yf vf x y v -> xf 0%Z <= x <= xf (nx - 1)%Z /\ yf 0%Z <= y <= yf (ny - 1)%Z.
Proof.
  intros N Ix Iy [w [H P]]. split; [eapply pl_range; [exact Ix|apply (H 0%Z); lia]|].
  eapply pl_range; eauto.
Qed.

Lemma idx2_bound nx ny i j : (0 <= i < nx)%Z -> (0 <= j < ny)%Z -> (0 <= i + nx * j < nx * ny)%Z.
Proof. intros. nia. Qed.

Lemma bilinear_eval_good sx sy nx ny xf yf vals x y :
  good sx nx xf -> good sy ny yf -> zlen vals = (nx * ny)%Z ->
  (xf 0%Z <= x <= xf (nx - 1)%Z /\ yf 0%Z <= y <= yf (ny - 1)%Z ->
     exists v, bilinear_eval (BiLinear sx sy vals nx) x y = Ok v /\
       pl2 nx ny xf yf (fun i j => zn 0 vals (i + nx * j)%Z) x y v) /\
  (~ (xf 0%Z <= x <= xf (nx - 1)%Z /\ yf 0%Z <= y <= yf (ny - 1)%Z) ->
     bilinear_eval (BiLinear sx sy vals nx) x y = Panic).
Proof.
  intros Gx Gy L. split; intros X; unfold bilinear_eval; cbn [bl_xs bl_ys bl_vals bl_nx].
  - destruct X as [Xx Xy].
    destruct (g_in _ _ _ Gx x Xx) as [i [-> [Hi Hx]]]. cbn [bind].
    destruct (g_in _ _ _ Gy y Xy) as [j [-> [Hj Hy]]]. cbn [bind].
    rewrite (g_sn _ _ _ Gx), (g_sn _ _ _ Gy).
    destruct (Z.eqb_spec (i + 1) nx); [lia|]. destruct (Z.eqb_spec (j + 1) ny); [lia|].
    rewrite !(g_val _ _ _ Gx), !(g_val _ _ _ Gy) by lia. cbn [bind].
    pose proof (idx2_bound nx ny i j ltac:(lia) ltac:(lia)).
    pose proof (idx2_bound nx ny (i + 1) j ltac:(lia) ltac:(lia)).
    pose proof (idx2_bound nx ny i (j + 1) ltac:(lia) ltac:(lia)).
    pose proof (idx2_bound nx ny (i + 1) (j + 1) ltac:(lia) ltac:(lia)).
    rewrite !(get_ok 0) by lia. cbn [bind]. rn.
    eexists; split; [reflexivity|].
    exists (fun k => piece xf (fun i => zn 0 vals (i + nx * k)%Z) i x). split.
    + intros k Hk. exists i. split; [lia|]. split; [auto|reflexivity].
    + exists j. split; [lia|]. split; [auto|]. unfold piece.
      pose proof (g_inc _ _ _ Gx i ltac:(lia)). pose proof (g_inc _ _ _ Gy j ltac:(lia)). field. lra.
  - destruct (Rle_dec (xf 0%Z) x), (Rle_dec x (xf (nx - 1)%Z));
      try (rewrite (g_out _ _ _ Gx) by lra; reflexivity).
    destruct (g_in _ _ _ Gx x (conj r r0)) as [i [-> _]]. cbn [bind].
    rewrite (g_out _ _ _ Gy); [reflexivity|]. intros Y. apply X. split; [lra|exact Y].
Qed.

(** List-of-rows view. *)

Lemma concat_length {A} nx (rows : list (list A)) : rows_of nx rows ->
  length (concat rows) = (length rows * nx)%nat.
Proof. induction 1; cbn; auto. rewrite app_length. lia. Qed.

Lemma concat_nth {A} (d : A) nx (rows : list (list A)) : rows_of nx rows ->
  forall j i, (j < length rows)%nat -> (i < nx)%nat ->
  nth (i + nx * j) (concat rows) d = nth i (nth j rows []) d.
Proof.
  induction 1 as [|r rows Hr H IH]; cbn [length concat]; intros j i Hj Hi; [lia|].
  destruct j as [|j]; cbn [nth].
  - rewrite app_nth1 by lia. f_equal. lia.
  - rewrite app_nth2 by lia. rewrite <- IH by lia. f_equal. lia.
Qed.

Lemma zconcat_nth {A} (d : A) nx (rows : list (list A)) j i : rows_of nx rows ->
  (0 <= j < zlen rows)%Z -> (0 <= i < Z.of_nat nx)%Z ->
  zn d (concat rows) (i + Z.of_nat nx * j)%Z = zn d (zn [] rows j) i.
Proof.
  intros H Hj Hi. unfold zn. rewrite <- (concat_nth d nx) by (auto; unfold zlen in *; lia). f_equal. nia.
Qed.

Lemma rows_zn {A} nx (rows : list (list A)) j : rows_of nx rows -> (0 <= j < zlen rows)%Z ->
  length (zn [] rows j) = nx.
Proof. intros H Hj. unfold rows_of in H. rewrite Forall_forall in H. apply H. apply zn_In. auto. Qed.

Lemma Forall2_zn {A B} (P : A -> B -> Prop) d e l m :
  Forall2 P l m <-> zlen l = zlen m /\ forall i, (0 <= i < zlen l)%Z -> P (zn d l i) (zn e m i).
Proof.
  split.
  - induction 1 as [|a b l m Hab H IH]; [split; [reflexivity|cbn; lia]|].
    destruct IH as [L K]. rewrite !zlen_cons. split; [lia|]. intros i Hi.
    destruct (Z.eq_dec i 0) as [->|N]; [exact Hab|]. specialize (K (i - 1)%Z ltac:(lia)).
    unfold zn in *. replace (Z.to_nat i) with (S (Z.to_nat (i - 1))) by lia. exact K.
  - revert m. induction l as [|a l IH]; intros [|b m] [L K]; rewrite ?zlen_cons, ?zlen_nil in *;
      try (pose proof (zlen_nonneg l)); try (pose proof (zlen_nonneg m)); try lia; constructor.
    + apply (K 0%Z). lia.
    + apply IH. split; [lia|]. intros i Hi. specialize (K (i + 1)%Z ltac:(lia)).
      unfold zn in *. replace (Z.to_nat (i + 1)) with (S (Z.to_nat i)) in K by lia. exact K.
Qed.

Lemma bilinear_pl2 xs ys rows x y v : increasing xs -> increasing ys ->
  length rows = length ys -> rows_of (length xs) rows ->
  on_bilinear xs ys rows x y v <->
  pl2 (zlen xs) (zlen ys) (zn 0 xs) (zn 0 ys) (fun i j => zn 0 (concat rows) (i + zlen xs * j)%Z) x y v.
Proof.
  intros Ix Iy Lr R. unfold on_bilinear, pl2.
  assert (zlen rows = zlen ys) as LZ by (unfold zlen; lia).
  assert (forall j, (0 <= j < zlen ys)%Z -> zlen (zn [] rows j) = zlen xs) as RL.
  { intros j Hj. unfold zlen at 1. rewrite (rows_zn (length xs)) by (auto; lia). reflexivity. }
  split.
  - intros [ws [H P]]. apply (Forall2_zn _ [] 0) in H. destruct H as [L K].
    exists (zn 0 ws). split.
    + intros j Hj. specialize (K j ltac:(lia)). apply polyline_pl in K; auto; [|rewrite RL; auto].
      eapply pl_ext; [reflexivity| |exact K]. intros i Hi. symmetry.
      apply zconcat_nth; auto; unfold zlen in *; lia.
    + apply polyline_pl in P; auto. lia.
  - intros [w [H P]]. exists (ztab (zlen ys) w). pose proof (zlen_nonneg ys) as NN. split.
    + apply (Forall2_zn _ [] 0). rewrite zlen_ztab by lia. split; [lia|]. intros j Hj.
      rewrite zn_ztab by lia. apply polyline_pl; auto; [rewrite RL; auto; lia|].
      eapply pl_ext; [reflexivity| |apply H; lia]. intros i Hi.
      apply zconcat_nth; auto; unfold zlen in *; lia.
    + apply polyline_pl; auto; [rewrite zlen_ztab; lia|].
      eapply pl_ext; [reflexivity| |exact P]. intros i Hi. symmetry. apply zn_ztab. lia.
Qed.

Lemma in_range_dec (P Q : Prop) a b c : P -> {a <= b <= c} + {~ a <= b <= c}.
Proof. intros _. destruct (Rle_dec a b), (Rle_dec b c); [left; lra|right; lra..]. Qed.

Lemma bilinear_ok xs ys rows x y : increasing xs -> increasing ys ->
  (2 <= length xs)%nat -> (2 <= length ys)%nat ->
  length rows = length ys -> rows_of (length xs) rows ->
  exists b, new_bilinear xs ys (concat rows) = Ok b /\
    (forall v, bilinear_eval b x y = Ok v <-> on_bilinear xs ys rows x y v) /\
    (in_range_of xs x /\ in_range_of ys y -> exists v, bilinear_eval b x y = Ok v) /\
    (~ (in_range_of xs x /\ in_range_of ys y) -> bilinear_eval b x y = Panic).
Proof.
  intros Ix Iy Nx Ny Lr R. apply zlen2 in Nx, Ny.
  destruct (good_init xs Nx Ix) as [sx [Hx Gx]]. destruct (good_init ys Ny Iy) as [sy [Hy Gy]].
  assert (zlen (concat rows) = (zlen xs * zlen ys)%Z) as LC.
  { unfold zlen. rewrite (concat_length (length xs)) by auto. lia. }
  exists (BiLinear sx sy (concat rows) (zlen xs)).
  unfold new_bilinear. rewrite Hx, Hy. cbn [bind]. rewrite LC, Z.eqb_refl. cbn [negb].
  destruct (bilinear_eval_good _ _ _ _ _ _ (concat rows) x y Gx Gy LC) as [Hin Hout].
  unfold in_range_of. rewrite !hd_zn, !last_zn.
  split; [reflexivity|]. split; [|split; [intros H; destruct (Hin H) as [v [? _]]; eauto|auto]].
  intros v. rewrite bilinear_pl2 by auto. split; intros H.
  - destruct (in_range_dec True True (zn 0 xs 0) x (zn 0 xs (zlen xs - 1)%Z) I) as [A|A];
    destruct (in_range_dec True True (zn 0 ys 0) y (zn 0 ys (zlen ys - 1)%Z) I) as [B|B];
      try (rewrite Hout in H by tauto; discriminate).
    destruct (Hin (conj A B)) as [v' [E' P]]. rewrite H in E'. injection E' as ->. exact P.
  - destruct (Hin (pl2_range _ (zlen ys) _ _ _ _ _ _ ltac:(lia) (g_inc _ _ _ Gx) (g_inc _ _ _ Gy) H)) as [v' [E' P]].
    rewrite E'. f_equal. eapply pl2_fun; [exact (g_inc _ _ _ Gx)|exact (g_inc _ _ _ Gy)|exact P|exact H].
Qed.

Lemma pl2_node nx ny xf yf vf i j : incf nx xf -> incf ny yf -> (2 <= nx)%Z -> (2 <= ny)%Z ->
  (0 <= i < nx)%Z -> (0 <= j < ny)%Z -> pl2 nx ny xf yf vf (xf i) (yf j) (vf i j).
Proof.
  intros. exists (fun j => vf i j). split.
  - intros k Hk. apply (pl_node nx xf (fun i => vf i k)); auto.
  - apply (pl_node ny yf (fun j => vf i j)); auto.
Qed.

Lemma bilinear_node xs ys rows i j : increasing xs -> increasing ys ->
  (2 <= length xs)%nat -> (2 <= length ys)%nat ->
  length rows = length ys -> rows_of (length xs) rows ->
  (i < length xs)%nat -> (j < length ys)%nat ->
  exists b, new_bilinear xs ys (concat rows) = Ok b /\
    bilinear_eval b (nth i xs 0) (nth j ys 0) = Ok (nth i (nth j rows []) 0).
Proof.
  intros Ix Iy Nx Ny Lr R Hi Hj.
  destruct (bilinear_ok xs ys rows (nth i xs 0) (nth j ys 0) Ix Iy Nx Ny Lr R) as [b [Hb [H _]]].
  exists b. split; auto. apply H. apply bilinear_pl2; auto.
  rewrite <- (concat_nth 0 (length xs)) by (auto; lia).
  pose proof (pl2_node (zlen xs) (zlen ys) (zn 0 xs) (zn 0 ys)
    (fun i j => zn 0 (concat rows) (i + zlen xs * j)%Z) (Z.of_nat i) (Z.of_nat j)
    (increasing_incf _ Ix) (increasing_incf _ Iy) (zlen2 _ Nx) (zlen2 _ Ny)
    ltac:(unfold zlen; lia) ltac:(unfold zlen; lia)) as P.
  cbv beta in P.
  replace (zn 0 xs (Z.of_nat i)) with (nth i xs 0) in P by (unfold zn; now rewrite Nat2Z.id).
  replace (zn 0 ys (Z.of_nat j)) with (nth j ys 0) in P by (unfold zn; now rewrite Nat2Z.id).
  replace (nth (i + length xs * j) (concat rows) 0)
    with (zn 0 (concat rows) (Z.of_nat i + zlen xs * Z.of_nat j)%Z); [exact P|].
  unfold zn, zlen. f_equal. nia.
Qed.

(** The uniform constructor. *)
Lemma unif_bilinear_ok x0 dx nx y0 dy ny rows x y : 0 < dx -> 0 < dy ->
  (2 <= nx)%nat -> (2 <= ny)%nat -> length rows = ny -> rows_of nx rows ->
  exists b b', new_uniform_bilinear x0 dx (Z.of_nat nx) y0 dy (Z.of_nat ny) (concat rows) = Ok b /\
    new_bilinear (unif_xs x0 dx nx) (unif_xs y0 dy ny) (concat rows) = Ok b' /\
    bilinear_eval b x y = bilinear_eval b' x y.
Proof.
  intros Dx Dy Nx Ny Lr R.
  assert (length (unif_xs x0 dx nx) = nx) as LX by (unfold unif_xs; now rewrite map_length, seq_length).
  assert (length (unif_xs y0 dy ny) = ny) as LY by (unfold unif_xs; now rewrite map_length, seq_length).
  destruct (bilinear_ok (unif_xs x0 dx nx) (unif_xs y0 dy ny) rows x y) as [b' [Hb' [Hv [Hin Hout]]]];
    rewrite ?LX, ?LY; auto using unif_increasing.
  assert (zlen (concat rows) = (Z.of_nat nx * Z.of_nat ny)%Z) as LC.
  { unfold zlen. rewrite (concat_length nx) by auto. lia. }
  exists (BiLinear (searcher_unif x0 dx (Z.of_nat nx)) (searcher_unif y0 dy (Z.of_nat ny)) (concat rows) (Z.of_nat nx)).
  exists b'. unfold new_uniform_bilinear. rewrite LC, Z.eqb_refl. cbn [negb].
  split; [reflexivity|]. split; [exact Hb'|].
  pose proof (good_unif x0 dx (Z.of_nat nx) ltac:(lia) Dx) as Gx.
  pose proof (good_unif y0 dy (Z.of_nat ny) ltac:(lia) Dy) as Gy.
  destruct (bilinear_eval_good _ _ _ _ _ _ (concat rows) x y Gx Gy LC) as [A1 A2].
  unfold in_range_of in Hin, Hout. rewrite !hd_zn, !last_zn, !zlen_unif, !zn_unif in Hin, Hout by lia.
  destruct (in_range_dec True True (uf x0 dx 0) x (uf x0 dx (Z.of_nat nx - 1)) I) as [A|A];
  destruct (in_range_dec True True (uf y0 dy 0) y (uf y0 dy (Z.of_nat ny - 1)) I) as [B|B];
    try (rewrite A2, Hout by tauto; reflexivity).
  destruct (A1 (conj A B)) as [v [-> P]]. symmetry. apply Hv.
  apply bilinear_pl2; rewrite ?LX, ?LY; auto using unif_increasing.
  destruct P as [w [P1 P2]]. exists w. rewrite !zlen_unif. split.
  - intros j Hj. eapply pl_ext; [|reflexivity|apply P1; auto]. intros i Hi. symmetry. apply zn_unif. auto.
  - eapply pl_ext; [|reflexivity|exact P2]. intros i Hi. symmetry. apply zn_unif. auto.
Qed.

(** ** Trilinear *)
Definition pl3 (nx ny nz : Z) (xf yf zf : Z -> R) (vf : Z -> Z -> Z -> R) (x y z v : R) : Prop :=
  exists w, (forall k, (0 <= k < nz)%Z -> pl2 nx ny xf yf (fun i j => vf i j k) x y (w k)) /\ pl nz zf w z v.

Lemma pl3_fun nx ny nz xf yf zf vf x y z v v' : incf nx xf -> incf ny yf -> incf nz zf ->
  pl3 nx ny nz xf yf zf vf x y z v -> pl3 nx ny nz xf yf zf vf x y z v' -> v = v'.
Proof.
  intros Ix Iy Iz [w [H P]] [w' [H' P']]. eapply pl_fun; [exact Iz|exact P|].
  eapply pl_ext; [reflexivity| |exact P'].
  intros i Hi. eapply pl2_fun; [exact Ix|exact Iy|apply H'; auto|apply H; auto].
Qed.

Lemma idx3_bound nx ny nz i j k : (0 <= i < nx)%Z -> (0 <= j < ny)%Z -> (0 <= k < nz)%Z ->
  (0 <= i + j * nx + k * ny * nx < nx * ny * nz)%Z.
Proof.
  intros. pose proof (idx2_bound nx ny i j ltac:(lia) ltac:(lia)) as H2.
  pose proof (idx2_bound (nx * ny) nz (i + nx * j) k ltac:(lia) ltac:(lia)).
  replace (i + j * nx + k * ny * nx)%Z with (i + nx * j + nx * ny * k)%Z by ring. lia.
Qed.

(** Evaluation when the z grid coincides with the y grid. *)
Lemma trilinear_eval_good sx sy sz nx ny xf yf vals x y z :
  good sx nx xf -> good sy ny yf -> zlen vals = (nx * ny * ny)%Z ->
  (xf 0%Z <= x <= xf (nx - 1)%Z /\ yf 0%Z <= y <= yf (ny - 1)%Z /\ yf 0%Z <= z <= yf (ny - 1)%Z ->
     exists v, trilinear_eval (TriLinear sx sy sz vals nx ny) x y z = Ok v /\
       pl3 nx ny ny xf yf yf (fun i j k => zn 0 vals (i + j * nx + k * ny * nx)%Z) x y z v) /\
  (~ (xf 0%Z <= x <= xf (nx - 1)%Z /\ yf 0%Z <= y <= yf (ny - 1)%Z /\ yf 0%Z <= z <= yf (ny - 1)%Z) ->
     trilinear_eval (TriLinear sx sy sz vals nx ny) x y z = Panic).
Proof.
  intros Gx Gy L. split; intros X; unfold trilinear_eval; cbn [tl_xs tl_ys tl_zs tl_vals tl_nx tl_ny].
  - destruct X as [Xx [Xy Xz]].
    destruct (g_in _ _ _ Gx x Xx) as [i [-> [Hi Hx]]]. cbn [bind].
    destruct (g_in _ _ _ Gy y Xy) as [j [-> [Hj Hy]]]. cbn [bind].
    destruct (g_in _ _ _ Gy z Xz) as [k [-> [Hk Hz]]]. cbn [bind].
    set (b := (i + j * nx + k * ny * nx)%Z).
    assert (forall a c d, (0 <= a <= 1)%Z -> (0 <= c <= 1)%Z -> (0 <= d <= 1)%Z ->
      (0 <= (i + a) + (j + c) * nx + (k + d) * ny * nx < nx * ny * ny)%Z) as B.
    { intros a c d Ha Hc Hd. apply idx3_bound; lia. }
    assert (b = (i + 0) + (j + 0) * nx + (k + 0) * ny * nx)%Z as E0 by (unfold b; ring).
    assert (b + nx * ny = (i + 0) + (j + 0) * nx + (k + 1) * ny * nx)%Z as E1 by (unfold b; ring).
    assert (b + nx = (i + 0) + (j + 1) * nx + (k + 0) * ny * nx)%Z as E2 by (unfold b; ring).
    assert (b + nx + nx * ny = (i + 0) + (j + 1) * nx + (k + 1) * ny * nx)%Z as E3 by (unfold b; ring).
    assert (b + 1 = (i + 1) + (j + 0) * nx + (k + 0) * ny * nx)%Z as E4 by (unfold b; ring).
    assert (b + 1 + nx * ny = (i + 1) + (j + 0) * nx + (k + 1) * ny * nx)%Z as E5 by (unfold b; ring).
    assert (b + 1 + nx = (i + 1) + (j + 1) * nx + (k + 0) * ny * nx)%Z as E6 by (unfold b; ring).
    assert (b + 1 + nx + nx * ny = (i + 1) + (j + 1) * nx + (k + 1) * ny * nx)%Z as E7 by (unfold b; ring).
    rewrite E7, E6, E5, E4, E3, E2, E1, E0. clear E0 E1 E2 E3 E4 E5 E6 E7 b.
    rewrite !(get_ok 0) by (rewrite L; apply B; lia). cbn [bind].
    rewrite !(g_val _ _ _ Gx), !(g_val _ _ _ Gy) by lia. cbn [bind]. rn.
    rewrite !Z.add_0_r.
    eexists; split; [reflexivity|].
    set (vf := fun i j k => zn 0 vals (i + j * nx + k * ny * nx)%Z).
    exists (fun k' => piece yf (fun j' => piece xf (fun i' => vf i' j' k') i x) j y). split.
    + intros k' Hk'. exists (fun j' => piece xf (fun i' => vf i' j' k') i x). split.
      * intros j' Hj'. exists i. split; [lia|]. split; [auto|reflexivity].
      * exists j. split; [lia|]. split; [auto|reflexivity].
    + exists k. split; [lia|]. split; [auto|]. unfold piece, vf.
      pose proof (g_inc _ _ _ Gx i ltac:(lia)). pose proof (g_inc _ _ _ Gy j ltac:(lia)).
      pose proof (g_inc _ _ _ Gy k ltac:(lia)). clear - H H0 H1.
      generalize (zn 0 vals). intros h.
      generalize dependent (xf (i + 1)%Z). generalize dependent (yf (j + 1)%Z).
      generalize dependent (yf (k + 1)%Z). intros z2 Hz y2 Hy x2 Hx.
      generalize dependent (xf i). intros x1 Hx.
      generalize dependent (yf j). generalize dependent (yf k). intros. field. lra.
  - destruct (in_range_dec True True (xf 0%Z) x (xf (nx - 1)%Z) I) as [A|A];
      [|rewrite (g_out _ _ _ Gx) by exact A; reflexivity].
    destruct (g_in _ _ _ Gx x A) as [i [-> _]]. cbn [bind].
    destruct (in_range_dec True True (yf 0%Z) y (yf (ny - 1)%Z) I) as [B|B];
      [|rewrite (g_out _ _ _ Gy) by exact B; reflexivity].
    destruct (g_in _ _ _ Gy y B) as [j [-> _]]. cbn [bind].
    rewrite (g_out _ _ _ Gy); [reflexivity|]. tauto.
Qed.

(** A cube of values: planes of rows. *)

Lemma planes_concat {A} nx ny (planes : list (list (list A))) : planes_of nx ny planes ->
  rows_of (ny * nx) (map (@concat A) planes).
Proof.
  induction 1 as [|r l [L R] H IH]; constructor; auto. rewrite (concat_length nx) by auto. lia.
Qed.

Lemma trilinear_pl3 xs ys zs planes x y z v : increasing xs -> increasing ys -> increasing zs ->
  length planes = length zs -> planes_of (length xs) (length ys) planes ->
  on_trilinear xs ys zs planes x y z v <->
  pl3 (zlen xs) (zlen ys) (zlen zs) (zn 0 xs) (zn 0 ys) (zn 0 zs)
    (fun i j k => zn 0 (concat (map (@concat R) planes)) (i + j * zlen xs + k * zlen ys * zlen xs)%Z) x y z v.
Proof.
  intros Ix Iy Iz Lp P. unfold on_trilinear, pl3.
  assert (zlen planes = zlen zs) as LZ by (unfold zlen; lia).
  assert (forall k, (0 <= k < zlen zs)%Z -> length (zn [] planes k) = length ys /\
    rows_of (length xs) (zn [] planes k)) as PL.
  { intros k Hk. unfold planes_of in P. rewrite Forall_forall in P. apply P. apply zn_In. lia. }
  assert (forall i j k, (0 <= i < zlen xs)%Z -> (0 <= j < zlen ys)%Z -> (0 <= k < zlen zs)%Z ->
    zn 0 (concat (map (@concat R) planes)) (i + j * zlen xs + k * zlen ys * zlen xs)%Z =
    zn 0 (concat (zn [] planes k)) (i + zlen xs * j)%Z) as IX.
  { intros i j k Hi Hj Hk.
    replace (i + j * zlen xs + k * zlen ys * zlen xs)%Z
      with ((i + zlen xs * j) + Z.of_nat (length ys * length xs) * k)%Z by (unfold zlen; lia).
    rewrite zconcat_nth; [|apply planes_concat; auto|rewrite zlen_map; lia|].
    - rewrite (zn_map (@concat R) []) by lia. reflexivity.
    - pose proof (idx2_bound (zlen xs) (zlen ys) i j Hi Hj). unfold zlen in *. lia. }
  assert (forall k w, (0 <= k < zlen zs)%Z ->
    on_bilinear xs ys (zn [] planes k) x y w <->
    pl2 (zlen xs) (zlen ys) (zn 0 xs) (zn 0 ys)
      (fun i j => zn 0 (concat (map (@concat R) planes)) (i + j * zlen xs + k * zlen ys * zlen xs)%Z) x y w) as BL.
  { intros k w Hk. destruct (PL k Hk) as [L1 R1]. rewrite bilinear_pl2 by auto.
    unfold pl2. split; intros [u [U1 U2]]; exists u; (split; [|exact U2]); intros j Hj;
      (eapply pl_ext; [reflexivity| |apply U1; auto]); intros i Hi; cbv beta; rewrite IX by auto; reflexivity. }
  split.
  - intros [ws [H Q]]. apply (Forall2_zn _ [] 0) in H. destruct H as [L K].
    exists (zn 0 ws). split.
    + intros k Hk. apply BL; auto. apply K. lia.
    + apply polyline_pl in Q; auto. lia.
  - intros [w [H Q]]. exists (ztab (zlen zs) w). pose proof (zlen_nonneg zs) as NN. split.
    + apply (Forall2_zn _ [] 0). rewrite zlen_ztab by lia. split; [lia|]. intros k Hk.
      rewrite zn_ztab by lia. apply BL; [lia|]. apply H. lia.
    + apply polyline_pl; auto; [rewrite zlen_ztab; lia|].
      eapply pl_ext; [reflexivity| |exact Q]. intros i Hi. symmetry. apply zn_ztab. lia.
Qed.

Lemma trilinear_ok xs ys planes x y z : increasing xs -> increasing ys ->
  (2 <= length xs)%nat -> (2 <= length ys)%nat ->
  length planes = length ys -> planes_of (length xs) (length ys) planes ->
  exists t, new_trilinear xs ys ys (concat (map (@concat R) planes)) = Ok t /\
    (forall v, trilinear_eval t x y z = Ok v <-> on_trilinear xs ys ys planes x y z v) /\
    (in_range_of xs x /\ in_range_of ys y /\ in_range_of ys z -> exists v, trilinear_eval t x y z = Ok v) /\
    (~ (in_range_of xs x /\ in_range_of ys y /\ in_range_of ys z) -> trilinear_eval t x y z = Panic).
Proof.
  intros Ix Iy Nx Ny Lp P. apply zlen2 in Nx, Ny.
  destruct (good_init xs Nx Ix) as [sx [Hx Gx]]. destruct (good_init ys Ny Iy) as [sy [Hy Gy]].
  assert (zlen (concat (map (@concat R) planes)) = (zlen xs * zlen ys * zlen ys)%Z) as LC.
  { unfold zlen. rewrite (concat_length (length ys * length xs)) by (apply planes_concat; auto).
    rewrite map_length. lia. }
  exists (TriLinear sx sy sy (concat (map (@concat R) planes)) (zlen xs) (zlen ys)).
  unfold new_trilinear. rewrite Hx, Hy. cbn [bind]. rewrite LC, Z.eqb_refl. cbn [negb].
  destruct (trilinear_eval_good _ _ sy _ _ _ _ _ x y z Gx Gy LC) as [Hin Hout].
  unfold in_range_of. rewrite !hd_zn, !last_zn.
  split; [reflexivity|]. split; [|split; [intros H; destruct (Hin H) as [v [? _]]; eauto|auto]].
  intros v. rewrite trilinear_pl3 by auto. split; intros H.
  - destruct (in_range_dec True True (zn 0 xs 0) x (zn 0 xs (zlen xs - 1)%Z) I) as [A|A];
    destruct (in_range_dec True True (zn 0 ys 0) y (zn 0 ys (zlen ys - 1)%Z) I) as [B|B];
    destruct (in_range_dec True True (zn 0 ys 0) z (zn 0 ys (zlen ys - 1)%Z) I) as [C|C];
      try (rewrite Hout in H by tauto; discriminate).
    destruct (Hin (conj A (conj B C))) as [v' [E' Q]]. rewrite H in E'. injection E' as ->. exact Q.
  - pose proof H as [w [W1 W2]].
    pose proof (pl2_range _ (zlen ys) _ _ _ _ _ _ ltac:(lia) (g_inc _ _ _ Gx) (g_inc _ _ _ Gy) (W1 0%Z ltac:(lia))) as [A B].
    pose proof (pl_range _ _ _ _ _ (g_inc _ _ _ Gy) W2) as C.
    destruct (Hin (conj A (conj B C))) as [v' [E' Q]].
    rewrite E'. f_equal.
    eapply pl3_fun; [exact (g_inc _ _ _ Gx)|exact (g_inc _ _ _ Gy)|exact (g_inc _ _ _ Gy)|exact Q|exact H].
Qed.

(** A grid node at which the trilinear interpolator panics. *)
Lemma trilinear_bad : exists xs ys zs planes i j k,
  increasing xs /\ increasing ys /\ increasing zs /\
  length planes = length zs /\ planes_of (length xs) (length ys) planes /\
  (i < length xs)%nat /\ (j < length ys)%nat /\ (k < length zs)%nat /\
  exists t, new_trilinear xs ys zs (concat (map (@concat R) planes)) = Ok t /\
    trilinear_eval t (nth i xs 0) (nth j ys 0) (nth k zs 0) = Panic.
Proof.
  exists [0; 1], [0; 1], [0; 2], [[[0; 0]; [0; 0]]; [[0; 0]; [0; 0]]], 0%nat, 0%nat, 1%nat.
  assert (increasing [0; 1]) as I1 by (cbn; lra). assert (increasing [0; 2]) as I2 by (cbn; lra).
  repeat (split; [assumption || (cbn; lia)|]).
  split. { repeat constructor. }
  repeat (split; [cbn; lia|]).
  assert (2 <= @zlen R [0%R; 1%R])%Z as N1 by (cbn; lia). assert (2 <= @zlen R [0%R; 2%R])%Z as N2 by (cbn; lia).
  destruct (good_init _ N1 I1) as [s1 [H1 G1]]. destruct (good_init _ N2 I2) as [s2 [H2 G2]].
  unfold new_trilinear. rewrite H1, H2. cbn [bind].
  eexists; split; [reflexivity|]. unfold trilinear_eval; cbn [tl_xs tl_ys nth].
  destruct (g_in _ _ _ G1 0) as [i [-> _]]; [change (0 <= 0 <= 1); lra|]. cbn [bind].
  rewrite (g_out _ _ _ G1 2); [reflexivity|]. change (~ (0 <= 2 <= 1)). lra.
Qed.
