From Coq Require Import ZArith List Bool Lia Permutation Sorted.
From Coq Require Import ZifyBool ZifyNat.
From Verif Require Import Base.Res Base.Num Base.ResFacts Model.Sort Spec.Sorting.
Import ListNotations.
Open Scope Z_scope.
Open Scope res_scope.
Ltac Zify.zify_post_hook ::= Z.div_mod_to_equations.

Ltac wstep :=
  match goal with
  | |- wp (bind _ _) _ => apply wp_bind
  | |- wp (Ok _) _ => cbn [wp]
  | |- wp (let '(_, _) := ?p in _) _ => destruct p eqn:?
  end.

Section SortProofs.
Context {F : Type} {N : Num F}.
Notation ltb := (@nltb F N).

(* ------------------------------------------------------------------ *)
(** * Reverse *)
Lemma reverse_ok (d : F) (xs : list F) :
  wp (reverse xs) (fun ys => ys = rev xs).
Proof.
  unfold reverse. pose proof (zlen_nonneg xs) as HL.
  eapply wp_mono.
  - apply (for_inv (fun i ys => zlen ys = zlen xs /\
        forall k, 0 <= k < zlen xs ->
          zn d ys k = if (k <? i) || (zlen xs - 1 - i <? k)
                      then zn d xs (zlen xs - 1 - k) else zn d xs k)).
    + lia.
    + split; auto. intros k Hk.
      destruct (Z.ltb_spec k 0), (Z.ltb_spec (zlen xs - 1 - 0) k); simpl; auto; lia.
    + intros i ys Hi [E H]. apply (wp_swap d); try lia.
      split; [now rewrite zlen_swapped|]. intros k Hk.
      rewrite zn_swapped by lia.
      destruct (Z.eqb_spec k (zlen xs - 1 - i)).
      { subst k. rewrite H by lia.
        replace ((i <? i) || (zlen xs - 1 - i <? i)) with false by lia.
        replace ((zlen xs - 1 - i <? i + 1) || (zlen xs - 1 - (i + 1) <? zlen xs - 1 - i)) with true by lia.
        f_equal; lia. }
      destruct (Z.eqb_spec k i).
      { subst k. rewrite H by lia.
        replace ((zlen xs - 1 - i <? i) || (zlen xs - 1 - i <? zlen xs - 1 - i)) with false by lia.
        replace ((i <? i + 1) || (zlen xs - 1 - (i + 1) <? i)) with true by lia.
        reflexivity. }
      rewrite H by lia.
      replace ((k <? i + 1) || (zlen xs - 1 - (i + 1) <? k)) with ((k <? i) || (zlen xs - 1 - i <? k)) by lia.
      reflexivity.
  - cbv beta. intros ys [E H]. apply (list_ext d).
    + unfold zlen in *. now rewrite rev_length.
    + intros k Hk. rewrite H by lia. rewrite E in Hk.
      assert (R : zn d (rev xs) k = zn d xs (zlen xs - 1 - k)).
      { unfold zn, zlen in *. rewrite rev_nth by lia. f_equal. lia. }
      rewrite R.
      destruct (Z.ltb_spec k (zlen xs / 2)); simpl; auto.
      destruct (Z.ltb_spec (zlen xs - 1 - zlen xs / 2) k); auto.
      f_equal. lia.
Qed.

(* ------------------------------------------------------------------ *)
(** * Shell: permutation and no panic, for any comparison *)

Definition shell_gap (inc : Z) : Prop := exists k : nat, 2 * inc + 1 = 3 ^ (Z.of_nat k + 1).

Lemma shell_gap_1 : shell_gap 1.
Proof. exists 0%nat. reflexivity. Qed.

Lemma shell_gap_up inc : shell_gap inc -> shell_gap (inc * 3 + 1).
Proof.
  intros [k H]. exists (S k).
  replace (Z.of_nat (S k) + 1) with (Z.succ (Z.of_nat k + 1)) by lia.
  rewrite Z.pow_succ_r by lia. lia.
Qed.

Lemma shell_gap_down inc : shell_gap inc -> 1 < inc -> shell_gap (inc / 3) /\ 1 <= inc / 3 < inc.
Proof.
  intros [[|k] H] L.
  - change (3 ^ (Z.of_nat 0 + 1)) with 3 in H. lia.
  - replace (Z.of_nat (S k) + 1) with (Z.succ (Z.of_nat k + 1)) in H by lia.
    rewrite Z.pow_succ_r in H by lia.
    assert (3 <= 3 ^ (Z.of_nat k + 1)).
    { replace (Z.of_nat k + 1) with (Z.succ (Z.of_nat k)) by lia. rewrite Z.pow_succ_r by lia.
      assert (0 < 3 ^ Z.of_nat k) by (apply Z.pow_pos_nonneg; lia). lia. }
    remember (3 ^ (Z.of_nat k + 1)) as p eqn:Ep.
    assert (D : 2 * (inc / 3) + 1 = p) by lia.
    split; [exists k; congruence | lia].
Qed.

Lemma shell_inc0_ok n :
  0 <= n -> wp (shell_inc0 n) (fun inc => shell_gap inc /\ n < inc).
Proof.
  intros Hn. unfold shell_inc0.
  apply (loop_inv (fun inc => shell_gap inc /\ 1 <= inc) _ (fun inc => Z.to_nat (n + 1 - inc))).
  - intros inc [G H]. destruct (Z.leb_spec inc n); cbn [wp].
    + repeat split; [now apply shell_gap_up | lia | lia].
    + split; auto.
  - split; [apply shell_gap_1 | lia].
  - lia.
Qed.

(** One shift: the slice with [v] written at the hole is a permutation of the
    starting slice with [v] at [i]. *)
Lemma shell_shift_perm d inc v xs i fuel :
  1 <= inc <= i -> i < zlen xs -> (Z.to_nat i < fuel)%nat -> zn d xs i = v ->
  wp (shell_shift fuel inc v xs i)
     (fun '(ys, j) => 0 <= j <= i /\ zlen ys = zlen xs /\
                      Permutation xs (upd ys (Z.to_nat j) v)).
Proof.
  intros Hi HL HF HV. unfold shell_shift.
  apply (loop_inv (fun '(ys, j) => inc <= j <= i /\ zlen ys = zlen xs /\
                      Permutation xs (upd ys (Z.to_nat j) v))
                  _ (fun '(ys, j) => Z.to_nat j)).
  - intros [ys j] (Hj & E & HP). wstep. apply (wp_get d); [lia|].
    destruct (ltb v (zn d ys (j - inc))) eqn:C.
    + wstep. apply wp_set; [lia|].
      assert (P' : Permutation xs (upd (upd ys (Z.to_nat j) (zn d ys (j - inc))) (Z.to_nat (j - inc)) v)).
      { etransitivity; [exact HP|]. set (zs := upd ys (Z.to_nat j) v).
        pose proof (swapped_perm d zs j (j - inc)) as SP.
        unfold swapped in SP. unfold zs in SP at 1 2 4 5.
        rewrite zlen_upd in SP. specialize (SP ltac:(lia) ltac:(lia)).
        etransitivity; [exact SP|].
        unfold zs. rewrite zn_upd_neq by lia. rewrite zn_upd_eq by lia.
        replace (upd (upd ys (Z.to_nat j) v) (Z.to_nat j) (zn d ys (j - inc)))
          with (upd ys (Z.to_nat j) (zn d ys (j - inc))); [apply Permutation_refl|].
        apply (list_ext d); rewrite ?zlen_upd; auto. intros k Hk.
        rewrite !zn_upd by (rewrite ?zlen_upd; lia).
        destruct (Z.eqb_spec k j); auto. }
      destruct (Z.ltb_spec (j - inc) inc); cbn [wp]; rewrite ?zlen_upd; repeat split; auto; lia.
    + cbn [wp]. repeat split; auto; lia.
  - repeat split; auto; try lia. subst v. unfold zn. rewrite upd_same. apply Permutation_refl.
  - auto.
Qed.

Lemma shell_pass_perm inc xs :
  1 <= inc -> wp (shell_pass inc xs) (fun ys => Permutation xs ys).
Proof.
  intros Hinc. destruct xs as [|d xs0]; [|set (xs := d :: xs0)].
  { unfold shell_pass. rewrite for_empty by (rewrite zlen_nil; lia). cbn. constructor. }
  unfold shell_pass. destruct (Z_le_gt_dec inc (zlen xs)).
  2:{ rewrite for_empty by lia. cbn. apply Permutation_refl. }
  eapply wp_mono.
  - apply (for_inv (fun i ys => zlen ys = zlen xs /\ Permutation xs ys)); [lia|auto|].
    intros i ys Hi [E HP]. wstep. apply (wp_get d); [lia|].
    wstep. eapply wp_mono.
    + apply (shell_shift_perm d); [lia|lia| |reflexivity]. unfold zlen in *. lia.
    + intros [zs j] (Hj & E' & HP'). apply wp_set; [lia|].
      rewrite zlen_upd. split; [lia|]. etransitivity; eauto.
  - cbv beta. tauto.
Qed.

Lemma shell_perm xs : wp (shell xs) (fun ys => Permutation xs ys).
Proof.
  unfold shell. destruct (Z.eqb_spec (zlen xs) 1); [apply Permutation_refl|].
  wstep. eapply wp_mono; [apply shell_inc0_ok, zlen_nonneg|].
  intros inc0 [G H]. pose proof (zlen_nonneg xs).
  apply (loop_inv (fun '(ys, inc) => shell_gap inc /\ 1 <= inc /\ Permutation xs ys)
           _ (fun '(_, inc) => Z.to_nat inc)).
  - intros [ys inc] (G' & L & HP). destruct (Z.ltb_spec 1 inc).
    + destruct (shell_gap_down inc) as [G'' B]; auto.
      wstep. eapply wp_mono; [apply shell_pass_perm; lia|].
      intros zs HP'. cbn [wp]. repeat split; auto; try lia. etransitivity; eauto.
    + cbn. auto.
  - repeat split; auto. lia.
  - lia.
Qed.

(* ------------------------------------------------------------------ *)
(** * Order facts *)
Hypothesis asym : forall x y, ltb x y = true -> ltb y x = false.

Lemma irrefl x : ltb x x = false.
Proof. destruct (ltb x x) eqn:E; auto. rewrite (asym _ _ E) in E. discriminate. Qed.

Lemma sort3_order x y z mx md mn :
  sort3 x y z = (mx, md, mn) ->
  ltb mx md = false /\ ltb md mn = false /\ Permutation [x; y; z] [mn; md; mx].
Proof.
  unfold sort3. intros H.
  assert (P1 : Permutation [x; y; z] [z; y; x]) by (apply (Permutation_rev [x;y;z])).
  destruct (ltb y x) eqn:A; [destruct (ltb z x) eqn:B; [destruct (ltb z y) eqn:C|]|
    destruct (ltb z y) eqn:C; [destruct (ltb z x) eqn:B|]];
    inversion H; subst; clear H; repeat split; auto.
  - rewrite perm_swap. apply perm_skip. apply perm_swap.
  - etransitivity; [apply perm_swap|]. auto.
  - etransitivity; [apply P1|]. apply perm_skip. apply perm_swap.
  - apply perm_skip, perm_swap.
Qed.

Definition partitioned (d : F) (p : Z) (ys : list F) : Prop :=
  (forall k, 0 <= k < p -> ltb (zn d ys p) (zn d ys k) = false) /\
  (forall k, p < k < zlen ys -> ltb (zn d ys k) (zn d ys p) = false).

Lemma scan_up_ok d xs mid lo hi fuel :
  0 <= lo <= hi -> hi < zlen xs -> ltb (zn d xs hi) mid = false ->
  (Z.to_nat (hi - lo) < fuel)%nat ->
  wp (scan_up fuel xs mid lo) (fun l => lo <= l <= hi /\
      ltb (zn d xs l) mid = false /\
      forall k, lo <= k < l -> ltb (zn d xs k) mid = true).
Proof.
  intros H HL HS HF. unfold scan_up.
  apply (loop_inv (fun l => lo <= l <= hi /\ forall k, lo <= k < l -> ltb (zn d xs k) mid = true)
          _ (fun l => Z.to_nat (hi - l))).
  - intros l (B & K). wstep. apply (wp_get d); [lia|].
    destruct (ltb (zn d xs l) mid) eqn:E; cbn.
    + assert (l <> hi) by congruence. repeat split; try lia.
      intros k Hk. destruct (Z.eq_dec k l); [congruence|]. apply K; lia.
    + auto.
  - split; [lia|]. intros; lia.
  - auto.
Qed.

Lemma scan_down_ok d xs mid lo hi fuel :
  0 <= lo <= hi -> hi < zlen xs -> ltb mid (zn d xs lo) = false ->
  (Z.to_nat (hi - lo) < fuel)%nat ->
  wp (scan_down fuel xs mid hi) (fun h => lo <= h <= hi /\
      ltb mid (zn d xs h) = false /\
      forall k, h < k <= hi -> ltb mid (zn d xs k) = true).
Proof.
  intros H HL HS HF. unfold scan_down.
  apply (loop_inv (fun h => lo <= h <= hi /\ forall k, h < k <= hi -> ltb mid (zn d xs k) = true)
          _ (fun h => Z.to_nat (h - lo))).
  - intros h (B & K). wstep. apply (wp_get d); [lia|].
    destruct (ltb mid (zn d xs h)) eqn:E; cbn.
    + assert (h <> lo) by congruence. repeat split; try lia.
      intros k Hk. destruct (Z.eq_dec k h); [congruence|]. apply K; lia.
    + auto.
  - split; [lia|]. intros; lia.
  - auto.
Qed.

(** The three samples written back in order are a permutation. *)
Lemma samples_perm (d : F) xs n2 mx md mn :
  0 < n2 < zlen xs - 1 ->
  Permutation [zn d xs 0; zn d xs n2; zn d xs (zlen xs - 1)] [mn; md; mx] ->
  Permutation xs (upd (upd (upd xs (Z.to_nat 0) mn) (Z.to_nat n2) md) (Z.to_nat (zlen xs - 1)) mx).
Proof.
  intros H HP. set (n := zlen xs) in *.
  set (x1 := upd xs (Z.to_nat 0) mn). set (x2 := upd x1 (Z.to_nat n2) md).
  assert (L1 : zlen x1 = n) by (unfold x1; apply zlen_upd).
  assert (L2 : zlen x2 = n) by (unfold x2; now rewrite zlen_upd).
  assert (Z1 : (Z.to_nat 0 < length xs)%nat) by (unfold n, zlen in *; lia).
  assert (Z2 : (Z.to_nat n2 < length x1)%nat) by (unfold n, zlen in *; lia).
  assert (Z3 : (Z.to_nat (n - 1) < length x2)%nat) by (unfold zlen in *; lia).
  pose proof (upd_perm d xs (Z.to_nat 0) mn Z1) as P1.
  pose proof (upd_perm d x1 (Z.to_nat n2) md Z2) as P2.
  pose proof (upd_perm d x2 (Z.to_nat (n - 1)) mx Z3) as P3.
  fold (zn d xs 0) in P1. fold x1 in P1. fold (zn d x1 n2) in P2. fold x2 in P2.
  fold (zn d x2 (n - 1)) in P3.
  assert (E2 : zn d x1 n2 = zn d xs n2) by (unfold x1; apply zn_upd_neq; lia).
  assert (E3 : zn d x2 (n - 1) = zn d xs (n - 1)).
  { unfold x2. rewrite zn_upd_neq by lia. unfold x1. apply zn_upd_neq; lia. }
  rewrite E2 in P2. rewrite E3 in P3.
  set (x3 := upd x2 (Z.to_nat (n - 1)) mx) in *.
  assert (Q : Permutation ([zn d xs 0; zn d xs n2; zn d xs (n - 1)] ++ x3) ([mn; md; mx] ++ xs)).
  { cbn [app]. 
    transitivity (zn d xs 0 :: zn d xs n2 :: mx :: x2); [do 2 apply perm_skip; exact P3|].
    transitivity (zn d xs 0 :: mx :: zn d xs n2 :: x2); [apply perm_skip, perm_swap|].
    transitivity (zn d xs 0 :: mx :: md :: x1); [do 2 apply perm_skip; exact P2|].
    transitivity (mx :: md :: zn d xs 0 :: x1).
    { etransitivity; [apply perm_swap|]. apply perm_skip, perm_swap. }
    transitivity (mx :: md :: mn :: xs); [do 2 apply perm_skip; exact P1|].
    apply (Permutation_app_tail xs (Permutation_rev [mx; md; mn])). }
  apply (Permutation_app_inv_l [mn; md; mx]).
  etransitivity; [symmetry; exact Q|]. now apply Permutation_app_tail.
Qed.

Lemma partition_ok d xs :
  4 <= zlen xs ->
  wp (partition xs) (fun '(ys, p) =>
    Permutation xs ys /\ 1 <= p <= zlen xs - 2 /\ partitioned d p ys).
Proof.
  intros HL. unfold partition.
  set (n := zlen xs) in *. set (n2 := n / 2) in *.
  assert (Hn2 : 2 <= n2 < n - 1) by (unfold n2; lia).
  wstep. apply (wp_get d); [lia|]. wstep. apply (wp_get d); [lia|].
  wstep. apply (wp_get d); [lia|].
  destruct (sort3 (zn d xs 0) (zn d xs n2) (zn d xs (n - 1))) as [[mx md] mn] eqn:ES.
  apply sort3_order in ES. destruct ES as (O1 & O2 & PS).
  wstep. apply wp_set; [fold n; lia|]. wstep. apply wp_set; [rewrite zlen_upd; fold n; lia|].
  wstep. apply wp_set; [rewrite !zlen_upd; fold n; lia|].
  pose proof (samples_perm d xs n2 mx md mn ltac:(fold n; lia) PS) as PX.
  set (x3 := upd (upd (upd xs (Z.to_nat 0) mn) (Z.to_nat n2) md) (Z.to_nat (n - 1)) mx) in *.
  assert (L3 : zlen x3 = n) by (unfold x3; now rewrite !zlen_upd).
  assert (X0 : zn d x3 0 = mn).
  { unfold x3. rewrite !zn_upd by (rewrite ?zlen_upd; fold n; lia).
    destruct (Z.eqb_spec 0 (n - 1)); [lia|]. destruct (Z.eqb_spec 0 n2); [lia|]. reflexivity. }
  assert (X2 : zn d x3 n2 = md).
  { unfold x3. rewrite !zn_upd by (rewrite ?zlen_upd; fold n; lia).
    destruct (Z.eqb_spec n2 (n - 1)); [lia|]. now rewrite Z.eqb_refl. }
  assert (XN : zn d x3 (n - 1) = mx).
  { unfold x3. rewrite zn_upd by (rewrite ?zlen_upd; fold n; lia). now rewrite Z.eqb_refl. }
  wstep. apply (wp_swap d); [lia|lia|].
  set (x4 := swapped d x3 1 n2).
  assert (L4 : zlen x4 = n) by (unfold x4; now rewrite zlen_swapped).
  assert (PX4 : Permutation xs x4).
  { etransitivity; [exact PX|]. apply swapped_perm; lia. }
  assert (Y0 : zn d x4 0 = mn).
  { unfold x4. rewrite zn_swapped by lia. destruct (Z.eqb_spec 0 n2); [lia|]. exact X0. }
  assert (Y1 : zn d x4 1 = md).
  { unfold x4. rewrite zn_swapped by lia. destruct (Z.eqb_spec 1 n2); [lia|]. exact X2. }
  assert (YN : zn d x4 (n - 1) = mx).
  { unfold x4. rewrite zn_swapped by lia. destruct (Z.eqb_spec (n - 1) n2); [lia|].
    destruct (Z.eqb_spec (n - 1) 1); [lia|]. exact XN. }
  clearbody x4. clear x3 L3 X0 X2 XN PX.
  set (I := fun '(ys, lo, hi) =>
      1 <= lo <= n - 2 /\ lo <= hi <= n - 1 /\ 2 <= hi /\ zlen ys = n /\ Permutation xs ys /\
      zn d ys 1 = md /\
      (forall k, 0 <= k <= lo -> ltb md (zn d ys k) = false) /\
      (forall k, hi <= k < n -> ltb (zn d ys k) md = false)).
  wstep. eapply wp_mono.
  - apply (loop_inv I (fun '(ys, h) => 1 <= h <= n - 2 /\ zlen ys = n /\ Permutation xs ys /\
        zn d ys 1 = md /\ ltb md (zn d ys h) = false /\
        (forall k, 0 <= k <= h -> ltb md (zn d ys k) = false) /\
        (forall k, h < k < n -> ltb (zn d ys k) md = false))
        (fun '(ys, lo, hi) => Z.to_nat (n - lo))).
    + intros [[ys lo] hi] (Hlo & Hhi & H2 & LY & PY & M1 & KL & KH).
      set (s := Z.max hi (lo + 1)).
      wstep. eapply wp_mono.
      { apply (scan_up_ok d) with (hi := s); unfold s; [lia|lia|apply KH; lia|unfold n, zlen in *; lia]. }
      cbv beta. intros lo' (Hlo' & S1 & S2).
      wstep. eapply wp_mono.
      { apply (scan_down_ok d) with (lo := 1); [lia|lia| |unfold n, zlen in *; lia].
        rewrite M1. apply irrefl. }
      cbv beta. intros hi' (Hhi' & T1 & T2).
      destruct (Z.ltb_spec hi' lo').
      * cbn [wp]. repeat split; auto; try lia.
        -- intros k Hk. destruct (Z_le_gt_dec k lo); [apply KL; lia|].
           apply asym, S2. lia.
        -- intros k Hk. destruct (Z_le_gt_dec hi k); [apply KH; lia|].
           apply asym, T2. lia.
      * wstep. apply (wp_swap d); [lia|lia|]. cbn [wp].
        unfold I. rewrite zlen_swapped. split; [|unfold s in *; lia].
        split; [unfold s in *; lia|]. split; [lia|]. split; [unfold s in *; lia|]. split; [auto|].
        split; [etransitivity; [exact PY|]; apply swapped_perm; lia|].
        assert (lo < lo') by (unfold s in *; lia).
        split.
        { rewrite zn_swapped by lia. destruct (Z.eqb_spec 1 hi'); [lia|].
          destruct (Z.eqb_spec 1 lo'); [lia|]. auto. }
        split.
        -- intros k Hk. rewrite zn_swapped by lia.
           destruct (Z.eqb_spec k hi').
           { assert (lo' = hi') by lia. subst. congruence. }
           destruct (Z.eqb_spec k lo'); auto.
           destruct (Z_le_gt_dec k lo); [apply KL; lia|]. apply asym, S2; lia.
        -- intros k Hk. rewrite zn_swapped by lia.
           destruct (Z.eqb_spec k hi'); auto.
           destruct (Z.eqb_spec k lo'); [subst; lia|].
           destruct (Z_le_gt_dec hi k); [apply KH; lia|]. apply asym, T2. lia.
    + cbn. repeat split; auto; try lia.
      * intros k Hk. assert (k = 0 \/ k = 1) as [-> | ->] by lia; [congruence|].
        rewrite Y1. apply irrefl.
      * intros k Hk. assert (k = n - 1) as -> by lia. congruence.
    + unfold n, zlen in *. lia.
  - intros [ys h] (Hh & LY & PY & M1 & Mh & KL & KH).
    wstep. apply (wp_swap d); [lia|lia|]. cbn [wp].
    split; [etransitivity; [exact PY|]; apply swapped_perm; lia|]. split; [lia|].
    split.
    + intros k Hk. rewrite !zn_swapped by lia. rewrite Z.eqb_refl, M1.
      destruct (Z.eqb_spec k h); [lia|]. destruct (Z.eqb_spec k 1); auto. apply KL; lia.
    + rewrite zlen_swapped. intros k Hk. rewrite !zn_swapped by lia. rewrite Z.eqb_refl, M1.
      destruct (Z.eqb_spec k h); [lia|]. destruct (Z.eqb_spec k 1); [lia|]. apply KH; lia.
Qed.

Lemma quick_fuel_perm fuel : forall xs, (length xs < fuel)%nat ->
  wp (quick_fuel fuel xs) (fun ys => Permutation xs ys).
Proof.
  induction fuel; intros xs HF; [lia|]. cbn [quick_fuel].
  destruct (Z.ltb_spec (zlen xs) manualLen) as [?|HL]; [apply shell_perm|].
  unfold manualLen in HL. destruct xs as [|d xs0]; [rewrite zlen_nil in HL; lia|].
  set (xs := d :: xs0) in *.
  wstep. eapply wp_mono; [apply (partition_ok d); lia|].
  intros [ys p] (PY & Hp & _).
  assert (LY : length ys = length xs) by (symmetry; now apply Permutation_length).
  assert (Lz : zlen xs = Z.of_nat (length ys)) by (unfold zlen; lia).
  wstep. eapply wp_mono; [apply IHfuel; rewrite firstn_length; lia|]. intros l PL.
  wstep. eapply wp_mono; [apply IHfuel; rewrite skipn_length; lia|]. intros r PR.
  cbn [wp]. etransitivity; [exact PY|].
  rewrite <- (firstn_skipn (Z.to_nat p) ys) at 1. now apply Permutation_app.
Qed.

Lemma quick_perm xs : wp (quick xs) (fun ys => Permutation xs ys).
Proof. apply quick_fuel_perm. lia. Qed.

(* ------------------------------------------------------------------ *)
(** * Sortedness on a domain where the order is a weak order *)
Variable P : F -> Prop.
Hypothesis trans : forall x y z, P x -> P y -> P z ->
  ltb y x = false -> ltb z y = false -> ltb z x = false.

Definition asc (d : F) (ys : list F) (lo hi : Z) : Prop :=
  forall a b, lo <= a -> a < b -> b < hi -> ltb (zn d ys b) (zn d ys a) = false.

Lemma asc_ascending d ys : asc d ys 0 (zlen ys) -> ascending ltb ys.
Proof.
  unfold ascending. induction ys as [|y ys IH]; intros H; constructor.
  - apply IH. intros a b Ha Hab Hb. specialize (H (a + 1) (b + 1)).
    unfold zn in *. replace (Z.to_nat (a + 1)) with (S (Z.to_nat a)) in H by lia.
    replace (Z.to_nat (b + 1)) with (S (Z.to_nat b)) in H by lia. simpl in H.
    apply H; rewrite ?zlen_cons; lia.
  - apply Forall_forall. intros x Hx. apply (In_zn d) in Hx. destruct Hx as [i [Hi E]].
    specialize (H 0 (i + 1)). unfold zn in *.
    replace (Z.to_nat (i + 1)) with (S (Z.to_nat i)) in H by lia. simpl in H.
    rewrite E in H. apply H; rewrite ?zlen_cons; lia.
Qed.

Lemma ascending_asc d ys : ascending ltb ys -> asc d ys 0 (zlen ys).
Proof.
  unfold ascending. induction ys as [|y ys IH]; intros H.
  - intros a b Ha Hab Hb. rewrite zlen_nil in Hb. lia.
  - inversion H; subst. specialize (IH H2). intros a b Ha Hab Hb. rewrite zlen_cons in Hb.
    unfold zn. destruct (Z.eq_dec a 0).
    + subst. replace (Z.to_nat b) with (S (Z.to_nat (b - 1))) by lia. simpl.
      rewrite Forall_forall in H3. apply H3. apply (zn_In d). lia.
    + replace (Z.to_nat b) with (S (Z.to_nat (b - 1))) by lia.
      replace (Z.to_nat a) with (S (Z.to_nat (a - 1))) by lia. simpl.
      apply (IH (a - 1) (b - 1)); lia.
Qed.

Lemma Forall_zn d ys k : Forall P ys -> 0 <= k < zlen ys -> P (zn d ys k).
Proof. intros H Hk. rewrite Forall_forall in H. apply H, zn_In; auto. Qed.

(** Insertion step of the last pass. *)
Lemma shell_shift_sorted d v xs i fuel :
  1 <= i -> i < zlen xs -> (Z.to_nat i < fuel)%nat -> zn d xs i = v ->
  Forall P xs -> asc d xs 0 i ->
  wp (shell_shift fuel 1 v xs i)
     (fun '(ys, j) => 0 <= j <= i /\ zlen ys = zlen xs /\
                      asc d (upd ys (Z.to_nat j) v) 0 (i + 1)).
Proof.
  intros Hi HL HF HV HP HS. unfold shell_shift.
  assert (PV : P v) by (subst v; apply Forall_zn; auto; lia).
  apply (loop_inv (fun '(ys, j) => 1 <= j <= i /\ zlen ys = zlen xs /\
             (forall k, 0 <= k < j -> zn d ys k = zn d xs k) /\
             (forall k, j < k <= i -> zn d ys k = zn d xs (k - 1)) /\
             (forall k, j <= k < i -> ltb v (zn d xs k) = true))
           _ (fun '(ys, j) => Z.to_nat j)).
  - intros [ys j] (Hj & E & K1 & K2 & K3). wstep. apply (wp_get d); [lia|].
    rewrite K1 by lia.
    destruct (ltb v (zn d xs (j - 1))) eqn:C.
    + wstep. apply wp_set; [lia|].
      assert (Q1 : forall k, 0 <= k < j - 1 -> zn d (upd ys (Z.to_nat j) (zn d xs (j - 1))) k = zn d xs k).
      { intros k Hk. rewrite zn_upd_neq by lia. apply K1; lia. }
      assert (Q2 : forall k, j - 1 < k <= i -> zn d (upd ys (Z.to_nat j) (zn d xs (j - 1))) k = zn d xs (k - 1)).
      { intros k Hk. rewrite zn_upd by lia. destruct (Z.eqb_spec k j); [subst; auto|]. apply K2; lia. }
      assert (Q3 : forall k, j - 1 <= k < i -> ltb v (zn d xs k) = true).
      { intros k Hk. destruct (Z.eq_dec k (j - 1)); [subst; auto|]. apply K3; lia. }
      destruct (Z.ltb_spec (j - 1) 1); cbn [wp].
      * rewrite zlen_upd. repeat split; try lia; auto.
        replace (j - 1) with 0 in * by lia.
        intros a b Ha Hab Hb. rewrite !zn_upd by (rewrite ?zlen_upd; lia).
        destruct (Z.eqb_spec b 0); [lia|].
        assert (R : forall k, 0 < k <= i -> (if k =? j then zn d xs 0 else zn d ys k) = zn d xs (k - 1)).
        { intros k Hk. specialize (Q2 k ltac:(lia)). rewrite zn_upd in Q2 by lia. exact Q2. }
        rewrite R by lia.
        destruct (Z.eqb_spec a 0).
        -- apply asym, Q3. lia.
        -- rewrite R by lia. apply HS; lia.
      * rewrite zlen_upd. repeat split; auto; lia.
    + cbn [wp]. repeat split; auto; try lia.
      intros a b Ha Hab Hb. rewrite !zn_upd by lia.
      destruct (Z.eqb_spec b j).
      * destruct (Z.eqb_spec a j); [lia|]. rewrite K1 by lia.
        destruct (Z.eq_dec a (j - 1)); [subst a; exact C|].
        apply (trans _ (zn d xs (j - 1))); auto.
        -- apply Forall_zn; auto; lia.
        -- apply Forall_zn; auto; lia.
        -- apply HS; lia.
      * destruct (Z.eqb_spec a j).
        -- rewrite K2 by lia. apply asym, K3. lia.
        -- destruct (Z_lt_dec b j).
           ++ rewrite !K1 by lia. apply HS; lia.
           ++ rewrite K2 by lia. destruct (Z_lt_dec a j).
              ** rewrite K1 by lia. apply HS; lia.
              ** rewrite K2 by lia. apply HS; lia.
  - repeat split; auto; try lia; intros; lia.
  - auto.
Qed.

Lemma shell_pass_sorted d xs :
  Forall P xs -> wp (shell_pass 1 xs) (fun ys => asc d ys 0 (zlen ys)).
Proof.
  intros HP. unfold shell_pass. destruct (Z_le_gt_dec 1 (zlen xs)).
  2:{ rewrite for_empty by lia. cbn. intros a b. lia. }
  eapply wp_mono.
  - apply (for_inv (fun i ys => zlen ys = zlen xs /\ Forall P ys /\ asc d ys 0 i)); [lia| |].
    + repeat split; auto. intros a b. lia.
    + intros i ys Hi (E & HF & HA). wstep. apply (wp_get d); [lia|].
      wstep. eapply wp_mono.
      * apply wp_conj.
        -- apply (shell_shift_sorted d); [lia|lia| |reflexivity|auto|auto]. unfold zlen in *. lia.
        -- apply (shell_shift_perm d); [lia|lia| |reflexivity]. unfold zlen in *. lia.
      * intros [zs j] [(Hj & E' & HA') (_ & _ & HP')]. apply wp_set; [lia|].
        rewrite zlen_upd. repeat split; [lia| |auto].
        eapply Permutation_Forall; eauto.
  - cbv beta. intros ys (E & _ & H). now rewrite E.
Qed.

Lemma shell_sorted xs :
  Forall P xs -> wp (shell xs) (fun ys => ascending ltb ys).
Proof.
  intros HP. unfold shell. pose proof (zlen_nonneg xs) as L0.
  destruct (Z.eqb_spec (zlen xs) 1).
  { cbn. destruct xs as [|x [|]]; rewrite ?zlen_cons, ?zlen_nil in *; try lia.
    - repeat constructor.
    - match goal with H : context [zlen ?t] |- _ => pose proof (zlen_nonneg t) end. lia. }
  wstep. eapply wp_mono; [apply shell_inc0_ok, zlen_nonneg|].
  intros inc0 [G H].
  destruct xs as [|d xs0].
  { (* empty slice: every intermediate slice is empty *)
    apply (loop_inv (fun '(ys, inc) => shell_gap inc /\ 1 <= inc /\ ys = [])
             _ (fun '(_, inc) => Z.to_nat inc)).
    - intros [ys inc] (G' & L & ->). destruct (Z.ltb_spec 1 inc).
      + destruct (shell_gap_down inc) as [G'' B]; auto. wstep.
        eapply wp_mono; [apply shell_pass_perm; lia|].
        intros zs HP'. cbn [wp]. repeat split; auto; try lia. now apply Permutation_nil.
      + cbn. constructor.
    - repeat split; auto. lia.
    - lia. }
  set (xs := d :: xs0) in *.
  assert (2 <= zlen xs) by (unfold xs in *; rewrite zlen_cons in *; pose proof (zlen_nonneg xs0); lia).
  apply (loop_inv (fun '(ys, inc) => shell_gap inc /\ 1 <= inc /\ Forall P ys /\
             (inc = 1 -> asc d ys 0 (zlen ys)))
           _ (fun '(_, inc) => Z.to_nat inc)).
  - intros [ys inc] (G' & L & HF & HA). destruct (Z.ltb_spec 1 inc).
    + destruct (shell_gap_down inc) as [G'' B]; auto. wstep.
      destruct (Z.eq_dec (inc / 3) 1) as [E1|N1].
      * rewrite E1. eapply wp_mono; [apply wp_conj; [apply (shell_pass_sorted d); auto|apply shell_pass_perm; lia]|].
        intros zs [S1 S2]. cbn [wp]. repeat split; auto; try lia.
        -- apply shell_gap_1.
        -- eapply Permutation_Forall; eauto.
      * eapply wp_mono; [apply shell_pass_perm; lia|].
        intros zs HP'. cbn [wp]. repeat split; auto; try lia.
        eapply Permutation_Forall; eauto.
    + cbn. apply (asc_ascending d). apply HA. lia.
  - repeat split; auto; try lia.
  - lia.
Qed.

Lemma quick_fuel_sorted fuel : forall xs, (length xs < fuel)%nat -> Forall P xs ->
  wp (quick_fuel fuel xs) (fun ys => ascending ltb ys).
Proof.
  induction fuel; intros xs HF HP; [lia|]. cbn [quick_fuel].
  destruct (Z.ltb_spec (zlen xs) manualLen) as [?|HL]; [now apply shell_sorted|].
  unfold manualLen in HL. destruct xs as [|d xs0]; [rewrite zlen_nil in HL; lia|].
  set (xs := d :: xs0) in *.
  wstep. eapply wp_mono; [apply (partition_ok d); lia|].
  intros [ys p] (PY & Hp & K1 & K2).
  assert (LY : length ys = length xs) by (symmetry; now apply Permutation_length).
  assert (LZ : zlen ys = zlen xs) by (unfold zlen; lia).
  assert (HY : Forall P ys) by (eapply Permutation_Forall; eauto).
  assert (Lz : zlen xs = Z.of_nat (length ys)) by (unfold zlen; lia).
  assert (F1 : (length (firstn (Z.to_nat p) ys) < fuel)%nat) by (rewrite firstn_length; lia).
  assert (F2 : (length (skipn (Z.to_nat p) ys) < fuel)%nat) by (rewrite skipn_length; lia).
  rewrite <- (firstn_skipn (Z.to_nat p) ys) in HY. apply Forall_app in HY. destruct HY as [HY1 HY2].
  wstep. eapply wp_mono; [apply wp_conj; [apply IHfuel; auto|apply quick_fuel_perm; auto]|]. intros l [SL PL].
  wstep. eapply wp_mono; [apply wp_conj; [apply IHfuel; auto|apply quick_fuel_perm; auto]|]. intros r [SR PR].
  cbn [wp].
  (* every element on the left is below the pivot, every one on the right above *)
  assert (PP : P (zn d ys p)).
  { rewrite Forall_forall in HY2. apply HY2.
    replace (zn d ys p) with (zn d (skipn (Z.to_nat p) ys) 0).
    - apply zn_In. rewrite zlen_skipn by lia. lia.
    - rewrite zn_skipn by lia. f_equal; lia. }
  assert (BL : Forall (fun x => ltb (zn d ys p) x = false) l).
  { eapply Permutation_Forall; [exact PL|]. apply Forall_forall. intros x Hx.
    apply (In_zn d) in Hx. destruct Hx as [i [Hi <-]]. rewrite zlen_firstn in Hi by lia.
    rewrite zn_firstn by lia. apply K1. lia. }
  assert (BR : Forall (fun x => ltb x (zn d ys p) = false) r).
  { eapply Permutation_Forall; [exact PR|]. apply Forall_forall. intros x Hx.
    apply (In_zn d) in Hx. destruct Hx as [i [Hi <-]]. rewrite zlen_skipn in Hi by lia.
    rewrite zn_skipn by lia. destruct (Z.eq_dec i 0).
    - subst. replace (p + 0) with p by lia. apply irrefl.
    - apply K2. lia. }
  assert (PLl : Forall P l) by (eapply Permutation_Forall; eauto).
  assert (PRr : Forall P r) by (eapply Permutation_Forall; eauto).
  clear - SL SR BL BR PLl PRr PP trans.
  unfold ascending in *. induction l as [|x l IH]; simpl; auto.
  inversion SL; subst. inversion BL; subst. inversion PLl; subst.
  constructor; [apply IH; auto|]. apply Forall_app. split; auto.
  rewrite Forall_forall in *. intros y Hy. apply (trans _ (zn d ys p)); auto.
Qed.

Lemma quick_sorted xs : Forall P xs -> wp (quick xs) (fun ys => ascending ltb ys).
Proof. intros. apply quick_fuel_sorted; auto. Qed.

(* ------------------------------------------------------------------ *)
(** * Selection *)

Lemma filter_perm_length {A} (f : A -> bool) l1 l2 :
  Permutation l1 l2 -> length (filter f l1) = length (filter f l2).
Proof.
  induction 1; simpl; auto.
  - destruct (f x); simpl; auto.
  - destruct (f x), (f y); simpl; auto.
  - congruence.
Qed.

Lemma is_nth_perm r n l1 l2 :
  Permutation l1 l2 -> is_nth_largest ltb r n l1 -> is_nth_largest ltb r n l2.
Proof.
  intros HP (HI & H). unfold is_nth_largest, above, at_least in *.
  rewrite <- !(filter_perm_length _ l1 l2) by auto. split; auto.
  eapply Permutation_in; eauto.
Qed.

Lemma filter_all {A} (f : A -> bool) l : Forall (fun x => f x = true) l -> filter f l = l.
Proof. induction 1; simpl; auto. rewrite H. now f_equal. Qed.
Lemma filter_none {A} (f : A -> bool) l : Forall (fun x => f x = false) l -> filter f l = [].
Proof. induction 1; simpl; auto. now rewrite H. Qed.

Lemma sorted2_nth a b : ltb b a = false ->
  is_nth_largest ltb b 1 [a; b] /\ is_nth_largest ltb a 2 [a; b].
Proof.
  intros C. unfold is_nth_largest, above, at_least. simpl. rewrite C, !irrefl.
  destruct (ltb a b); simpl; auto with zarith.
Qed.

Lemma sorted3_nth a b c mx md mn :
  P a -> P b -> P c -> sort3 a b c = (mx, md, mn) ->
  is_nth_largest ltb mx 1 [a; b; c] /\ is_nth_largest ltb md 2 [a; b; c] /\
  is_nth_largest ltb mn 3 [a; b; c].
Proof.
  intros Pa Pb Pc ES. apply sort3_order in ES. destruct ES as (O1 & O2 & HP).
  assert (Q : Forall P [mn; md; mx]) by (eapply Permutation_Forall; eauto).
  inversion Q as [|? ? Pmn Q']; subst. inversion Q' as [|? ? Pmd Q'']; subst. inversion Q'' as [|? ? Pmx _]; subst.
  assert (O3 : ltb mx mn = false) by (apply (trans mn md mx); auto).
  symmetry in HP.
  repeat split; try (eapply Permutation_in; [exact HP|]; simpl; auto);
    unfold above, at_least; rewrite <- (filter_perm_length _ _ _ HP);
    simpl; rewrite ?O1, ?O2, ?O3, ?irrefl; simpl;
    repeat match goal with |- context [if ?b then _ else _] => destruct b end; simpl; lia.
Qed.

Lemma nth_largest_ok fuel : forall xs n, (length xs < fuel)%nat -> Forall P xs ->
  1 <= n <= zlen xs ->
  wp (nth_largest_fuel fuel xs n) (fun '(v, ys) => is_nth_largest ltb v n xs /\ Permutation xs ys).
Proof.
  induction fuel; intros xs n HF HP Hn; [lia|]. cbn [nth_largest_fuel].
  destruct (Z.eqb_spec (zlen xs) 1) as [L1|L1].
  { destruct xs as [|a [|b t]]; rewrite ?zlen_cons, ?zlen_nil in *; try lia;
      [|pose proof (zlen_nonneg t); lia].
    cbn. assert (n = 1) as -> by lia. unfold is_nth_largest, above, at_least. cbn. rewrite irrefl.
    repeat split; simpl; auto; lia. }
  destruct (Z.eqb_spec (zlen xs) 2) as [L2|L2].
  { destruct xs as [|a [|b [|c t]]]; rewrite ?zlen_cons, ?zlen_nil in *; try lia;
      [|pose proof (zlen_nonneg t); lia].
    change (get [a; b] 0) with (Ok a). change (get [a; b] 1) with (Ok b). cbn [bind].
    destruct (Z.leb_spec n 2); [|lia].
    destruct (ltb b a) eqn:C.
    - change (swap [a; b] 0 1) with (Ok [b; a]). cbn [bind].
      destruct (sorted2_nth b a) as [S1 S2]; [now apply asym|].
      assert (HS : Permutation [b; a] [a; b]) by constructor.
      assert (n = 1 \/ n = 2) as [-> | ->] by lia;
        [change (get [b; a] (2 - 1)) with (Ok a) | change (get [b; a] (2 - 2)) with (Ok b)];
        cbn [bind wp]; (split; [eapply is_nth_perm; eauto | constructor]).
    - cbn [bind]. destruct (sorted2_nth a b) as [S1 S2]; auto.
      assert (n = 1 \/ n = 2) as [-> | ->] by lia;
        [change (get [a; b] (2 - 1)) with (Ok b) | change (get [a; b] (2 - 2)) with (Ok a)];
        cbn [bind wp]; auto. }
  destruct (Z.eqb_spec (zlen xs) 3) as [L3|L3].
  { destruct xs as [|a [|b [|c [|e t]]]]; rewrite ?zlen_cons, ?zlen_nil in *; try lia;
      [|pose proof (zlen_nonneg t); lia].
    change (get [a; b; c] 0) with (Ok a). change (get [a; b; c] 1) with (Ok b).
    change (get [a; b; c] 2) with (Ok c). cbn [bind].
    inversion HP as [|? ? Pa HP1]; subst. inversion HP1 as [|? ? Pb HP2]; subst. inversion HP2 as [|? ? Pc _]; subst.
    destruct (sort3 a b c) as [[mx md] mn] eqn:ES.
    destruct (sorted3_nth a b c mx md mn) as (S1 & S2 & S3); auto.
    destruct (Z.eqb_spec n 1); [subst; cbn; auto|].
    destruct (Z.eqb_spec n 2); [subst; cbn; auto|].
    destruct (Z.eqb_spec n 3); [subst; cbn; auto|]. lia. }
  destruct xs as [|d xs0]; [rewrite zlen_nil in *; lia|]. set (xs := d :: xs0) in *.
  wstep. eapply wp_mono; [apply (partition_ok d); lia|].
  intros [ys p] (PY & Hp & K1 & K2).
  assert (LY : length ys = length xs) by (symmetry; now apply Permutation_length).
  assert (LZ : zlen ys = zlen xs) by (unfold zlen; lia).
  assert (HY : Forall P ys) by (eapply Permutation_Forall; eauto).
  assert (Lz : zlen xs = Z.of_nat (length ys)) by (unfold zlen; lia).
  assert (PP : P (zn d ys p)) by (apply Forall_zn; auto; lia).
  assert (F1 : (length (firstn (Z.to_nat p) ys) < fuel)%nat) by (rewrite firstn_length; lia).
  assert (F2 : (length (skipn (Z.to_nat p) ys) < fuel)%nat) by (rewrite skipn_length; lia).
  set (L := firstn (Z.to_nat p) ys) in *. set (R := skipn (Z.to_nat p) ys) in *.
  assert (ELR : L ++ R = ys) by apply firstn_skipn.
  assert (HLR : Forall P L /\ Forall P R) by (rewrite <- Forall_app, ELR; auto).
  destruct HLR as [HPL HPR].
  assert (ZL : zlen L = p) by (apply zlen_firstn; lia).
  assert (ZR : zlen R = zlen ys - p) by (apply zlen_skipn; lia).
  assert (BL : Forall (fun x => ltb (zn d ys p) x = false) L).
  { apply Forall_forall. intros x Hx. apply (In_zn d) in Hx. destruct Hx as [i [Hi <-]].
    unfold L. rewrite zn_firstn by lia. apply K1. lia. }
  assert (ER : exists R', R = zn d ys p :: R').
  { assert (EZ : zn d R 0 = zn d ys p) by (unfold R; rewrite zn_skipn by lia; f_equal; lia).
    clear - EZ ZR Hp LZ. clearbody R. destruct R as [|r0 R']; [rewrite zlen_nil in ZR; lia|].
    exists R'. now rewrite <- EZ. }
  assert (BR : Forall (fun x => ltb x (zn d ys p) = false) R).
  { apply Forall_forall. intros x Hx. apply (In_zn d) in Hx. destruct Hx as [i [Hi <-]].
    unfold R. rewrite zn_skipn by lia. destruct (Z.eq_dec i 0).
    - subst i. replace (p + 0) with p by lia. apply irrefl.
    - apply K2. lia. }
  assert (AB : forall r, length (filter (fun x => ltb r x) ys) =
                (length (filter (fun x => ltb r x) L) + length (filter (fun x => ltb r x) R))%nat).
  { intros r. rewrite <- ELR, filter_app, app_length. reflexivity. }
  assert (AL : forall r, length (filter (fun x => negb (ltb x r)) ys) =
                (length (filter (fun x => negb (ltb x r)) L) + length (filter (fun x => negb (ltb x r)) R))%nat).
  { intros r. rewrite <- ELR, filter_app, app_length. reflexivity. }
  assert (FL : forall (f : F -> bool) (l : list F), (length (filter f l) <= length l)%nat).
  { intros f l. induction l; simpl; auto. destruct (f a); simpl; lia. }
  destruct (Z.ltb_spec n (zlen ys - p)) as [C1|C1].
  - wstep. eapply wp_mono; [apply IHfuel; auto; lia|].
    intros [v r] [(HI & HC) PR']. cbn [wp]. split.
    + apply (is_nth_perm v n ys); [symmetry; auto|].
      assert (PV : P v) by (rewrite Forall_forall in HPR; auto).
      assert (Z0 : filter (fun x => ltb v x) L = []).
      { apply filter_none. rewrite Forall_forall in *. intros x Hx.
        apply (trans x (zn d ys p) v); auto. }
      split; [rewrite <- ELR; apply in_or_app; auto|].
      unfold above, at_least in *. rewrite AB, AL, Z0. simpl. lia.
    + etransitivity; [exact PY|]. rewrite <- ELR at 1. now apply Permutation_app_head.
  - destruct (Z.ltb_spec (zlen ys - p) n) as [C2|C2].
    + wstep. eapply wp_mono; [apply IHfuel; auto; lia|].
      intros [v l] [(HI & HC) PL']. cbn [wp]. split.
      * apply (is_nth_perm v n ys); [symmetry; auto|].
        assert (PV : P v) by (rewrite Forall_forall in HPL; auto).
        assert (ZA : filter (fun x => negb (ltb x v)) R = R).
        { apply filter_all. rewrite Forall_forall in *. intros x Hx.
          rewrite (trans v (zn d ys p) x); auto. }
        split; [rewrite <- ELR; apply in_or_app; auto|].
        unfold above, at_least in *. rewrite AB, AL, ZA.
        pose proof (FL (fun x => ltb v x) R). unfold zlen in *. lia.
      * etransitivity; [exact PY|]. rewrite <- ELR at 1. now apply Permutation_app_tail.
    + wstep. apply (wp_get d); [lia|]. cbn [wp]. split; auto.
      apply (is_nth_perm (zn d ys p) n ys); [symmetry; auto|].
      split; [apply zn_In; lia|].
      unfold above, at_least in *. rewrite AB, AL.
      assert (Z0 : filter (fun x => ltb (zn d ys p) x) L = []) by (apply filter_none; auto).
      assert (ZA : filter (fun x => negb (ltb x (zn d ys p))) R = R).
      { apply filter_all. rewrite Forall_forall in *. intros x Hx. rewrite BR; auto. }
      rewrite Z0, ZA. destruct ER as [R' ER]. rewrite ER. simpl. rewrite irrefl.
      pose proof (FL (fun x => ltb (zn d ys p) x) R'). rewrite ER in ZR.
      unfold zlen in *. simpl in *. lia.
Qed.

Lemma copy_same {A} (b xs : list A) : length b = length xs -> copy b xs = xs.
Proof.
  intros H. unfold copy. rewrite H, firstn_all, skipn_all2 by lia. apply app_nil_r.
Qed.

Lemma NthLargest_ok xs n buf :
  Forall P xs -> 1 <= n <= zlen xs ->
  match buf with Some b => length b = length xs | None => True end ->
  wp (NthLargest xs n buf) (fun '(v, ys) => is_nth_largest ltb v n xs /\ Permutation xs ys).
Proof.
  intros HP Hn HB. unfold NthLargest. destruct (Z.eqb_spec (zlen xs) 0); [lia|].
  assert (E : forall b, length b = length xs -> copy b xs = xs) by (intros; now apply copy_same).
  destruct buf as [b|].
  - replace (zlen b =? zlen xs) with true by (unfold zlen; lia). cbn [bind]. rewrite E by auto.
    apply nth_largest_ok; auto.
  - cbn [bind]. rewrite E by auto. apply nth_largest_ok; auto.
Qed.

Lemma NthLargest_buf xs n b1 b2 :
  length b1 = length xs -> length b2 = length xs ->
  NthLargest xs n (Some b1) = NthLargest xs n (Some b2) /\
  NthLargest xs n (Some b1) = NthLargest xs n None.
Proof.
  intros H1 H2. unfold NthLargest. destruct (zlen xs =? 0); auto.
  replace (zlen b1 =? zlen xs) with true by (unfold zlen; lia).
  replace (zlen b2 =? zlen xs) with true by (unfold zlen; lia). cbn [bind].
  rewrite !copy_same by auto. auto.
Qed.

End SortProofs.

Lemma NthLargest_panics {F} {N : Num F} (xs : list F) n b :
  xs = [] \/ length b <> length xs -> NthLargest xs n (Some b) = Panic.
Proof.
  intros [->|H]; [reflexivity|]. unfold NthLargest. destruct (zlen xs =? 0); auto.
  replace (zlen b =? zlen xs) with false by (unfold zlen; lia). reflexivity.
Qed.
