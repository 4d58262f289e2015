(** profile.go: binnedMean. *)
From Coq Require Import ZArith List Bool Lia Reals Lra Psatz ZifyBool ZifyNat.
From Flocq Require Import Core.Raux.
From Verif Require Import Base.Res Base.ResFacts Base.Num Model.Geom Model.Halo Model.Profile Spec.Work Spec.Binning Proof.WorkP Proof.ProfileP.
Import ListNotations.
Open Scope Z_scope.
Open Scope res_scope.

Lemma zseq_snoc i : 0 <= i -> zseq (i + 1) = zseq i ++ [i].
Proof.
  intros H. unfold zseq. replace (Z.to_nat (i + 1)) with (Z.to_nat i + 1)%nat by lia.
  rewrite seq_app, map_app. cbn. rewrite Z2Nat.id by lia. reflexivity.
Qed.

Lemma zlen_filter_le {A} (f : A -> bool) l : zlen (filter f l) <= zlen l.
Proof. unfold zlen. induction l as [|a l IH]; cbn; [lia|]. destruct (f a); cbn; lia. Qed.

Lemma zlen_zseq n : 0 <= n -> zlen (zseq n) = n.
Proof. intros. unfold zlen, zseq. rewrite map_length, seq_length. lia. Qed.

Section Bins.
Context (isnan : R -> bool) (flog fexp : R -> R) (maxF smallF : R).
Variables (xs ys : list R) (B : Z) (opt : bm_options R) (lo hi : R).
Hypothesis (HB : 0 < B) (Hlh : (lo < hi)%R).
Hypothesis (HY : zlen ys = zlen xs) (HV : forall v, bm_valid opt = Some v -> zlen v = zlen xs).

Let n := zlen xs.
Let p (i : Z) : R := if bm_log opt then flog (zn 0%R xs i) else zn 0%R xs i.
Let y (i : Z) : R := zn 0%R ys i.
Let valid (i : Z) : bool := match bm_valid opt with None => true | Some v => zn false v i end.
Let good (i : Z) : bool := valid i && negb (isnan (y i)).
Let w : R := ((hi - lo) / IZR B)%R.

Lemma masked_eq i : 0 <= i < n -> bm_masked opt i = Ok (negb (valid i)).
Proof.
  clear HB Hlh HY w isnan flog fexp maxF smallF ys y good p lo hi B. intros Hi. unfold bm_masked, valid. destruct (bm_valid opt) as [v|] eqn:E; [|reflexivity].
  rewrite (get_ok false) by (rewrite (HV v eq_refl); exact Hi). reflexivity.
Qed.

Lemma IZRB : (0 < IZR B)%R. Proof. apply IZR_lt. exact HB. Qed.
Lemma w_pos : (0 < w)%R. Proof. unfold w. apply Rdiv_lt_0_compat; [lra|apply IZRB]. Qed.

Definition bin_of (q : R) : Z := let k := Zfloor ((q - lo) / w) in if k =? B then k - 1 else k.

Lemma edge_w b : bin_edge B lo hi b = (lo + IZR b * w)%R.
Proof. unfold bin_edge, w. pose proof IZRB. field. lra. Qed.

Lemma bin_of_spec q : (lo <= q <= hi)%R -> 0 <= bin_of q < B /\
  forall b, 0 <= b < B ->
    (Rle_bool (bin_edge B lo hi b) q && (Rlt_bool q (bin_edge B lo hi (b + 1)) || ((b =? B - 1) && Req_bool q hi))) = (b =? bin_of q).
Proof.
  intros Hq. pose proof w_pos as Hw. pose proof IZRB as HIB.
  set (t := ((q - lo) / w)%R). assert (Eq : q = (lo + t * w)%R) by (unfold t; field; lra).
  assert (Eh : hi = (lo + IZR B * w)%R) by (unfold w; field; lra).
  assert (Ht0 : (0 <= t)%R) by (unfold t; apply Rmult_le_pos; [lra|left; apply Rinv_0_lt_compat; exact Hw]).
  assert (HtB : (t <= IZR B)%R) by nra.
  set (k := Zfloor t). pose proof (Zfloor_lb t) as K1. pose proof (Zfloor_ub t) as K2. fold k in K1, K2.
  assert (Hk0 : 0 <= k) by (apply Zfloor_lub; simpl; lra).
  assert (HkB : k <= B). { apply le_IZR. lra. }
  unfold bin_of. fold t k. cbn zeta.
  split; [destruct (Z.eqb_spec k B); lia|].
  intros b Hb. rewrite !edge_w, plus_IZR.
  destruct (Z.eqb_spec k B) as [E|E].
  - assert (t = IZR B) by (rewrite E in K1; lra). assert (Eqh : q = hi) by (rewrite Eq, Eh; congruence).
    destruct (Z.eqb_spec b (k - 1)) as [Eb|Eb].
    + rewrite Rle_bool_true. 2:{ assert (IZR b <= IZR B)%R by (apply IZR_le; lia). nra. }
      replace (b =? B - 1) with true by lia. rewrite Req_bool_true by exact Eqh. cbn. apply orb_true_r.
    + replace (b =? B - 1) with false by lia. cbn [andb]. rewrite orb_false_r.
      rewrite Rlt_bool_false; [apply andb_false_r|].
      assert (IZR b + 1 <= IZR B)%R by (rewrite <- plus_IZR; apply IZR_le; lia). nra.
  - assert (k + 1 <= B) by lia.
    assert (HtB' : (t < IZR B)%R). { assert (IZR k + 1 <= IZR B)%R by (rewrite <- plus_IZR; apply IZR_le; lia). lra. }
    rewrite (Req_bool_false q hi) by nra. rewrite andb_false_r, orb_false_r.
    destruct (Z.lt_trichotomy b k) as [L|[L|L]].
    + replace (b =? k) with false by lia. rewrite Rlt_bool_false; [apply andb_false_r|].
      assert (IZR b + 1 <= IZR k)%R by (rewrite <- plus_IZR; apply IZR_le; lia). nra.
    + replace (b =? k) with true by lia. subst b. rewrite Rle_bool_true by nra. rewrite Rlt_bool_true by nra. reflexivity.
    + replace (b =? k) with false by lia. rewrite Rle_bool_false; [reflexivity|].
      assert (IZR k + 1 <= IZR b)%R by (rewrite <- plus_IZR; apply IZR_le; lia). nra.
Qed.

Lemma in_bin_out b i : 0 <= b < B -> (p i < lo \/ hi < p i)%R -> in_bin p good B lo hi b i = false.
Proof.
  intros Hb H. unfold in_bin. rewrite !edge_w, plus_IZR. pose proof w_pos. pose proof IZRB.
  assert (Eh : hi = (lo + IZR B * w)%R) by (unfold w; field; lra).
  assert (0 <= IZR b)%R by (apply IZR_le; lia). assert (IZR b + 1 <= IZR B)%R by (rewrite <- plus_IZR; apply IZR_le; lia).
  destruct H as [H|H].
  - rewrite Rle_bool_false by nra. rewrite andb_false_r. reflexivity.
  - rewrite Rlt_bool_false by nra. rewrite Req_bool_false by lra. rewrite andb_false_r. cbn. apply andb_false_r.
Qed.

Lemma in_bin_in b i : 0 <= b < B -> (lo <= p i <= hi)%R -> in_bin p good B lo hi b i = (good i && (b =? bin_of (p i))).
Proof.
  intros Hb H. unfold in_bin. rewrite <- andb_assoc. f_equal. apply (proj2 (bin_of_spec (p i) H)). exact Hb.
Qed.

Let mem (i b : Z) : list Z := filter (in_bin p good B lo hi b) (zseq i).

Lemma mem_snoc i b : 0 <= i -> mem (i + 1) b = mem i b ++ (if in_bin p good B lo hi b i then [i] else []).
Proof. intros Hi. unfold mem. rewrite zseq_snoc by exact Hi. rewrite filter_app. cbn. destruct (in_bin _ _ _ _ _ b i); reflexivity. Qed.

Lemma total_snoc l i : total y (l ++ [i]) = (total y l + y i)%R.
Proof. unfold total. induction l as [|a l IH]; cbn; [ring|]. rewrite IH. ring. Qed.

Lemma fill_spec : exists counts sums, bm_fill isnan flog opt xs ys B lo hi w = Ok (counts, sums) /\
  zlen counts = B /\ zlen sums = B /\
  forall b, 0 <= b < B -> zn 0 counts b = zlen (members p good n B lo hi b) /\ zn 0%R sums b = total y (members p good n B lo hi b).
Proof.
  set (I := fun (i : Z) (st : list Z * list Z * list R) => let '(nans, counts, sums) := st in
    zlen nans = B /\ zlen counts = B /\ zlen sums = B /\
    forall b, 0 <= b < B -> zn 0 counts b = zlen (mem i b) /\ zn 0%R sums b = total y (mem i b)).
  unfold bm_fill.
  match goal with |- exists _ _, bind ?l _ = _ /\ _ => assert (L : wp l (I n)) end.
  { apply (for_inv I).
    - unfold n, zlen; lia.
    - cbn. rewrite !zlen_repeat by lia. repeat (split; [lia|]). intros b Hb. unfold zn. rewrite !nth_repeat. split; reflexivity.
    - intros i [[nans counts] sums] Hi (L1 & L2 & L3 & V). fold n in Hi. rewrite (masked_eq i Hi). cbn [bind].
      assert (Keep : (forall b, 0 <= b < B -> in_bin p good B lo hi b i = false) -> I (i + 1) (nans, counts, sums)).
      { intros H. cbn. repeat (split; [assumption|]). intros b Hb. rewrite mem_snoc by lia. rewrite (H b Hb), app_nil_r. apply V. exact Hb. }
      destruct (valid i) eqn:Ev; cbn [negb].
      2:{ cbn. apply Keep. intros b Hb. unfold in_bin, good. rewrite Ev. reflexivity. }
      rewrite (get_ok 0%R) by exact Hi. cbn [bind].
      fold (p i). cbn [nltb nsub ndiv ntrunc RNum].
      destruct (Rlt_bool_spec (p i) lo) as [Hlo|Hlo].
      { cbn. apply Keep. intros b Hb. apply in_bin_out; auto. }
      destruct (Rlt_bool_spec hi (p i)) as [Hhi|Hhi].
      { cbn. apply Keep. intros b Hb. apply in_bin_out; auto. }
      cbn [orb]. replace (Ztrunc ((p i - lo) / w)) with (Zfloor ((p i - lo) / w)).
      2:{ unfold Ztrunc. rewrite Rlt_bool_false; [reflexivity|]. pose proof w_pos. apply Rmult_le_pos; [lra|left; apply Rinv_0_lt_compat; assumption]. }
      fold (bin_of (p i)). destruct (bin_of_spec (p i)) as [Rb _]; [lra|].
      rewrite (get_ok 0%R) by lia. cbn [bind]. fold (y i).
      destruct (isnan (y i)) eqn:En.
      + rewrite (get_ok 0) by lia. cbn [bind]. rewrite set_ok by lia. cbn [bind wp].
        destruct Keep as (K1 & K2 & K3 & K4).
        { intros b Hb. unfold in_bin, good. rewrite En. cbn. rewrite andb_false_r. reflexivity. }
        unfold I. rewrite zlen_upd. repeat (split; [assumption|]). exact K4.
      + rewrite (get_ok 0) by lia. cbn [bind]. rewrite set_ok by lia. cbn [bind]. rewrite (get_ok 0%R) by lia. cbn [bind]. rewrite set_ok by lia. cbn [bind wp nadd RNum].
        unfold I. rewrite !zlen_upd. repeat (split; [assumption|]). intros b Hb.
        rewrite mem_snoc by lia. rewrite in_bin_in by (assumption || lra). unfold good. rewrite Ev, En. cbn [negb andb].
        destruct (V b Hb) as [V1 V2].
        destruct (Z.eqb_spec b (bin_of (p i))) as [E|E].
        * subst b. rewrite !zn_upd_eq by lia. rewrite V1, V2. split; [rewrite zlen_app; reflexivity|]. rewrite total_snoc. reflexivity.
        * rewrite !zn_upd_neq by lia. rewrite app_nil_r. split; assumption. }
  apply wp_ok in L. destruct L as [[[nans counts] sums] [E (L1 & L2 & L3 & V)]].
  exists counts, sums. rewrite E. cbn [bind]. repeat (split; [reflexivity || assumption|]). exact V.
Qed.

Let binl := bins p good n B lo hi.
Let out (b : Z) : R := if bm_log opt then fexp (bin_middle B lo hi b) else bin_middle B lo hi b.

Lemma middle_w b : ((IZR b + 1 / 2) * w + lo)%R = bin_middle B lo hi b.
Proof. unfold bin_middle. rewrite !edge_w, plus_IZR. field. Qed.

(** The second half: the means of the bins that are not empty are moved to the
    front. *)
Lemma means_spec counts sums : zlen counts = B -> zlen sums = B ->
  (forall b, 0 <= b < B -> zn 0 counts b = zlen (members p good n B lo hi b) /\ zn 0%R sums b = total y (members p good n B lo hi b)) ->
  ('(shiftIdx, vals, means) <- for_ 0 (zlen counts) (fun idx '(shiftIdx, vals, means) =>
    c <- get counts idx ;;
    if c =? 0 then Ok (shiftIdx, vals, means) else
    m <- get means idx ;;
    means <- set means shiftIdx (m / #c)%num ;;
    let v := ((#idx + #1 / #2) * w + lo)%num in
    vals <- set vals shiftIdx (if bm_log opt then fexp v else v) ;;
    Ok (shiftIdx + 1, vals, means)) (0, repeat (nofZ 0) (Z.to_nat B), sums) ;;
  vals <- slice vals 0 shiftIdx ;; means <- slice means 0 shiftIdx ;; Ok (vals, means))
  = Ok (map out binl, map (mean p y good n B lo hi) binl).
Proof.
  intros LC LS V.
  set (ne := fun b => negb (zlen (members p good n B lo hi b) =? 0)).
  set (I := fun (k : Z) (st : Z * list R * list R) => let '(sh, vals, means) := st in
    let done := filter ne (zseq k) in
    sh = zlen done /\ zlen vals = B /\ zlen means = B /\
    (forall j, 0 <= j < sh -> zn 0%R vals j = out (zn 0 done j) /\ zn 0%R means j = mean p y good n B lo hi (zn 0 done j)) /\
    forall j, k <= j < B -> zn 0%R means j = zn 0%R sums j).
  match goal with |- bind ?l _ = _ => assert (L : wp l (I B)) end.
  { rewrite LC. apply (for_inv I); [lia| |].
    - cbn. rewrite zlen_repeat by lia. split; [reflexivity|]. split; [lia|]. split; [exact LS|]. split; [intros; lia|]. reflexivity.
    - intros k [[sh vals] means] Hk (E1 & E2 & E3 & E4 & E5).
      rewrite (get_ok 0) by lia. cbn [bind]. destruct (V k Hk) as [V1 V2]. rewrite V1.
      assert (Hfil : filter ne (zseq (k + 1)) = filter ne (zseq k) ++ (if ne k then [k] else [])).
      { rewrite zseq_snoc by lia. rewrite filter_app. cbn. destruct (ne k); reflexivity. }
      assert (Hsh : sh <= k). { subst sh. pose proof (zlen_filter_le ne (zseq k)). rewrite zlen_zseq in * by lia. lia. }
      assert (H0sh : 0 <= sh) by (subst sh; unfold zlen; lia).
      destruct (Z.eqb_spec (zlen (members p good n B lo hi k)) 0) as [Hz|Hz].
      + cbn [wp]. unfold I. assert (Enk : ne k = false) by (unfold ne; lia). rewrite Hfil, Enk, app_nil_r.
        repeat (split; [assumption|]). intros j Hj. apply E5. lia.
      + rewrite (get_ok 0%R) by lia. cbn [bind]. rewrite E5, V2 by lia. rewrite set_ok by lia. cbn [bind]. rewrite set_ok by lia. cbn [bind wp nadd nmul ndiv nofZ RNum].
        rewrite middle_w. fold (out k). unfold I.
        assert (Enk : ne k = true) by (unfold ne; lia). rewrite Hfil, Enk, !zlen_upd.
        split; [rewrite zlen_app; cbn; lia|]. split; [exact E2|]. split; [exact E3|]. split.
        * intros j Hj. destruct (Z.eq_dec j sh) as [-> | Hne].
          -- rewrite !zn_upd_eq by lia. rewrite zn_app by lia. replace (sh <? zlen (filter ne (zseq k))) with false by lia.
             rewrite <- E1, Z.sub_diag. split; reflexivity.
          -- rewrite !zn_upd_neq by lia. rewrite zn_app by lia. replace (j <? zlen (filter ne (zseq k))) with true by lia. apply E4. lia.
        * intros j Hj. rewrite zn_upd_neq by lia. apply E5. lia. }
  apply wp_ok in L. destruct L as [[[sh vals] means] [E (E1 & E2 & E3 & E4 & _)]].
  rewrite E. cbn [bind].
  assert (Eb : filter ne (zseq B) = binl) by reflexivity.
  cbn zeta in *. rewrite Eb in *.
  assert (Hsh : sh <= B). { subst sh. rewrite <- Eb. pose proof (zlen_filter_le ne (zseq B)). rewrite zlen_zseq in * by lia. lia. }
  assert (H0sh : 0 <= sh) by (subst sh; unfold zlen; lia).
  rewrite slice_ok by lia. cbn [bind]. rewrite slice_ok by lia. cbn [bind]. f_equal. f_equal.
  - apply (list_ext 0%R).
    + rewrite zlen_slice by lia. unfold zlen at 1. rewrite map_length. fold (zlen binl). lia.
    + intros j Hj. rewrite zlen_slice in Hj by lia. rewrite zn_slice by lia. rewrite (zn_map out 0 0%R) by lia. cbn [Z.add].
      apply (proj1 (E4 j ltac:(lia))).
  - apply (list_ext 0%R).
    + rewrite zlen_slice by lia. unfold zlen at 1. rewrite map_length. fold (zlen binl). lia.
    + intros j Hj. rewrite zlen_slice in Hj by lia. rewrite zn_slice by lia. rewrite (zn_map _ 0 0%R) by lia. cbn [Z.add].
      apply (proj2 (E4 j ltac:(lia))).
Qed.
End Bins.

Section Limits.
Context (isnan : R -> bool).
Variables (xs ys : list R) (opt : bm_options R).
Hypothesis (HY : zlen ys = zlen xs) (HV : forall v, bm_valid opt = Some v -> zlen v = zlen xs).
Let valid (i : Z) : bool := match bm_valid opt with None => true | Some v => zn false v i end.
Let good (i : Z) : bool := valid i && negb (isnan (zn 0%R ys i)).

Lemma extreme_spec (le : R -> R -> Prop) (better : R -> R -> bool) start :
  (forall a, le a a) -> (forall a b c, le a b -> le b c -> le a c) ->
  (forall a b, if better a b then le a b else le b a) ->
  exists m, bm_extreme isnan opt xs ys better start = Ok m /\ le m start /\
    (m = start \/ exists i, 0 <= i < zlen xs /\ good i = true /\ zn 0%R xs i = m) /\
    forall i, 0 <= i < zlen xs -> good i = true -> le m (zn 0%R xs i).
Proof.
  intros Hr Ht Hb. unfold bm_extreme.
  set (I := fun (k : Z) (m : R) => le m start /\ (m = start \/ exists i, 0 <= i < zlen xs /\ good i = true /\ zn 0%R xs i = m) /\
    forall i, 0 <= i < k -> good i = true -> le m (zn 0%R xs i)).
  apply (proj1 (wp_ok _ (I (zlen xs)))). apply (for_inv I).
  - unfold zlen; lia.
  - split; [apply Hr|]. split; [left; reflexivity|]. intros; lia.
  - intros i m Hi (A & Bm & C). rewrite (get_ok 0%R) by exact Hi. cbn [bind]. rewrite (masked_eq xs opt HV i Hi). cbn [bind].
    fold (valid i).
    assert (Keep : good i = false -> I (i + 1) m).
    { intros G. split; [exact A|]. split; [exact Bm|]. intros j Hj Gj. destruct (Z.eq_dec j i) as [-> |]; [congruence|apply C; [lia|exact Gj]]. }
    destruct (valid i) eqn:Ev; cbn [negb].
    2:{ cbn. apply Keep. unfold good. rewrite Ev. reflexivity. }
    rewrite (get_ok 0%R) by lia. cbn [bind].
    destruct (isnan (zn 0%R ys i)) eqn:En.
    { cbn. apply Keep. unfold good. rewrite En. apply andb_false_r. }
    assert (G : good i = true) by (unfold good; rewrite Ev, En; reflexivity).
    cbn [wp]. specialize (Hb (zn 0%R xs i) m). destruct (better (zn 0%R xs i) m).
    + split; [apply Ht with m; assumption|]. split; [right; exists i; auto|].
      intros j Hj Gj. destruct (Z.eq_dec j i) as [-> |]; [apply Hr|]. apply Ht with m; [exact Hb|]. apply C; [lia|exact Gj].
    + split; [exact A|]. split; [exact Bm|]. intros j Hj Gj. destruct (Z.eq_dec j i) as [-> |]; [exact Hb|]. apply C; [lia|exact Gj].
Qed.

Lemma extreme_best (le : R -> R -> Prop) (better : R -> R -> bool) start v :
  (forall a, le a a) -> (forall a b c, le a b -> le b c -> le a c) -> (forall a b, le a b -> le b a -> a = b) ->
  (forall a b, if better a b then le a b else le b a) ->
  best (zn 0%R xs) good (zlen xs) le v -> le v start -> bm_extreme isnan opt xs ys better start = Ok v.
Proof.
  intros Hr Ht Ha Hb [(i & Hi & Gi & Ei) Hv] Hs.
  destruct (extreme_spec le better start Hr Ht Hb) as (m & E & A & Bm & C).
  rewrite E. f_equal. apply Ha.
  - rewrite <- Ei. apply C; assumption.
  - destruct Bm as [-> | (j & Hj & Gj & <-)]; [exact Hs|]. apply Hv; assumption.
Qed.
End Limits.

(** binnedMean with limits that are given or found. *)
Theorem binned_ok (isnan : R -> bool) (flog fexp : R -> R) (maxF smallF : R) (xs ys : list R) (B : Z) (opt : bm_options R) (lo0 hi0 : R) :
  let valid i := match bm_valid opt with None => true | Some v => nth (Z.to_nat i) v false end in
  let good i := valid i && negb (isnan (nth (Z.to_nat i) ys 0%R)) in
  let x i := nth (Z.to_nat i) xs 0%R in
  let y i := nth (Z.to_nat i) ys 0%R in
  let scale v := if bm_log opt then flog v else v in
  let unscale v := if bm_log opt then fexp v else v in
  let n := zlen xs in
  let pos i := scale (x i) in
  let lo := scale lo0 in let hi := scale hi0 in
  0 < B -> zlen ys = n -> (forall v, bm_valid opt = Some v -> zlen v = n) ->
  (isnan (bm_low opt) = false /\ lo0 = bm_low opt /\ hi0 = bm_high opt) \/
  (isnan (bm_low opt) = true /\ best x good n Rle lo0 /\ (lo0 <= maxF)%R /\ best x good n Rge hi0 /\ (smallF <= hi0)%R) ->
  (lo < hi)%R ->
  binned_mean isnan flog fexp maxF smallF xs ys B opt =
    Ok (map (fun b => unscale (bin_middle B lo hi b)) (bins pos good n B lo hi), map (mean pos y good n B lo hi) (bins pos good n B lo hi)).
Proof.
  intros valid good x y scale unscale n pos lo hi HB HY HV Hlim Hlh. unfold binned_mean.
  assert (EL : bm_limits isnan flog maxF smallF opt xs ys = Ok (lo, hi)).
  { unfold bm_limits. destruct Hlim as [(E & -> & -> ) | (E & B1 & B2 & B3 & B4)]; rewrite E.
    - cbn [bind]. unfold lo, hi, scale. destruct (bm_log opt); reflexivity.
    - rewrite (extreme_best isnan xs ys opt HY HV Rle nltb maxF lo0).
      + cbn [bind]. rewrite (extreme_best isnan xs ys opt HY HV Rge (fun a m => nltb m a) smallF hi0).
        * cbn [bind]. unfold lo, hi, scale. destruct (bm_log opt); reflexivity.
        * intros; lra.
        * intros; lra.
        * intros; lra.
        * intros a b. cbn [nltb RNum]. destruct (Rlt_bool_spec b a); lra.
        * exact B3.
        * lra.
      + intros; lra.
      + intros; lra.
      + intros; lra.
      + intros a b. cbn [nltb RNum]. destruct (Rlt_bool_spec a b); lra.
      + exact B1.
      + exact B2. }
  rewrite EL. cbn [bind]. replace (B <? 0) with false by lia. cbn [nsub ndiv nofZ RNum].
  destruct (fill_spec isnan flog fexp xs ys B opt lo hi HB Hlh HY HV) as (counts & sums & E & L1 & L2 & V).
  rewrite E. cbn [bind].
  apply (means_spec isnan flog fexp xs ys B opt lo hi HB counts sums L1 L2 V).
Qed.
