(** Histograms and the division of cubes between workers. *)
From Coq Require Import ZArith Reals List Lia Lra Bool Psatz Permutation.
From Coq Require Import ZifyBool ZifyNat.
From Flocq Require Import Core.Raux.
From Verif Require Import Base.Res Base.ResFacts Base.Stride Base.Num Model.Geom Model.Hist Model.Render
  Spec.Histograms Spec.HistDefs Spec.Geometry Spec.Work Proof.GeomR Proof.StrideP Proof.WorkP.
Import ListNotations.
Open Scope Z_scope.
Open Scope res_scope.

(** ** Bins *)
Section Bins.
Open Scope R_scope.
Variables (lg : bool) (mn mx : R) (bins : Z).
Hypothesis Hb : (0 < bins)%Z.
Hypothesis Hm : mn < mx.
Hypothesis Hl : lg = true -> 0 < mn.

Definition sc (x : R) : R := if lg then log10R x else x.
Let dx := (sc mx - sc mn) / IZR bins.
Definition dom (x : R) : Prop := lg = true -> 0 < x.

Lemma bins_pos : 0 < IZR bins.
Proof. now apply IZR_lt. Qed.

Lemma ln10_pos : 0 < ln 10.
Proof. rewrite <- ln_1. apply ln_increasing; lra. Qed.

Lemma sc_lt x y : dom x -> x < y -> sc x < sc y.
Proof.
  unfold sc, dom. intros D H. destruct lg; auto. unfold log10R.
  apply Rmult_lt_compat_r; [apply Rinv_0_lt_compat, ln10_pos|]. apply ln_increasing; auto.
Qed.

Lemma sc_le x y : dom x -> x <= y -> sc x <= sc y.
Proof. intros D [H| ->]; [left; now apply sc_lt|right; auto]. Qed.

Lemma sc_lt_inv x y : dom y -> sc x < sc y -> x < y.
Proof. intros D H. destruct (Rlt_le_dec x y) as [|K]; auto. apply (sc_le y x) in K; auto. lra. Qed.
Lemma sc_le_inv x y : dom y -> dom x -> sc x <= sc y -> x <= y.
Proof. intros D D' H. destruct (Rle_lt_dec x y) as [|K]; auto. apply (sc_lt y x) in K; auto. lra. Qed.

Lemma dx_pos : 0 < dx.
Proof.
  unfold dx. apply Rdiv_lt_0_compat; [|apply bins_pos]. assert (sc mn < sc mx) by (apply sc_lt; auto). lra.
Qed.

Lemma edge_dom j : dom (bin_edge lg mn mx bins j).
Proof.
  intros E. unfold bin_edge. specialize (Hl E). rewrite E. apply Rmult_lt_0_compat; auto. apply exp_pos.
Qed.

Lemma sc_edge j : sc (bin_edge lg mn mx bins j) = sc mn + dx * IZR j.
Proof.
  pose proof bins_pos. pose proof ln10_pos. unfold dx, sc, bin_edge. destruct lg eqn:E; [|field; lra].
  specialize (Hl eq_refl). unfold log10R. rewrite ln_mult; [|auto|apply exp_pos].
  unfold Rpower. rewrite ln_exp.
  assert (K : ln (mx / mn) = ln mx - ln mn).
  { unfold Rdiv. rewrite ln_mult, ln_Rinv; [ring|lra|lra|apply Rinv_0_lt_compat; lra]. }
  rewrite K. field. lra.
Qed.

Lemma edge_0 : bin_edge lg mn mx bins 0 = mn.
Proof.
  unfold bin_edge. replace (0 / IZR bins) with 0 by (pose proof bins_pos; field; lra). destruct lg eqn:E; [|ring].
  specialize (Hl eq_refl). rewrite Rpower_O; [ring|]. apply Rdiv_lt_0_compat; lra.
Qed.
Lemma edge_n : bin_edge lg mn mx bins bins = mx.
Proof.
  unfold bin_edge. pose proof bins_pos. replace (IZR bins / IZR bins) with 1 by (field; lra). destruct lg eqn:E; [|ring].
  specialize (Hl eq_refl). rewrite Rpower_1; [field; lra|]. apply Rdiv_lt_0_compat; lra.
Qed.

Definition bidx (x : R) : R := (sc x - sc mn) / dx.

Lemma in_bin_idx j x : dom x -> in_bin lg mn mx bins j x <-> IZR j <= bidx x < IZR (j + 1).
Proof.
  intros D. pose proof dx_pos as P. unfold in_bin, bidx.
  assert (A : forall k, bin_edge lg mn mx bins k <= x <-> IZR k <= (sc x - sc mn) / dx).
  { intros k. pose proof (sc_edge k) as E. split; intros H.
    - apply sc_le in H; [|apply edge_dom]. rewrite E in H. apply (Rmult_le_reg_r dx); auto.
      unfold Rdiv. rewrite Rmult_assoc, Rinv_l by lra. lra.
    - apply sc_le_inv; auto; [apply edge_dom|]. rewrite E. apply (Rmult_le_compat_r dx) in H; [|lra].
      unfold Rdiv in H. rewrite Rmult_assoc, Rinv_l in H by lra. lra. }
  pose proof (A j). pose proof (A (j + 1)%Z).
  assert (B : forall a b : R, a < b <-> ~ b <= a) by (intros; lra).
  rewrite (B x), (B _ (IZR (j + 1))). tauto.
Qed.

Lemma in_binb_spec j x : in_binb lg mn mx bins j x = true <-> in_bin lg mn mx bins j x.
Proof.
  unfold in_binb, in_bin. rewrite andb_true_iff. split; intros [A B]; split.
  - revert A. now destruct (Rle_bool_spec (bin_edge lg mn mx bins j) x).
  - revert B. now destruct (Rlt_bool_spec x (bin_edge lg mn mx bins (j + 1))).
  - now apply Rle_bool_true.
  - now apply Rlt_bool_true.
Qed.

Lemma bidx_range x : dom x -> (0 <= bidx x < IZR bins <-> mn <= x < mx).
Proof.
  intros D. pose proof dx_pos as P.
  pose proof (sc_edge 0) as E0. rewrite edge_0 in E0. pose proof (sc_edge bins) as En. rewrite edge_n in En.
  unfold bidx. split; intros [A B]; split.
  - apply sc_le_inv; auto. apply (Rmult_le_compat_r dx) in A; [|lra]. unfold Rdiv in A. rewrite Rmult_assoc, Rinv_l in A by lra. lra.
  - apply sc_lt_inv; [intros K; specialize (Hl K); lra|]. apply (Rmult_lt_compat_r dx) in B; [|lra]. unfold Rdiv in B. rewrite Rmult_assoc, Rinv_l in B by lra. lra.
  - apply sc_le in A; [|exact Hl]. apply (Rmult_le_reg_r dx); auto. unfold Rdiv. rewrite Rmult_assoc, Rinv_l by lra. lra.
  - apply sc_lt in B; auto. apply (Rmult_lt_reg_r dx); auto. unfold Rdiv. rewrite Rmult_assoc, Rinv_l by lra. lra.
Qed.

Lemma trunc_iff x j : 0 <= x -> (IZR j <= x < IZR (j + 1) <-> Ztrunc x = j).
Proof.
  intros H. rewrite Ztrunc_floor by auto. rewrite plus_IZR. split; intros K.
  - apply Zfloor_imp. now rewrite plus_IZR.
  - subst j. split; [apply Zfloor_lb|apply Zfloor_ub].
Qed.

Lemma trunc_range x : 0 <= x < IZR bins -> (0 <= Ztrunc x < bins)%Z.
Proof.
  intros [A B]. rewrite Ztrunc_floor by auto. split.
  - apply Zfloor_lub. exact A.
  - apply lt_IZR. eapply Rle_lt_trans; [apply Zfloor_lb|exact B].
Qed.

Lemma one_bin x : dom x -> mn <= x < mx -> exists! j, (0 <= j < bins)%Z /\ in_bin lg mn mx bins j x.
Proof.
  intros D H. apply bidx_range in H; auto. exists (Ztrunc (bidx x)). split.
  - split; [now apply trunc_range|]. apply in_bin_idx; auto. apply trunc_iff; [lra|auto].
  - intros j [Hj K]. apply in_bin_idx in K; auto. apply trunc_iff in K; [auto|lra].
Qed.
Lemma no_bin j x : dom x -> (0 <= j < bins)%Z -> in_bin lg mn mx bins j x -> mn <= x < mx.
Proof.
  intros D Hj K. apply in_bin_idx in K; auto. apply bidx_range; auto.
  assert (0 <= IZR j) by (apply IZR_le; lia). assert (IZR (j + 1) <= IZR bins) by (apply IZR_le; lia). lra.
Qed.
End Bins.

(** ** histogram *)
Definition samples_of (x : list R) (ok : list bool) (n : Z) : list (R * bool) := firstn (Z.to_nat n) (List.combine x ok).

Lemma filter_app_len {A} (f : A -> bool) l a : zlen (filter f (l ++ [a])) = zlen (filter f l) + (if f a then 1 else 0).
Proof. rewrite filter_app. unfold zlen. rewrite app_length. cbn. destruct (f a); cbn; lia. Qed.

Lemma zlen_combine {A B} (x : list A) (y : list B) : zlen x = zlen y -> zlen (List.combine x y) = zlen x.
Proof. unfold zlen. rewrite combine_length. lia. Qed.

Lemma firstn_snoc {A} (l : list A) k d : (k < length l)%nat -> firstn (S k) l = firstn k l ++ [nth k l d].
Proof.
  revert l; induction k; intros [|a l] H; cbn in *; try lia; auto. f_equal. apply IHk. lia.
Qed.

Lemma samples_snoc x ok i : zlen ok = zlen x -> 0 <= i < zlen x ->
  samples_of x ok (i + 1) = samples_of x ok i ++ [(zn 0%R x i, zn false ok i)].
Proof.
  intros HL Hi. unfold samples_of, zn. replace (Z.to_nat (i + 1)) with (S (Z.to_nat i)) by lia.
  rewrite (firstn_snoc _ _ (0%R, false)).
  - rewrite combine_nth; auto. unfold zlen in HL. lia.
  - rewrite combine_length. unfold zlen in *. lia.
Qed.


Lemma histogram_ok (x : list R) (ok : list bool) (info : hist_info R) counts :
  info_ok info -> zlen ok = zlen x -> zlen counts = hi_bins info ->
  (is_log info = true -> Forall (fun s => snd s = true -> (0 < fst s)%R) (List.combine x ok)) ->
  exists counts', histogram log10R x ok info counts = Ok counts' /\ zlen counts' = hi_bins info /\
    forall j, 0 <= j < hi_bins info -> zn 0 counts' j = zn 0 counts j +
      bin_count (is_log info) (hi_min info) (hi_max info) (hi_bins info) j (List.combine x ok).
Proof.
  intros (HB & HM & HP) HL HC HD. unfold histogram.
  set (lg := is_log info) in *. set (mn := hi_min info) in *. set (mx := hi_max info) in *. set (bins := hi_bins info) in *.
  assert (E : (if lg then (log10R mn, log10R mx) else (mn, mx)) = (sc lg mn, sc lg mx)) by (unfold sc; destruct lg; auto).
  rewrite E. clear E. cbv zeta. apply wp_ok.
  assert (EA : List.combine x ok = samples_of x ok (zlen x)).
  { unfold samples_of. rewrite firstn_all2; auto. rewrite combine_length. unfold zlen. lia. }
  rewrite EA.
  apply for_inv with (I := fun i c => zlen c = bins /\ forall j, 0 <= j < bins ->
    zn 0 c j = zn 0 counts j + bin_count lg mn mx bins j (samples_of x ok i)).
  - apply zlen_nonneg.
  - split; auto. intros j Hj. unfold samples_of. cbn. unfold bin_count, zlen. cbn. lia.
  - intros i c Hi (HC' & IH). unfold wp. rewrite (get_ok false ok i) by lia. cbn [bind].
    assert (K : forall c', zlen c' = bins -> (forall j, 0 <= j < bins -> zn 0 c' j = zn 0 c j +
        (if zn false ok i && in_binb lg mn mx bins j (zn 0%R x i) then 1 else 0)) ->
      zlen c' = bins /\ forall j, 0 <= j < bins -> zn 0 c' j = zn 0 counts j + bin_count lg mn mx bins j (samples_of x ok (i + 1))).
    { intros c' H1 H2. split; auto. intros j Hj. rewrite H2, IH by auto. rewrite samples_snoc by auto.
      unfold bin_count. rewrite filter_app_len. cbn [fst snd]. lia. }
    destruct (zn false ok i) eqn:EO; cbn [negb andb] in *; [|apply K; [auto|intros; lia]].
    rewrite (get_ok 0%R x i) by lia. cbn [bind].
    set (v := zn 0%R x i) in *.
    assert (DV : dom lg v).
    { intros Hlg. specialize (HD Hlg). rewrite Forall_forall in HD.
      specialize (HD (v, true)). apply HD; auto. cbn [fst snd].
      replace (v, true) with (nth (Z.to_nat i) (List.combine x ok) (0%R, false)).
      - apply nth_In. rewrite combine_length. unfold zlen in *. lia.
      - rewrite combine_nth by (unfold zlen in *; lia). unfold v, zn in *. now rewrite EO. }
    assert (ES : (if lg then log10R v else v) = sc lg v) by (unfold sc; destruct lg; auto).
    rewrite ES. rn. fold (bidx lg mn mx bins v). unfold bidx. set (b := ((sc lg v - sc lg mn) / ((sc lg mx - sc lg mn) / IZR bins))%R).
    assert (EB : b = bidx lg mn mx bins v) by reflexivity.
    pose proof (bidx_range lg mn mx bins HB HM HP v DV) as RG.
    assert (HB' : forall j, in_binb lg mn mx bins j v = true <-> (IZR j <= b < IZR (j + 1))%R).
    { intros j. rewrite in_binb_spec by auto. rewrite EB. now apply in_bin_idx. }
    assert (NB : ~ (0 <= b < IZR bins)%R -> forall j, 0 <= j < bins -> in_binb lg mn mx bins j v = false).
    { intros N j Hj. destruct (in_binb lg mn mx bins j v) eqn:EE; auto. apply HB' in EE. exfalso. apply N.
      assert (0 <= IZR j)%R by (apply IZR_le; lia). assert (IZR (j + 1) <= IZR bins)%R by (apply IZR_le; lia). lra. }
    destruct (Rlt_bool_spec b 0) as [B1|B1]; cbn [orb].
    { apply K; auto. intros j Hj. rewrite NB by (auto; lra). cbn. lia. }
    destruct (Rle_bool_spec (IZR bins) b) as [B2|B2].
    { apply K; auto. intros j Hj. rewrite NB by (auto; lra). cbn. lia. }
    pose proof (trunc_range bins b (conj B1 B2)) as TR.
    rewrite (get_ok 0 c) by lia. cbn [bind]. rewrite set_ok by lia.
    apply K; [now rewrite zlen_upd|]. intros j Hj.
    destruct (Z.eq_dec j (Ztrunc b)) as [ -> |NE].
    + rewrite zn_upd_eq by lia. replace (in_binb lg mn mx bins (Ztrunc b) v) with true; [lia|].
      symmetry. apply HB'. apply trunc_iff; auto.
    + rewrite zn_upd_neq by lia. replace (in_binb lg mn mx bins j v) with false; [lia|].
      symmetry. destruct (in_binb lg mn mx bins j v) eqn:EE; auto. apply HB' in EE. apply trunc_iff in EE; auto. congruence.
Qed.

Lemma centers_ok (info : hist_info R) : info_ok info ->
  exists cs, hist_centers log10R pow10R info = Ok cs /\ zlen cs = hi_bins info /\
    forall j, 0 <= j < hi_bins info ->
      zn 0%R cs j = bin_middle (is_log info) (hi_min info) (hi_max info) (hi_bins info) j.
Proof.
  intros (HB & HM & HP). unfold hist_centers.
  set (lg := is_log info) in *. set (mn := hi_min info) in *. set (mx := hi_max info) in *. set (bins := hi_bins info) in *.
  assert (E : (if lg then (log10R mn, log10R mx) else (mn, mx)) = (sc lg mn, sc lg mx)) by (unfold sc; destruct lg; auto).
  rewrite E. clear E. cbv zeta.
  pose proof (tabulate_wp (fun i => Ok (let c := (sc lg mn + (sc lg mx - sc lg mn) / IZR bins * (IZR i + 1 / 2))%R in if lg then pow10R c else c))
    (fun j c => c = bin_middle lg mn mx bins j) bins ltac:(lia)) as K.
  destruct K as (cs & E1 & E2 & E3).
  - intros j Hj. cbv beta zeta. eexists. split; [reflexivity|]. unfold bin_middle.
    pose proof (sc_edge lg mn mx bins HB HM HP j) as Ea. pose proof (sc_edge lg mn mx bins HB HM HP (j + 1)) as Eb.
    pose proof (edge_dom lg mn mx bins HP j) as Da. pose proof (edge_dom lg mn mx bins HP (j + 1)) as Db.
    set (a := bin_edge lg mn mx bins j) in *. set (b := bin_edge lg mn mx bins (j + 1)) in *.
    set (d := ((sc lg mx - sc lg mn) / IZR bins)%R) in *. rewrite plus_IZR in Eb.
    replace (sc lg mn + d * (IZR j + 1 / 2))%R with ((sc lg a + sc lg b) / 2)%R by (rewrite Ea, Eb; field).
    destruct lg; [|reflexivity]. unfold sc, log10R, pow10R, Rpower.
    specialize (Da eq_refl). specialize (Db eq_refl). pose proof ln10_pos.
    replace ((ln a / ln 10 + ln b / ln 10) / 2 * ln 10)%R with (/ 2 * (ln a + ln b))%R by (field; lra).
    rewrite <- ln_mult by auto. change (exp (/ 2 * ln (a * b))) with (Rpower (a * b) (/ 2)).
    apply Rpower_sqrt. now apply Rmult_lt_0_compat.
  - exists cs. rn. split; [exact E1|]. split; auto.
Qed.

(** The center of a bin lies in its own bin. *)
Lemma middle_in_bin lg mn mx bins j : 0 < bins -> (mn < mx)%R -> (lg = true -> (0 < mn)%R) ->
  in_bin lg mn mx bins j (bin_middle lg mn mx bins j).
Proof.
  intros HB HM HP. unfold in_bin, bin_middle.
  assert (L : (bin_edge lg mn mx bins j < bin_edge lg mn mx bins (j + 1))%R).
  { apply (sc_lt_inv lg mn); auto; [now apply edge_dom|]. rewrite !sc_edge by auto. pose proof (dx_pos lg mn mx bins HB HM HP) as P.
    rewrite plus_IZR. nra. }
  pose proof (edge_dom lg mn mx bins HP j) as Da.
  set (a := bin_edge lg mn mx bins j) in *. set (b := bin_edge lg mn mx bins (j + 1)) in *. clearbody a b.
  destruct lg; cbv iota zeta; [|lra]. specialize (Da eq_refl). split.
  - rewrite <- (sqrt_square a) at 1 by lra. apply sqrt_le_1; nra.
  - apply Rlt_le_trans with (sqrt (b * b)); [apply sqrt_lt_1; nra|rewrite sqrt_square; lra].
Qed.

(** ** Cubes *)
Lemma each_flat_map {A B S} (f : A -> list B) (body : B -> S -> res S) l : forall s,
  each (flat_map f l) body s = each l (fun a s => each (f a) body s) s.
Proof.
  induction l as [|a l IH]; intros s; cbn [flat_map each]; auto.
  assert (K : forall l1 l2 s, each (l1 ++ l2) body s = bind (each l1 body s) (each l2 body)).
  { induction l1 as [|b l1 IH1]; intros l2 s'; cbn [app each bind]; auto. destruct (body b s'); cbn [bind]; auto. }
  rewrite K. destruct (each (f a) body s); cbn [bind]; auto.
Qed.

Lemma each_filter {A S} (p : A -> bool) (body : A -> S -> res S) l : forall s,
  each l (fun a s => if p a then body a s else Ok s) s = each (filter p l) body s.
Proof.
  induction l as [|a l IH]; intros s; cbn [each filter]; auto.
  destruct (p a); cbn [each bind]; auto. destruct (body a s); cbn [bind]; auto.
Qed.

Lemma stride_each {S} (body : Z -> S -> res S) hi step s : 0 < step -> 0 <= hi ->
  stride 0 hi step body s = each (map (fun t => t * step) (zseq (rounds 0 hi step))) body s.
Proof.
  intros H Hh. rewrite stride_for by auto. rewrite <- for_each; [reflexivity|].
  now apply rounds_nonneg.
Qed.

Definition cube_worker (gw m : Z) (worker : Z) (c : cell) : bool := lattice_index gw c mod m =? worker.
Definition cube_list (n gw skip workers worker : Z) : list cell :=
  filter (cube_worker gw (skip * skip * skip * workers) worker) (base_cells n skip).

Lemma base_cells_nonneg n skip x y z : 0 <= skip -> In (x, y, z) (base_cells n skip) -> 0 <= x /\ 0 <= y /\ 0 <= z.
Proof.
  intros Hs. unfold base_cells. rewrite in_flat_map. intros (z' & Hz & H). rewrite in_flat_map in H. destruct H as (y' & Hy & H).
  rewrite in_map_iff in H. destruct H as (x' & E & Hx). injection E as <- <- <-. apply in_zseq in Hx, Hy, Hz. nia.
Qed.

Lemma cube_loop_list {S} seg gw skip workers worker (visit : Z -> S -> res S) s :
  0 <= seg -> 0 < gw -> 0 < skip -> 0 < workers ->
  cube_loop seg gw skip workers worker visit s =
  each (cube_list (rounds 0 seg skip) gw skip workers worker) (fun c => visit (lattice_index gw c)) s.
Proof.
  intros Hseg Hgw Hs Hw. unfold cube_list. rewrite <- each_filter. unfold base_cells.
  rewrite each_flat_map. unfold cube_loop. rewrite stride_each by auto. rewrite each_map.
  apply each_ext. intros z s1 Hz. rewrite each_flat_map, stride_each, each_map by auto.
  apply each_ext. intros y s2 Hy. rewrite stride_each, !each_map by auto.
  apply each_ext. intros x s3 Hx. apply in_zseq in Hx, Hy, Hz.
  unfold cube_worker, lattice_index, rem.
  assert (Hm : 0 < skip * skip * skip * workers) by (repeat apply Z.mul_pos_pos; auto).
  replace (skip * skip * skip * workers =? 0) with false by lia. cbn [bind].
  replace (x * skip + gw * (y * skip + gw * (z * skip))) with (x * skip + y * skip * gw + z * skip * gw * gw) by ring.
  rewrite Z.rem_mod_nonneg; [|repeat apply Z.add_nonneg_nonneg; repeat apply Z.mul_nonneg_nonneg; lia|auto].
  destruct (_ mod _ =? worker); reflexivity.
Qed.

Lemma base_cells_nodup n skip : 0 < skip -> NoDup (base_cells n skip).
Proof.
  intros Hs. unfold base_cells. apply NoDup_flat_map with (key := fun '(x, y, z) => z / skip); [apply NoDup_zseq| |].
  - intros z _. apply NoDup_flat_map with (key := fun '(x, y, z) => y / skip); [apply NoDup_zseq| |].
    + intros y _. apply NoDup_map_key with (key := fun '(x, y, z) => x / skip); [apply NoDup_zseq|].
      intros x _. now rewrite Z.div_mul by lia.
    + intros y b _ Hb. rewrite in_map_iff in Hb. destruct Hb as (x & <- & _). now rewrite Z.div_mul by lia.
  - intros z b _ Hb. rewrite in_flat_map in Hb. destruct Hb as (y & _ & Hb).
    rewrite in_map_iff in Hb. destruct Hb as (x & <- & _). now rewrite Z.div_mul by lia.
Qed.

Lemma in_base_cells n skip x y z : 0 <= x < n -> 0 <= y < n -> 0 <= z < n -> In (x * skip, y * skip, z * skip) (base_cells n skip).
Proof.
  intros Hx Hy Hz. unfold base_cells. rewrite in_flat_map. exists z. rewrite in_zseq. split; auto.
  rewrite in_flat_map. exists y. rewrite in_zseq. split; auto. apply in_map_iff. exists x. rewrite in_zseq. auto.
Qed.

Lemma cube_lists_nodup n gw skip workers : 0 < skip -> NoDup (flat_map (cube_list n gw skip workers) (zseq workers)).
Proof.
  intros Hs. apply NoDup_flat_map with (key := fun c => lattice_index gw c mod (skip * skip * skip * workers)); [apply NoDup_zseq| |].
  - intros w _. apply NoDup_filter. now apply base_cells_nodup.
  - intros w c _ Hc. apply filter_In in Hc. destruct Hc as [_ Hc]. unfold cube_worker in Hc. lia.
Qed.

Lemma cube_lists_incl n gw skip workers : incl (flat_map (cube_list n gw skip workers) (zseq workers)) (base_cells n skip).
Proof. intros c. rewrite in_flat_map. intros (w & _ & Hc). now apply filter_In in Hc. Qed.

Lemma cube_lists_all n gw workers : 0 < workers ->
  Permutation (flat_map (cube_list n gw 1 workers) (zseq workers)) (base_cells n 1).
Proof.
  intros Hw. apply NoDup_Permutation; [now apply cube_lists_nodup|now apply base_cells_nodup|].
  intros c. split; [apply cube_lists_incl|]. intros Hc. rewrite in_flat_map.
  exists (lattice_index gw c mod workers). rewrite in_zseq. split; [now apply Z.mod_pos_bound|].
  apply filter_In. split; auto. unfold cube_worker. replace (1 * 1 * 1 * workers) with workers by lia. apply Z.eqb_refl.
Qed.

Lemma rounds_ceil seg skip : 0 < skip -> 0 <= seg -> rounds 0 seg skip = (seg + skip - 1) / skip.
Proof.
  intros Hs Hg. unfold rounds. destruct (Z.leb_spec seg 0).
  - replace seg with 0 by lia. rewrite Z.div_small by lia. reflexivity.
  - replace (seg + skip - 1) with (seg - 0 - 1 + 1 * skip) by lia. rewrite Z.div_add by lia. lia.
Qed.

Lemma hist_split_1 seg gw workers : 0 <= seg -> 0 < gw -> 1 <= workers ->
  exists work : Z -> list cell,
    Permutation (flat_map work (zseq workers)) (base_cells seg 1) /\
    forall (S : Type) worker (visit : Z -> S -> res S) s,
      cube_loop seg gw 1 workers worker visit s = each (work worker) (fun c => visit (lattice_index gw c)) s.
Proof.
  intros Hs Hg Hw. exists (cube_list seg gw 1 workers). split; [apply cube_lists_all; lia|].
  intros S worker visit s. rewrite cube_loop_list by lia. rewrite rounds_ceil by lia.
  now replace ((seg + 1 - 1) / 1) with seg by (rewrite Z.div_1_r; lia).
Qed.

Lemma hist_split_any seg gw skip workers : 0 <= seg -> 0 < gw -> 0 < skip -> 1 <= workers ->
  exists work : Z -> list cell,
    NoDup (flat_map work (zseq workers)) /\
    (forall c, In c (flat_map work (zseq workers)) -> In c (base_cells ((seg + skip - 1) / skip) skip)) /\
    forall (S : Type) worker (visit : Z -> S -> res S) s,
      cube_loop seg gw skip workers worker visit s = each (work worker) (fun c => visit (lattice_index gw c)) s.
Proof.
  intros Hg Hgw Hs Hw. exists (cube_list ((seg + skip - 1) / skip) gw skip workers). split; [now apply cube_lists_nodup|].
  split; [apply cube_lists_incl|].
  intros S worker visit s. rewrite cube_loop_list by lia. now rewrite rounds_ceil by lia.
Qed.

Lemma each_log {A} (f : A -> Z) l : forall acc, each l (fun c s => Ok (s ++ [f c])) acc = Ok (acc ++ map f l).
Proof.
  induction l as [|a l IH]; intros acc; cbn [each map bind]; [now rewrite app_nil_r|].
  rewrite IH, <- app_assoc. reflexivity.
Qed.

Lemma hist_missed skip workers : 2 <= skip -> 1 <= workers ->
  exists seg c, 0 < seg /\ seg mod skip = 0 /\ In c (base_cells (seg / skip) skip) /\
    forall worker, 0 <= worker < workers ->
      exists visited, cube_loop seg (seg + 1) skip workers worker (fun idx l => Ok (l ++ [idx])) [] = Ok visited /\
        ~ In (lattice_index (seg + 1) c) visited.
Proof.
  intros Hs Hw. set (q := (workers + skip - 1) / skip).
  assert (Q1 : workers <= q * skip).
  { unfold q. pose proof (Z.mul_succ_div_gt (workers + skip - 1) skip ltac:(lia)). lia. }
  assert (Q2 : q * skip <= workers + skip - 1).
  { unfold q. pose proof (Z.mul_div_le (workers + skip - 1) skip ltac:(lia)). lia. }
  assert (Q3 : 1 <= q) by nia. clearbody q.
  assert (M : workers + skip <= skip * skip * skip * workers).
  { clear Q1 Q2 Q3. assert (4 <= skip * skip) by nia. assert (4 * skip <= skip * skip * skip) by nia.
    assert (4 * skip * workers <= skip * skip * skip * workers) by (apply Z.mul_le_mono_nonneg_r; lia).
    assert (skip <= skip * workers) by nia. assert (workers <= skip * workers) by nia. lia. }
  exists ((q + 1) * skip), (q * skip, 0 * skip, 0 * skip).
  split; [nia|]. split; [now apply Z.mod_mul; lia|]. rewrite Z.div_mul by lia.
  split; [apply in_base_cells; lia|]. intros worker Hk.
  set (seg := (q + 1) * skip). assert (Hseg : 0 <= seg) by (unfold seg; nia).
  rewrite cube_loop_list by lia. rewrite each_log. cbn [app]. eexists. split; [reflexivity|].
  rewrite in_map_iff. intros (c & E & Hc). apply filter_In in Hc. destruct Hc as [_ Hc]. unfold cube_worker in Hc.
  rewrite E in Hc. revert Hc. unfold lattice_index. replace (q * skip + (seg + 1) * (0 * skip + (seg + 1) * (0 * skip))) with (q * skip) by ring.
  rewrite Z.mod_small by lia. lia.
Qed.
