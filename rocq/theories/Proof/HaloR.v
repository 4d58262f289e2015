(** Halo grids and the subhalo finder with exact arithmetic. *)
From Coq Require Import ZArith List Bool Lia ZifyBool ZifyNat Sorted Permutation Reals Lra.
From Flocq Require Import Core.Raux.
From Verif Require Import Base.Res Base.ResFacts Base.Num Model.Halo Spec.Geometry Spec.Halos Spec.Work.
From Verif Require Import Proof.WorkP Proof.HaloP Proof.HaloX Proof.HaloF.
Import ListNotations.
Open Scope R_scope.

Ltac rn := cbn [nadd nsub nmul ndiv nopp nabs nltb nleb neqb nofZ ntrunc nfloor RNum] in *.

Section Axis.
Variables (W : R) (c : Z).
Hypothesis HW : 0 < W.
Hypothesis Hc : (1 <= c)%Z.
Let cw := W / IZR c.

Lemma c_pos : 1 <= IZR c.
Proof. now apply IZR_le. Qed.
Lemma cw_pos : 0 < cw.
Proof. pose proof c_pos. unfold cw. apply Rdiv_lt_0_compat; lra. Qed.
Lemma cw_mul : cw * IZR c = W.
Proof. pose proof c_pos. unfold cw. field. lra. Qed.
Lemma W_cw : W / cw = IZR c.
Proof. pose proof cw_pos. rewrite <- cw_mul. field. lra. Qed.
Lemma div_le a b : a <= b -> a / cw <= b / cw.
Proof. intros H. pose proof cw_pos. apply Rmult_le_compat_r; auto. apply Rlt_le, Rinv_0_lt_compat; auto. Qed.
Lemma div_lt a b : a < b -> a / cw < b / cw.
Proof. intros H. pose proof cw_pos. apply Rmult_lt_compat_r; auto. now apply Rinv_0_lt_compat. Qed.
Lemma div_nonneg a : 0 <= a -> 0 <= a / cw.
Proof. intros H. pose proof (div_le 0 a H) as K. unfold Rdiv in K at 1. rewrite Rmult_0_l in K. exact K. Qed.
Lemma mul_div a : cw * (a / cw) = a.
Proof. pose proof cw_pos. field. lra. Qed.

Definition cl (x : R) : Z := Zfloor (x / cw).

Lemma trunc_cl x : 0 <= x -> Ztrunc (x / cw) = cl x.
Proof. intros H. apply Ztrunc_floor. now apply div_nonneg. Qed.
Lemma cl_range x : 0 <= x < W -> (0 <= cl x < c)%Z.
Proof.
  intros [A B]. unfold cl. split.
  - apply Zfloor_lub. now apply div_nonneg.
  - apply lt_IZR. eapply Rle_lt_trans; [apply Zfloor_lb|]. rewrite <- W_cw. now apply div_lt.
Qed.
Lemma cl_mono a b : a <= b -> (cl a <= cl b)%Z.
Proof. intros H. apply Zfloor_le. now apply div_le. Qed.
Lemma cl_shift x m : cl (x + IZR m * W) = (cl x + m * c)%Z.
Proof.
  unfold cl. replace ((x + IZR m * W) / cw) with (x / cw + IZR (m * c)).
  - apply Zfloor_imp. rewrite !plus_IZR. pose proof (Zfloor_lb (x / cw)). pose proof (Zfloor_ub (x / cw)). lra.
  - pose proof cw_pos. rewrite mult_IZR, <- W_cw. field. lra.
Qed.
Lemma cl_iff x k : cl x = k <-> cw * IZR k <= x < cw * IZR (k + 1).
Proof.
  pose proof cw_pos as P. split.
  - intros <-. unfold cl. pose proof (Zfloor_lb (x / cw)) as A. pose proof (Zfloor_ub (x / cw)) as B. rewrite plus_IZR.
    apply (Rmult_le_compat_l cw) in A; [|lra]. apply (Rmult_lt_compat_l cw) in B; [|lra]. rewrite mul_div in *. lra.
  - intros [A B]. unfold cl. apply Zfloor_imp. rewrite <- (mul_div x) in A, B. split.
    + now apply Rmult_le_reg_l in A.
    + now apply Rmult_lt_reg_l in B.
Qed.

Lemma in_cell_iff k x : in_cell1 W c k x <-> exists m, (cl x + m * c = k)%Z.
Proof. unfold in_cell1. fold cw. split; intros [m H]; exists m; [rewrite <- cl_shift; now apply cl_iff|rewrite <- cl_shift in H; now apply cl_iff in H]. Qed.

Lemma in_cell_unique k k' x : (0 <= k < c)%Z -> (0 <= k' < c)%Z -> in_cell1 W c k x -> in_cell1 W c k' x -> k = k'.
Proof. rewrite !in_cell_iff. intros A B [m E] [m' E']. assert (m = m')%Z by nia. subst m'. lia. Qed.

Lemma wrap_cell x : - W <= x < 2 * W -> x <> W ->
  (0 <= Ztrunc (insert_wrap W x / cw)%num < c)%Z /\ in_cell1 W c (Ztrunc (insert_wrap W x / cw)%num) x.
Proof.
  intros H N. assert (K : exists m : Z, 0 <= x + IZR m * W < W /\ insert_wrap W x = x + IZR m * W).
  { unfold insert_wrap; rn. destruct (Rlt_bool_spec W x); [exists (-1)%Z; lra|]. destruct (Rlt_bool_spec x 0); [exists 1%Z; lra|]. exists 0%Z. lra. }
  destruct K as (m & Hm & ->). rn. rewrite trunc_cl by lra. split; [now apply cl_range|].
  apply in_cell_iff. exists m. now rewrite cl_shift.
Qed.

(** The cells searched along one axis. *)
Lemma axis_ok p r : 0 <= p < W -> 0 <= r -> reach_ok W c r p ->
  let b := sphere_bounds1 p r cw W in
  NoDup (axis c (fst b) (snd b)) /\ (forall k, In k (axis c (fst b) (snd b)) -> (0 <= k < c)%Z) /\
  (forall q m, 0 <= q < W -> Rabs (q + IZR m * W - p) <= r -> In (cl q) (axis c (fst b) (snd b))).
Proof.
  intros Hp Hr HR. pose proof cw_pos as P.
  assert (K : exists s : Z, (s = 0 \/ s = 1)%Z /\ 0 <= p - r + IZR s * W < W /\
     sphere_bounds1 p r cw W = (cl (p - r + IZR s * W), cl (p + r + IZR s * W) - cl (p - r + IZR s * W) + 1)%Z).
  { unfold sphere_bounds1; rn. destruct HR as [[A B]|B].
    - rewrite Rlt_bool_false by lra. rewrite Rlt_bool_false by lra. exists 0%Z. split; auto. split; [lra|].
      rewrite !trunc_cl by lra. now rewrite Rmult_0_l, !Rplus_0_r.
    - fold cw in B. destruct (Rlt_bool_spec (p - r) 0).
      + rewrite Rlt_bool_true by lra. exists 1%Z. split; auto. split; [lra|]. rewrite !trunc_cl by lra. now rewrite Rmult_1_l.
      + rewrite Rlt_bool_false by lra. exists 0%Z. split; auto. split; [lra|].
        rewrite !trunc_cl by lra. now rewrite Rmult_0_l, !Rplus_0_r. }
  destruct K as (s & Hs & Ha & E). cbv zeta. rewrite E. cbn [fst snd].
  set (o := cl (p - r + IZR s * W)) in *. set (m := cl (p + r + IZR s * W)) in *.
  assert (Ho : (0 <= o < c)%Z) by now apply cl_range.
  assert (Hm : (m <= o + c - 1)%Z).
  { destruct HR as [[A B]|B].
    - assert (m < c)%Z; [|lia]. assert (S0 : s = 0%Z). { destruct Hs as [|Hs]; auto. rewrite Hs, Rmult_1_l in Ha. lra. }
      unfold m. rewrite S0, Rmult_0_l, Rplus_0_r. apply cl_range. lra.
    - fold cw in B. pose proof cw_mul as CM. unfold m, o. apply Z.le_trans with (cl (p - r + IZR s * W + IZR (c - 1) * cw)).
      + apply cl_mono. rewrite minus_IZR. rewrite Rmult_minus_distr_r, (Rmult_comm (IZR c)). lra.
      + assert (E2 : cl (p - r + IZR s * W + IZR (c - 1) * cw) = (cl (p - r + IZR s * W) + (c - 1))%Z); [|lia].
        unfold cl. replace ((p - r + IZR s * W + IZR (c - 1) * cw) / cw) with ((p - r + IZR s * W) / cw + IZR (c - 1)) by (field; lra).
        apply Zfloor_imp. rewrite !plus_IZR. pose proof (Zfloor_lb ((p - r + IZR s * W) / cw)). pose proof (Zfloor_ub ((p - r + IZR s * W) / cw)). lra. }
  assert (Hin : forall d, In d (zseq (m - o + 1)) -> (0 <= d <= m - o)%Z) by (intros d Hd; apply in_zseq in Hd; lia).
  split; [|split].
  - unfold axis. apply NoDup_map_key with (key := fun k => (if k <? o then k + c - o else k - o)%Z); [apply NoDup_zseq|].
    intros d Hd. specialize (Hin d Hd). cbv zeta. destruct (Z.geb_spec (o + d) c).
    + replace (o + d - c <? o)%Z with true by lia. lia.
    + replace (o + d <? o)%Z with false by lia. lia.
  - intros k Hk. unfold axis in Hk. apply in_map_iff in Hk. destruct Hk as (d & <- & Hd). specialize (Hin d Hd). cbv zeta.
    destruct (Z.geb_spec (o + d) c); lia.
  - intros q mm Hq Hd. apply Rabs_le_inv in Hd. unfold axis. apply in_map_iff.
    assert (C1 : (o <= cl (q + IZR (mm + s) * W))%Z) by (apply cl_mono; rewrite plus_IZR; lra).
    assert (C2 : (cl (q + IZR (mm + s) * W) <= m)%Z) by (apply cl_mono; rewrite plus_IZR; lra).
    rewrite cl_shift in C1, C2. pose proof (cl_range q Hq) as C3.
    assert (mm + s = 0 \/ mm + s = 1)%Z as [Q|Q] by nia; rewrite Q in *.
    + exists (cl q - o)%Z. split; [|apply in_zseq; lia]. cbv zeta. replace (o + (cl q - o) >=? c)%Z with false by lia. lia.
    + exists (cl q + c - o)%Z. split; [|apply in_zseq; lia]. cbv zeta. replace (o + (cl q + c - o) >=? c)%Z with true by lia. lia.
Qed.
End Axis.

(** ** Running maximum from the end *)
Lemma cumulative_max_ok (l : list R) : (1 <= zlen l)%Z -> exists ms, cumulative_max l = Ok ms /\ zlen ms = zlen l /\
  forall i, (0 <= i < zlen l)%Z -> (exists j, (i <= j < zlen l)%Z /\ zn 0 ms i = zn 0 l j) /\ forall j, (i <= j < zlen l)%Z -> zn 0 l j <= zn 0 ms i.
Proof.
  intros Hl. unfold cumulative_max. rewrite (get_ok 0) by lia. cbn [bind].
  set (n := zlen l) in *.
  match goal with |- context [for_down ?h 0 ?b ?s] => assert (K : wp (for_down h 0 b s) (fun r => zlen (fst r) = n /\
    forall i, (0 <= i < n)%Z -> (exists j, (i <= j < n)%Z /\ zn 0 (fst r) i = zn 0 l j) /\ forall j, (i <= j < n)%Z -> zn 0 l j <= zn 0 (fst r) i)) end.
  { eapply wp_mono; [apply (for_down_inv (fun t r => zlen (fst r) = n /\
      (exists j, (Z.min (t + 1) (n - 1) <= j < n)%Z /\ snd r = zn 0 l j) /\ (forall j, (Z.min (t + 1) (n - 1) <= j < n)%Z -> zn 0 l j <= snd r) /\
      forall i, (t < i < n)%Z -> (exists j, (i <= j < n)%Z /\ zn 0 (fst r) i = zn 0 l j) /\ forall j, (i <= j < n)%Z -> zn 0 l j <= zn 0 (fst r) i))|].
    - lia.
    - cbn [fst snd]. split; [rewrite zlen_repeat; reflexivity|]. split; [exists (n - 1)%Z; split; [lia|auto]|].
      split; [|intros; lia]. intros j Hj. replace j with (n - 1)%Z by lia. lra.
    - intros t [ms mx] Ht (A & (j0 & B1 & B2) & C & E). cbn [fst snd] in *. rewrite (get_ok 0) by lia. cbn [bind]. rewrite set_ok by lia. cbn [bind wp fst snd]. rn.
      set (v := if Rlt_bool mx (zn 0 l t) then zn 0 l t else mx).
      assert (V1 : zn 0 l t <= v /\ mx <= v) by (unfold v; destruct (Rlt_bool_spec mx (zn 0 l t)); lra).
      assert (V2 : exists j, (t <= j < n)%Z /\ v = zn 0 l j).
      { unfold v; destruct (Rlt_bool_spec mx (zn 0 l t)); [exists t; split; [lia|auto]|exists j0; split; [lia|auto]]. }
      assert (V3 : forall j, (t <= j < n)%Z -> zn 0 l j <= v).
      { intros j Hj. destruct (Z.eq_dec j t) as [->|]; [lra|]. apply Rle_trans with mx; [apply C; lia|lra]. }
      split; [now rewrite zlen_upd|]. split.
      + destruct V2 as (j & J1 & J2). exists j. split; [lia|auto].
      + split; [intros j Hj; destruct (Z_lt_ge_dec j t); [replace j with t by lia; lra|apply V3; lia]|]. intros i Hi. rewrite zn_upd by lia. destruct (Z.eqb_spec i t) as [->|]; auto. apply E. lia.
    - cbn. intros [ms mx] (A & _ & _ & E). split; auto. intros i Hi. apply E. lia. }
  apply (proj1 (wp_ok _ _)) in K. destruct K as ([ms mx] & K & A & B). exists ms. split; auto.
  etransitivity; [apply (f_equal (fun r => bind r _)); exact K|]. reflexivity.
Qed.
