(** The theorems about halo grids and the subhalo finder. *)
From Coq Require Import ZArith List Bool Lia ZifyBool ZifyNat Sorted Permutation Reals Lra Psatz.
From Flocq Require Import Core.Raux.
From Verif Require Import Base.Res Base.ResFacts Base.Num Base.IEEE Model.Halo Spec.Geometry Spec.Halos Spec.Work.
From Verif Require Import Proof.WorkP Proof.HaloP Proof.HaloX Proof.HaloF Proof.HaloR.
Import ListNotations.
Open Scope R_scope.

(** ** Insertion *)
Section Grid.
Variables (W : R) (c n : Z) (xs ys zs : list R).
Hypothesis HW : 0 < W.
Hypothesis Hc : (1 <= c)%Z.
Hypothesis Hx : zlen xs = n.
Hypothesis Hy : zlen ys = n.
Hypothesis Hz : zlen zs = n.
Let pos (i : Z) : point := (zn 0 xs i, zn 0 ys i, zn 0 zs i).
Definition insertable (x : R) : Prop := - W <= x < 2 * W /\ x <> W.
Hypothesis HI : forall i, (0 <= i < n)%Z -> insertable (zn 0 xs i) /\ insertable (zn 0 ys i) /\ insertable (zn 0 zs i).

Let g0 : hgrid R := HGr c (W / IZR c) W (repeat tail (Z.to_nat (c * c * c))) (repeat 0%Z (Z.to_nat n)).

Lemma n_nonneg : (0 <= n)%Z.
Proof. rewrite <- Hx. apply zlen_nonneg. Qed.
Lemma new_grid_ok : new_grid c W n = Ok g0.
Proof. unfold new_grid; rn. pose proof n_nonneg. replace (c * c * c <? 0)%Z with false by nia. replace (n <? 0)%Z with false by lia. reflexivity. Qed.
Lemma g0_heads : zlen (gr_heads g0) = (c * c * c)%Z.
Proof. cbn [g0 gr_heads]. rewrite zlen_repeat. nia. Qed.
Lemma g0_next : zlen (gr_next g0) = n.
Proof. cbn [g0 gr_next]. rewrite zlen_repeat. pose proof n_nonneg. lia. Qed.

Definition icl (x : R) : Z := Ztrunc (insert_wrap W x / (W / IZR c))%num.
Lemma icl_ok x : insertable x -> (0 <= icl x < c)%Z /\ forall k, (0 <= k < c)%Z -> (in_cell1 W c k x <-> icl x = k).
Proof.
  intros [A B]. pose proof (wrap_cell W c HW Hc x A B) as [R1 R2]. fold (icl x) in *. split; auto. intros k Hk. split.
  - intros H. eapply (in_cell_unique W c HW Hc); eauto.
  - now intros <-.
Qed.
Lemma icell_eq i : icell 0 g0 xs ys zs i = (icl (zn 0%R xs i) + icl (zn 0%R ys i) * c + icl (zn 0%R zs i) * c * c)%Z.
Proof. reflexivity. Qed.

Lemma icell_in i kx ky kz : (0 <= i < n)%Z -> (0 <= kx < c)%Z -> (0 <= ky < c)%Z -> (0 <= kz < c)%Z ->
  (icell 0%R g0 xs ys zs i = kx + ky * c + kz * c * c)%Z <-> in_cell3 W c (kx, ky, kz) (pos i).
Proof.
  intros Hi Kx Ky Kz. destruct (HI i Hi) as (A & B & C). destruct (icl_ok _ A) as [A1 A2]. destruct (icl_ok _ B) as [B1 B2]. destruct (icl_ok _ C) as [C1 C2].
  rewrite icell_eq. cbn [in_cell3 pos]. rewrite A2, B2, C2 by auto. split.
  - intros E. pose proof (digits c _ _ _ A1 B1 C1) as (D1 & D2 & D3). pose proof (digits c _ _ _ Kx Ky Kz) as (E1 & E2 & E3).
    replace (icl (zn 0%R zs i) * c * c + icl (zn 0%R ys i) * c + icl (zn 0%R xs i))%Z with (kz * c * c + ky * c + kx)%Z in * by lia.
    repeat split; congruence.
  - intros (-> & -> & ->). reflexivity.
Qed.

Lemma icell_range i : (0 <= i < n)%Z -> (0 <= icell 0%R g0 xs ys zs i < c * c * c)%Z.
Proof.
  intros Hi. destruct (HI i Hi) as (A & B & C). apply icl_ok in A, B, C. rewrite icell_eq. nia.
Qed.

Lemma inserted : exists g, insert g0 xs ys zs = Ok g /\ same_shape g0 g /\ holds g (icell 0 g0 xs ys zs) n.
Proof.
  rewrite <- Hx. apply insert_holds; try lia.
  - rewrite g0_next. lia.
  - intros k Hk. cbn [g0 gr_heads] in *. rewrite zlen_repeat in Hk. rewrite zn_repeat by lia. reflexivity.
  - intros i Hi. rewrite g0_heads. apply icell_range. lia.
Qed.

Lemma cell_exists i : (0 <= i < n)%Z -> exists! k : cell, in_box k (0, 0, 0)%Z (c, c, c) /\ in_cell3 W c k (pos i).
Proof.
  intros Hi. destruct (HI i Hi) as (A & B & C). destruct (icl_ok _ A) as [A1 A2]. destruct (icl_ok _ B) as [B1 B2]. destruct (icl_ok _ C) as [C1 C2].
  exists (icl (zn 0 xs i), icl (zn 0 ys i), icl (zn 0 zs i)). unfold pos. cbn [in_box in_cell3]. unfold in_range. split.
  - split; [cbn; unfold in_range; lia|]. cbn [in_cell3]. rewrite A2, B2, C2 by lia. auto.
  - intros [[kx ky] kz] [Hb (D1 & D2 & D3)]. cbn [in_box] in Hb. unfold in_range in Hb. destruct Hb as (K1 & K2 & K3).
    apply A2 in D1; [|lia]. apply B2 in D2; [|lia]. apply C2 in D3; [|lia]. congruence.
Qed.

Theorem grid_lists : exists g0 g, new_grid c W n = Ok g0 /\ insert g0 xs ys zs = Ok g /\ total_cells g = (c * c * c)%Z /\
  (forall kx ky kz, in_box (kx, ky, kz) (0, 0, 0)%Z (c, c, c) -> exists l, descending l /\
     (forall i, In i l <-> (0 <= i < n)%Z /\ in_cell3 W c (kx, ky, kz) (pos i)) /\
     grid_length g (kx + ky * c + kz * c * c) = Ok (zlen l) /\
     (forall buf, (zlen l <= zlen buf)%Z -> exists buf', read_indexes g (kx + ky * c + kz * c * c) buf = Ok (buf', zlen l) /\
        zlen buf' = zlen buf /\ firstn (length l) buf' = l)) /\
  (exists m, max_length g = Ok m /\ (forall k, (0 <= k < c * c * c)%Z -> exists l, grid_length g k = Ok l /\ (l <= m)%Z) /\
     exists k, (0 <= k < c * c * c)%Z /\ grid_length g k = Ok m) /\
  average_length g = Ok (n / (c * c * c))%Z.
Proof.
  destruct inserted as (g & E & S & H). exists g0, g. split; [apply new_grid_ok|]. split; auto.
  pose proof S as S'. destruct S' as (_ & _ & _ & Lh & Ln). rewrite g0_heads in Lh. rewrite g0_next in Ln. pose proof n_nonneg.
  split; [exact Lh|]. split; [|split].
  - intros kx ky kz Hb. cbn in Hb. unfold in_range in Hb.
    assert (Hk : (0 <= kx + ky * c + kz * c * c < zlen (gr_heads g))%Z) by (rewrite Lh; nia).
    exists (members (fun i => icell 0%R g0 xs ys zs i =? kx + ky * c + kz * c * c)%Z n). split; [apply members_desc|]. split; [|split].
    + intros i. rewrite in_members, Z.eqb_eq. split; intros [A B]; (split; [auto|]); revert B; apply (icell_in i kx ky kz); lia.
    + apply holds_length; auto. lia.
    + intros buf Hbuf. destruct (holds_read g _ n _ buf ltac:(lia) H Hk Hbuf) as (b' & B1 & B2 & B3). exists b'. split; auto. split; auto.
      unfold zlen in B3. now rewrite Nat2Z.id in B3.
  - destruct (holds_max g _ n ltac:(lia) H) as (m & M1 & M2 & M3 & M4). exists m. split; auto. rewrite <- Lh. split.
    + intros k Hk. eexists. split; [apply holds_length; eauto; lia|]. now apply M3.
    + destruct M4 as [->|(k & Hk & ->)].
      * exists 0%Z. assert (K0 : (0 <= 0 < zlen (gr_heads g))%Z) by (rewrite Lh; nia). split; auto. rewrite (holds_length g (icell 0 g0 xs ys zs) n 0%Z ltac:(lia) H K0).
        f_equal. specialize (M3 0%Z K0). match goal with |- zlen ?l = _ => pose proof (zlen_nonneg l) end. lia.
      * exists k. split; auto. apply holds_length; auto. lia.
  - unfold average_length, total_cells, quot. rewrite Lh, Ln. replace (c * c * c =? 0)%Z with false by nia. f_equal. apply Z.quot_div_nonneg; nia.
Qed.
End Grid.

(** ** The finder *)
Lemma meet_iff (p q : point) (a b : R) : 0 <= a -> 0 <= b ->
  (spheres_meet p q a b <-> pdot (psub p q) (psub p q) <= (a + b) * (a + b)).
Proof.
  intros Ha Hb. unfold spheres_meet, pdist. set (d := pdot _ _).
  assert (D : 0 <= d). { unfold d. destruct (psub p q) as [[u v] w]. cbn. nra. }
  split; intros H.
  - pose proof (sqrt_pos d). rewrite <- (sqrt_sqrt d) by auto. apply Rmult_le_compat; auto.
  - rewrite <- (sqrt_square (a + b)) by lra. now apply sqrt_le_1_alt.
Qed.

Lemma meet_axis p q a b : 0 <= a -> 0 <= b -> spheres_meet p q a b ->
  let '(px, py, pz) := p in let '(qx, qy, qz) := q in
  Rabs (qx - px) <= a + b /\ Rabs (qy - py) <= a + b /\ Rabs (qz - pz) <= a + b.
Proof.
  intros Ha Hb H. apply meet_iff in H; auto. destruct p as [[px py] pz], q as [[qx qy] qz]. cbn in H.
  assert (K : forall u, u * u <= (a + b) * (a + b) -> Rabs u <= a + b).
  { intros u Hu. apply Rsqr_incr_0; [|apply Rabs_pos|lra]. rewrite <- Rsqr_abs. exact Hu. }
  pose proof (Rle_0_sqr (px - qx)) as S1. pose proof (Rle_0_sqr (py - qy)) as S2. pose proof (Rle_0_sqr (pz - qz)) as S3. unfold Rsqr in *.
  repeat split; apply K; lra.
Qed.

Section Find.
Variables (W mult : R) (c n : Z) (xs ys zs rs : list R).
Hypothesis HW : 0 < W.
Hypothesis Hm : 0 < mult.
Hypothesis Hc : (1 <= c)%Z.
Hypothesis Hn : (1 <= n)%Z.
Hypothesis Hx : zlen xs = n.
Hypothesis Hy : zlen ys = n.
Hypothesis Hz : zlen zs = n.
Hypothesis Hr : zlen rs = n.
Let pos (i : Z) : point := (zn 0 xs i, zn 0 ys i, zn 0 zs i).
Let rad (i : Z) : R := zn 0 rs i.
Hypothesis HC : forall i, (0 <= i < n)%Z -> in_cube W (pos i) /\ 0 <= rad i.
Hypothesis HR : forall i j, (0 <= i <= j)%Z -> (j < n)%Z -> reach_ok3 W c (mult * (rad i + rad j)) (pos i).

Let g0 : hgrid R := HGr c (W / IZR c) W (repeat tail (Z.to_nat (c * c * c))) (repeat 0%Z (Z.to_nat n)).
Let rm := map (fun r => r * mult) rs.

Lemma rm_at i : (0 <= i < n)%Z -> zn 0 rm i = mult * rad i.
Proof. intros Hi. unfold rm. rewrite (zn_map _ 0 0) by lia. apply Rmult_comm. Qed.
Lemma rm_len : zlen rm = n.
Proof. unfold rm. now rewrite zlen_map. Qed.
Lemma rm_back : map (fun r => r / mult) rm = rs.
Proof. unfold rm. rewrite map_map. rewrite <- (map_id rs) at 2. apply map_ext. intros r. field. lra. Qed.

Lemma all_insertable i : (0 <= i < n)%Z -> insertable W (zn 0 xs i) /\ insertable W (zn 0 ys i) /\ insertable W (zn 0 zs i).
Proof. intros Hi. destruct (HC i Hi) as [H _]. cbn in H. unfold insertable. repeat split; lra. Qed.

Lemma wrap_id x : 0 <= x < W -> icl W c x = cl W c x.
Proof.
  intros H. unfold icl, insert_wrap; rn. rewrite Rlt_bool_false by lra. rewrite Rlt_bool_false by lra. now apply trunc_cl.
Qed.

Lemma meets_iff i j : (0 <= i < n)%Z -> (0 <= j < n)%Z ->
  meets 0 xs ys zs rm i j = true <-> spheres_meet (pos i) (pos j) (mult * rad i) (mult * rad j).
Proof.
  intros Hi Hj. destruct (HC i Hi) as [_ R1]. destruct (HC j Hj) as [_ R2].
  rewrite meet_iff by (apply Rmult_le_pos; lra). unfold meets; rn. rewrite !rm_at by auto. cbn [pos psub pdot].
  split; intros H.
  - now destruct (Rle_bool_spec ((zn 0 xs i - zn 0 xs j) * (zn 0 xs i - zn 0 xs j) + (zn 0 ys i - zn 0 ys j) * (zn 0 ys i - zn 0 ys j) + (zn 0 zs i - zn 0 zs j) * (zn 0 zs i - zn 0 zs j)) ((mult * rad i + mult * rad j) * (mult * rad i + mult * rad j))).
  - now apply Rle_bool_true.
Qed.

Lemma meet_sym p q a b : spheres_meet p q a b -> spheres_meet q p b a.
Proof.
  unfold spheres_meet, pdist. intros H. rewrite Rplus_comm. eapply Rle_trans; [|exact H]. apply Req_le. f_equal.
  destruct p as [[px py] pz], q as [[qx qy] qz]. cbn. ring.
Qed.

(** Hosts come first in an ascending list. *)
Lemma host_split i l : StronglySorted Z.lt l -> ~ In i l -> exists hs ss, l = hs ++ ss /\ (forall j, In j hs -> (j < i)%Z) /\ (forall j, In j ss -> (i < j)%Z) /\
  forall k, host_count_loop i k l = (k + zlen hs)%Z.
Proof.
  induction 1 as [|a l H IH F]; intros N.
  - exists [], []. repeat split; try contradiction. intros k. cbn. unfold zlen; cbn. lia.
  - cbn [host_count_loop]. destruct (Z.gtb_spec a i) as [G|G].
    + exists [], (a :: l). split; auto. split; [contradiction|]. split.
      * rewrite Forall_forall in F. intros j [<-|Hj]; [lia|]. specialize (F j Hj). lia.
      * intros k. change (zlen (@nil Z)) with 0%Z. lia.
    + destruct IH as (hs & ss & -> & A & B & C); [intros K; apply N; now right|].
      assert (a <> i) by (intros ->; apply N; now left).
      exists (a :: hs), ss. split; auto. split; [intros j [<-|Hj]; [lia|auto]|]. split; auto.
      intros k. rewrite C, zlen_cons. lia.
Qed.

Theorem finder_lists : exists g0 g sf, new_grid c W n = Ok g0 /\ insert g0 xs ys zs = Ok g /\
  find_subhalos g (new_finder n) xs ys zs rs mult = Ok (sf, rs) /\
  forall i, (0 <= i < n)%Z -> exists hs ss, 
    intersects sf i = Ok (hs ++ ss) /\ hosts sf i = Ok hs /\ subhalos sf i = Ok ss /\
    intersect_count sf i = Ok (zlen hs + zlen ss)%Z /\ host_count sf i = Ok (zlen hs) /\ subhalo_count sf i = Ok (zlen ss) /\
    ascending (hs ++ ss) /\
    (forall j, In j hs <-> (0 <= j < i)%Z /\ spheres_meet (pos i) (pos j) (mult * rad i) (mult * rad j)) /\
    (forall j, In j ss <-> (i < j < n)%Z /\ spheres_meet (pos i) (pos j) (mult * rad i) (mult * rad j)).
Proof.
  destruct (inserted W c n xs ys zs HW Hc Hx Hy Hz all_insertable) as (g & E & S & H).
  pose proof S as S'. destruct S' as (Sc & Sw & SW & Lh & Ln).
  rewrite (g0_heads W c n xs ys zs Hc all_insertable) in Lh. rewrite (g0_next W c n xs ys zs Hx all_insertable) in Ln. cbn [gr_cells gr_cw gr_width] in Sc, Sw, SW.
  set (f := icell 0 g0 xs ys zs) in *.
  destruct (holds_max g f n ltac:(lia) H) as (ml & M1 & M2 & M3 & _).
  destruct (cumulative_max_ok rm) as (cM & C1 & C2 & C3); [rewrite rm_len; lia|]. rewrite rm_len in C2, C3.
  assert (RR : forall i, (0 <= i < n)%Z -> exists j, (i <= j < n)%Z /\ zn 0 rm i + zn 0 cM i = mult * (rad i + rad j) /\ forall k, (i <= k < n)%Z -> mult * rad k <= zn 0 cM i).
  { intros i Hi. destruct (C3 i Hi) as [(j & Hj & Ej) Hk]. exists j. split; auto. split.
    - rewrite Ej, !rm_at by lia. ring.
    - intros k K. specialize (Hk k K). rewrite rm_at in Hk by lia. exact Hk. }
  assert (RN : forall i, (0 <= i < n)%Z -> 0 <= rad i) by (intros i Hi; apply HC; auto).
  assert (AX : forall i, (0 <= i < n)%Z -> forall p r, r = zn 0 rm i + zn 0 cM i -> 0 <= p < W -> reach_ok W c r p ->
     NoDup (cells_of g r p) /\ (forall k, In k (cells_of g r p) -> (0 <= k < c)%Z) /\
     (forall q, 0 <= q < W -> Rabs (q - p) <= r -> In (cl W c q) (cells_of g r p))).
  { intros i Hi p r Er Hp Hpr. unfold cells_of. rewrite Sc, Sw, SW.
    assert (0 <= r).
    { destruct (RR i Hi) as (j & Hj & Q & _). rewrite Er, Q. apply Rmult_le_pos; [lra|]. pose proof (RN i Hi). pose proof (RN j ltac:(lia)). lra. }
    pose proof (axis_ok W c HW Hc p r Hp H0 Hpr) as (A1 & A2 & A3). split; auto. split; auto.
    intros q Hq Hqr. apply (A3 q 0%Z); auto. now rewrite Rmult_0_l, Rplus_0_r. }
  assert (RO : forall i, (0 <= i < n)%Z -> reach_ok3 W c (zn 0 rm i + zn 0 cM i) (pos i)).
  { intros i Hi. destruct (RR i Hi) as (j & Hj & -> & _). apply HR; lia. }
  assert (SR : forall i k, (0 <= i < n)%Z -> In k (searched 0 g xs ys zs rm cM i) -> (0 <= k < zlen (gr_heads g))%Z).
  { intros i k Hi Hk. unfold searched in Hk. apply in_block in Hk. destruct Hk as (x & y & z & Kx & Ky & Kz & ->). rn.
    pose proof (RO i Hi) as (O1 & O2 & O3). destruct (HC i Hi) as [(P1 & P2 & P3) _].
    apply (AX i Hi (zn 0 xs i) _ eq_refl P1 O1) in Kx. apply (AX i Hi (zn 0 ys i) _ eq_refl P2 O2) in Ky. apply (AX i Hi (zn 0 zs i) _ eq_refl P3 O3) in Kz.
    rewrite Sc, Lh. nia. }
  assert (ND : forall i, (0 <= i < n)%Z -> NoDup (searched 0 g xs ys zs rm cM i)).
  { intros i Hi. unfold searched. rn. pose proof (RO i Hi) as (O1 & O2 & O3). destruct (HC i Hi) as [(P1 & P2 & P3) _].
    pose proof (AX i Hi (zn 0 xs i) _ eq_refl P1 O1) as (A1 & A2 & _). pose proof (AX i Hi (zn 0 ys i) _ eq_refl P2 O2) as (B1 & B2 & _).
    pose proof (AX i Hi (zn 0 zs i) _ eq_refl P3 O3) as (D1 & D2 & _). rewrite Sc. now apply NoDup_block. }
  set (L := hits 0 g f n xs ys zs rm cM).
  assert (LI : forall i j, (0 <= i < n)%Z -> In j (L i) <-> (i < j < n)%Z /\ spheres_meet (pos i) (pos j) (mult * rad i) (mult * rad j)).
  { intros i j Hi. unfold L. rewrite hits_in. split.
    - intros (A & B & C & _). split; [lia|]. now apply meets_iff.
    - intros (A & B). split; [lia|]. split; [lia|]. split; [apply meets_iff; auto; lia|].
      assert (Hj : (0 <= j < n)%Z) by lia.
      pose proof (meet_axis _ _ _ _ (Rmult_le_pos _ _ (Rlt_le _ _ Hm) (RN i Hi)) (Rmult_le_pos _ _ (Rlt_le _ _ Hm) (RN j Hj)) B) as MA.
      cbn [pos] in MA. destruct MA as (Q1 & Q2 & Q3). destruct (RR i Hi) as (_ & _ & _ & Hk). specialize (Hk j ltac:(lia)).
      pose proof (rm_at i Hi) as Ei. unfold searched. rn. apply in_block.
      pose proof (RO i Hi) as (O1 & O2 & O3). destruct (HC i Hi) as [(P1 & P2 & P3) _]. destruct (HC j Hj) as [(J1 & J2 & J3) _].
      exists (cl W c (zn 0 xs j)), (cl W c (zn 0 ys j)), (cl W c (zn 0 zs j)). repeat split.
      + apply (AX i Hi); auto. lra.
      + apply (AX i Hi); auto. lra.
      + apply (AX i Hi); auto. lra.
      + unfold f. unfold g0. rewrite (icell_eq W c n xs ys zs). rewrite !wrap_id by auto. rewrite Sc. ring. }
  destruct (all_ok 0 g f n xs ys zs rm ltac:(lia) H Hx Hy Hz rm_len cM (repeat 0%Z (Z.to_nat ml)) (sf_starts (new_finder n)) C2) as (st & bf & A1 & A2).
  { cbn. rewrite zlen_repeat. lia. }
  { exact SR. }
  { intros k Hk. rewrite zlen_repeat. specialize (M3 k Hk). lia. }
  fold L in A1, A2.
  destruct (cross_ok L n st Hn) as (st2 & X1 & X2); auto.
  { intros i j Hi Hj. apply LI in Hj; auto. lia. }
  exists g0, g, (SF st2 (flat_map (fun i => sort_ints (both L n i)) (zseq n))).
  split; [apply (new_grid_ok W c n xs ys zs Hc Hx all_insertable)|]. split; [exact E|]. split.
  { unfold find_subhalos. rewrite M1. cbn [bind]. rn. fold rm. rewrite C1. cbn [bind sf_subs new_finder].
    etransitivity; [apply (f_equal (fun r => bind r _)); exact A1|]. cbn [bind]. rewrite X1. cbn [bind]. now rewrite rm_back. }
  intros i Hi. set (l := sort_ints (both L n i)).
  assert (LA : StronglySorted Z.lt l).
  { apply both_asc; auto.
    - intros k j Hk Hj. apply LI in Hj; auto. lia.
    - intros k Hk. apply hits_NoDup. now apply ND.
    - intros k j Hk Hj. apply LI in Hj; auto. lia. }
  assert (LB : forall j, In j l <-> (0 <= j < n)%Z /\ j <> i /\ spheres_meet (pos i) (pos j) (mult * rad i) (mult * rad j)).
  { intros j. unfold l. rewrite in_both by auto. split.
    - intros [[A B]|B].
      + apply LI in B; auto. destruct B as [B1 B2]. split; [lia|]. split; [lia|]. now apply meet_sym.
      + apply LI in B; auto. destruct B as [B1 B2]. split; [lia|]. split; [lia|]. auto.
    - intros (A & B & C). destruct (Z_lt_ge_dec j i).
      + left. split; auto. apply LI; auto. split; [lia|]. now apply meet_sym.
      + right. apply LI; auto. split; [lia|auto]. }
  destruct (host_split i l LA) as (hs & ss & El & B1 & B2 & B3). { intros K. apply LB in K. lia. }
  assert (IX : intersects (SF st2 (flat_map (fun i => sort_ints (both L n i)) (zseq n))) i = Ok (hs ++ ss)).
  { rewrite (intersects_ok st2 (fun i => sort_ints (both L n i)) n i) by auto. fold l. now rewrite El. }
  assert (HCt : host_count (SF st2 (flat_map (fun i => sort_ints (both L n i)) (zseq n))) i = Ok (zlen hs)).
  { unfold host_count. rewrite IX. cbn [bind]. rewrite <- El, B3. reflexivity. }
  assert (IC : intersect_count (SF st2 (flat_map (fun i => sort_ints (both L n i)) (zseq n))) i = Ok (zlen hs + zlen ss)%Z).
  { unfold intersect_count. rewrite (start_end_ok st2 _ (fun i => sort_ints (both L n i)) n i) by auto. cbn [bind]. f_equal. rewrite off_succ by lia.
    fold l. rewrite El, zlen_app. lia. }
  pose proof (zlen_nonneg hs). pose proof (zlen_nonneg ss).
  exists hs, ss. split; auto. split; [|split; [|split; [auto|split; [auto|split; [|split; [now rewrite <- El|split]]]]]].
  - unfold hosts. rewrite IX. cbn [bind]. rewrite HCt. cbn [bind]. rewrite slice_ok by (rewrite ?zlen_app; lia). f_equal. cbn [skipn Z.to_nat].
    unfold zlen. replace (Z.to_nat (Z.of_nat (length hs) - 0)) with (length hs) by lia. rewrite firstn_app, firstn_all, Nat.sub_diag. cbn. apply app_nil_r.
  - unfold subhalos. rewrite IX. cbn [bind]. rewrite HCt. cbn [bind]. rewrite slice_ok by (rewrite ?zlen_app; lia). f_equal.
    unfold zlen. rewrite Nat2Z.id, skipn_app, skipn_all, Nat.sub_diag. cbn [skipn app]. apply firstn_all2. rewrite app_length. lia.
  - unfold subhalo_count. rewrite IC. cbn [bind]. rewrite HCt. cbn [bind]. f_equal. lia.
  - intros j. split.
    + intros Hj. specialize (B1 j Hj) as Lj. assert (K : In j l) by (rewrite El; apply in_or_app; auto). apply LB in K. destruct K as (K1 & _ & K3). split; [lia|auto].
    + intros [Hj M]. assert (K : In j l) by (apply LB; split; [lia|split; [lia|auto]]). rewrite El in K. apply in_app_or in K. destruct K as [K|K]; auto.
      apply B2 in K. lia.
  - intros j. split.
    + intros Hj. specialize (B2 j Hj) as Lj. assert (K : In j l) by (rewrite El; apply in_or_app; auto). apply LB in K. destruct K as (K1 & _ & K3). split; [lia|auto].
    + intros [Hj M]. assert (K : In j l) by (apply LB; split; [lia|split; [lia|auto]]). rewrite El in K. apply in_app_or in K. destruct K as [K|K]; auto.
      apply B1 in K. lia.
Qed.
End Find.
