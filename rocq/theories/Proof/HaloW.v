(** Edges of the box, periodic images, cell bounds. *)
From Coq Require Import ZArith List Bool Lia ZifyBool ZifyNat Sorted Permutation Reals Lra Psatz.
From Flocq Require Import Core.Raux.
From Verif Require Import Base.Res Base.ResFacts Base.Num Base.IEEE Model.Halo Spec.Geometry Spec.Halos Spec.Work.
From Verif Require Import Proof.WorkP Proof.HaloP Proof.HaloX Proof.HaloF Proof.HaloR Proof.HaloT.
Import ListNotations.
Open Scope R_scope.

(** ** The upper edge *)
Lemma edge_cell W c : 0 < W -> (1 <= c)%Z -> Ztrunc (insert_wrap W W / (W / IZR c))%num = c.
Proof.
  intros HW Hc. assert (1 <= IZR c) by (apply IZR_le; lia). unfold insert_wrap; rn. rewrite Rlt_bool_false by lra. rewrite Rlt_bool_false by lra.
  replace (W / (W / IZR c)) with (IZR c) by (field; lra). apply Ztrunc_IZR.
Qed.

Lemma in_icl W c x : 0 < W -> (1 <= c)%Z -> 0 <= x < W -> (0 <= Ztrunc (insert_wrap W x / (W / IZR c))%num < c)%Z.
Proof. intros HW Hc Hx. apply (icl_ok W c HW Hc x). unfold insertable. lra. Qed.

Lemma fresh_grid c W : (1 <= c)%Z -> new_grid c W 1 = Ok (HGr c (W / IZR c) W (repeat tail (Z.to_nat (c * c * c))) [0%Z]).
Proof. intros Hc. unfold new_grid; rn. replace (c * c * c <? 0)%Z with false by nia. reflexivity. Qed.

Theorem edge_thm W c : 0 < W -> (1 <= c)%Z -> exists g0, new_grid c W 1 = Ok g0 /\
  (forall x y, 0 <= x < W -> 0 <= y < W -> insert g0 [x] [y] [W] = Panic) /\
  (c = 1%Z -> insert g0 [W] [0] [0] = Panic) /\
  ((2 <= c)%Z -> in_cell3 W c (0, 0, 0)%Z (W, 0, 0) /\ exists g, insert g0 [W] [0] [0] = Ok g /\ grid_length g 0 = Ok 0%Z /\ grid_length g c = Ok 1%Z).
Proof.
  intros HW Hc. eexists. split; [now apply fresh_grid|]. split; [|split].
  - intros x y Hx Hy. unfold insert. change (zlen [x]) with 1%Z. rewrite for_step by lia. unfold insert1 at 1.
    rewrite !(get_ok 0) by (cbn; lia). cbn [bind gr_width gr_cw gr_cells gr_heads]. change (zn 0 [x] 0) with x. change (zn 0 [y] 0) with y. change (zn 0 [W] 0) with W.
    rn. rewrite edge_cell by auto. pose proof (in_icl W c x HW Hc Hx). pose proof (in_icl W c y HW Hc Hy). rn.
    rewrite get_panic; [reflexivity|]. rewrite zlen_repeat. nia.
  - intros ->. unfold insert. change (zlen [W]) with 1%Z. rewrite for_step by lia. unfold insert1 at 1.
    rewrite !(get_ok 0) by (cbn; lia). cbn [bind gr_width gr_cw gr_cells gr_heads]. change (zn 0 [W] 0) with W. change (zn 0 [0] 0) with 0. rn. rewrite edge_cell by (auto; lia).
    pose proof (in_icl W 1 0 HW ltac:(lia) ltac:(lra)). rn. rewrite get_panic; [reflexivity|]. rewrite zlen_repeat. nia.
  - intros Hc2. assert (1 <= IZR c) by (apply IZR_le; lia). assert (P : 0 < W / IZR c) by (apply Rdiv_lt_0_compat; lra). split.
    + cbn [in_cell3]. unfold in_cell1. split; [exists (-1)%Z|split; exists 0%Z]; rewrite ?Rmult_0_r; cbn [Z.add]; lra.
    + assert (Z0 : Ztrunc (insert_wrap W 0 / (W / IZR c))%num = 0%Z).
      { unfold insert_wrap; rn. rewrite !Rlt_bool_false by lra. unfold Rdiv at 1. rewrite Rmult_0_l. apply Ztrunc_IZR. }
      unfold insert. change (zlen [W]) with 1%Z. rewrite for_step by lia. unfold insert1 at 1.
      rewrite !(get_ok 0) by (cbn; lia). cbn [bind gr_width gr_cw gr_cells gr_heads gr_next]. change (zn 0 [W] 0) with W. change (zn 0 [0] 0) with 0. rn.
      rewrite edge_cell by auto. rewrite Z0. replace (c + 0 * c + 0 * c * c)%Z with c by ring.
      assert (Lc : (0 <= c < c * c * c)%Z) by nia.
      rewrite (get_ok 0%Z) by (rewrite zlen_repeat; lia). cbn [bind]. rewrite zn_repeat by lia. rewrite !set_ok by (rewrite ?zlen_repeat; cbn; lia). cbn [bind].
      rewrite for_empty by lia. eexists. split; [reflexivity|]. unfold grid_length, grid_fuel. cbn [gr_heads gr_next].
      rewrite !(get_ok 0%Z) by (rewrite zlen_upd, zlen_repeat; lia). cbn [bind]. rewrite !zn_upd by (rewrite ?zlen_repeat; lia).
      replace (0 =? c)%Z with false by lia. rewrite Z.eqb_refl. rewrite zn_repeat by lia. split; reflexivity.
Qed.

Theorem grid_thm : forall W c n xs ys zs, 0 < W -> (1 <= c)%Z -> zlen xs = n -> zlen ys = n -> zlen zs = n ->
  (forall i, (0 <= i < n)%Z -> Forall (fun x => - W <= x < 2 * W /\ x <> W) [zn 0 xs i; zn 0 ys i; zn 0 zs i]) ->
  exists g0 g, new_grid c W n = Ok g0 /\ insert g0 xs ys zs = Ok g /\ total_cells g = (c * c * c)%Z /\
  (forall kx ky kz, in_box (kx, ky, kz) (0, 0, 0)%Z (c, c, c) -> exists l, descending l /\
     (forall i, In i l <-> (0 <= i < n)%Z /\ in_cell3 W c (kx, ky, kz) (zn 0 xs i, zn 0 ys i, zn 0 zs i)) /\
     grid_length g (kx + ky * c + kz * c * c) = Ok (zlen l) /\
     (forall buf, (zlen l <= zlen buf)%Z -> exists buf', read_indexes g (kx + ky * c + kz * c * c) buf = Ok (buf', zlen l) /\
        zlen buf' = zlen buf /\ firstn (length l) buf' = l)) /\
  (exists m, max_length g = Ok m /\ (forall k, (0 <= k < c * c * c)%Z -> exists l, grid_length g k = Ok l /\ (l <= m)%Z) /\
     exists k, (0 <= k < c * c * c)%Z /\ grid_length g k = Ok m) /\
  average_length g = Ok (n / (c * c * c))%Z /\
  (forall i, (0 <= i < n)%Z -> exists! k : cell, in_box k (0, 0, 0)%Z (c, c, c) /\ in_cell3 W c k (zn 0 xs i, zn 0 ys i, zn 0 zs i)).
Proof.
  intros W c n xs ys zs HW Hc Hx Hy Hz H.
  assert (HI : forall i, (0 <= i < n)%Z -> insertable W (zn 0 xs i) /\ insertable W (zn 0 ys i) /\ insertable W (zn 0 zs i)).
  { intros i Hi. specialize (H i Hi). inversion H as [|? ? A B]; subst. inversion B as [|? ? C D]; subst. inversion D; subst. auto. }
  destruct (grid_lists W c n xs ys zs HW Hc Hx Hy Hz HI) as (g0 & g & A & B & C & D & E & F). exists g0, g.
  repeat (split; [assumption|]). intros i Hi. exact (cell_exists W c n xs ys zs HW Hc HI i Hi).
Qed.

(** ** Periodic images *)
Lemma image_zero W r p q k : 0 < W -> stays_inside W r p -> 0 <= q < W -> Rabs (q + W * IZR k - p) <= r -> k = 0%Z.
Proof.
  intros HW [A B] Hq H. apply Rabs_le_inv in H. assert (K : 0 <= q + W * IZR k < W) by lra.
  assert (L1 : - 1 < IZR k). { apply Rmult_lt_reg_l with W; lra. }
  assert (L2 : IZR k < 1). { apply Rmult_lt_reg_l with W; lra. }
  apply lt_IZR in L1. apply lt_IZR in L2. lia.
Qed.

Lemma periodic_plain W p q a b : 0 < W -> 0 <= a -> 0 <= b -> stays_inside3 W (a + b) p -> in_cube W q ->
  spheres_meet_periodic W p q a b -> spheres_meet p q a b.
Proof.
  intros HW Ha Hb S Q (k & H). pose proof H as H'. apply meet_axis in H'; auto. destruct p as [[px py] pz], q as [[qx qy] qz], k as [[kx ky] kz].
  cbn in H', S, Q. destruct H' as (A & B & C), S as (S1 & S2 & S3), Q as (Q1 & Q2 & Q3).
  apply (image_zero W (a + b) px qx kx) in A; auto. apply (image_zero W (a + b) py qy ky) in B; auto. apply (image_zero W (a + b) pz qz kz) in C; auto. subst.
  replace (padd (qx, qy, qz) (pscale W (cell_point (0, 0, 0)%Z))) with (qx, qy, qz) in H by (cbn; repeat f_equal; ring). exact H.
Qed.

Lemma plain_periodic W p q a b : spheres_meet p q a b -> spheres_meet_periodic W p q a b.
Proof.
  intros H. exists (0, 0, 0)%Z. destruct q as [[qx qy] qz]. replace (padd _ _) with (qx, qy, qz); auto. cbn. repeat f_equal; ring.
Qed.

Lemma periodic_sym W p q a b : spheres_meet_periodic W p q a b -> spheres_meet_periodic W q p b a.
Proof.
  intros ([[kx ky] kz] & H). exists (- kx, - ky, - kz)%Z. unfold spheres_meet, pdist in *. rewrite Rplus_comm. eapply Rle_trans; [|exact H]. apply Req_le. f_equal.
  destruct p as [[px py] pz], q as [[qx qy] qz]. cbn. rewrite !opp_IZR. ring.
Qed.

Lemma near_sq W x y k : 0 < W -> near1 W x y -> (x - y) * (x - y) <= (x - (y + W * IZR k)) * (x - (y + W * IZR k)).
Proof.
  intros HW H. unfold near1 in H. apply Rabs_le_inv in H.
  destruct (Z.eq_dec k 0) as [->|N]; [rewrite Rmult_0_r, Rplus_0_r; lra|].
  set (d := x - y) in *. replace (x - (y + W * IZR k)) with (d - W * IZR k) by (unfold d; ring).
  assert (E : (d - W * IZR k) * (d - W * IZR k) - d * d = W * IZR k * (W * IZR k - 2 * d)) by ring.
  destruct (Z_lt_ge_dec k 0).
  - assert (K : IZR k <= -1) by (apply IZR_le; lia). assert (M : W * IZR k <= - W) by nra. nra.
  - assert (K : 1 <= IZR k) by (apply IZR_le; lia). assert (M : W <= W * IZR k) by nra. nra.
Qed.

Lemma near_periodic W p q a b : 0 < W -> 0 <= a -> 0 <= b -> near3 W p q -> spheres_meet_periodic W p q a b -> spheres_meet p q a b.
Proof.
  intros HW Ha Hb N ([[kx ky] kz] & H). apply meet_iff; auto. apply meet_iff in H; auto. eapply Rle_trans; [|exact H].
  destruct p as [[px py] pz], q as [[qx qy] qz]. cbn in N |- *. destruct N as (N1 & N2 & N3).
  apply (near_sq W px qx kx HW) in N1. apply (near_sq W py qy ky HW) in N2. apply (near_sq W pz qz kz HW) in N3. lra.
Qed.

(** What the finder's lists are. *)
Definition lists (n : Z) (sf : finder) (rel : Z -> Z -> Prop) : Prop :=
  forall i, (0 <= i < n)%Z -> exists hs ss,
    intersects sf i = Ok (hs ++ ss) /\ hosts sf i = Ok hs /\ subhalos sf i = Ok ss /\
    intersect_count sf i = Ok (zlen hs + zlen ss)%Z /\ host_count sf i = Ok (zlen hs) /\ subhalo_count sf i = Ok (zlen ss) /\
    ascending (hs ++ ss) /\
    (forall j, In j hs <-> (0 <= j < i)%Z /\ rel i j) /\ (forall j, In j ss <-> (i < j < n)%Z /\ rel i j).

Lemma lists_ext n sf r1 r2 : (forall i j, (0 <= i < n)%Z -> (0 <= j < n)%Z -> (r1 i j <-> r2 i j)) -> lists n sf r1 -> lists n sf r2.
Proof.
  intros E H i Hi. destruct (H i Hi) as (hs & ss & A1 & A2 & A3 & A4 & A5 & A6 & A7 & A8 & A9). exists hs, ss. repeat (split; [assumption|]).
  split; intros j; [rewrite A8|rewrite A9]; (split; intros [B C]; (split; [auto|]); apply (E i j); auto; lia).
Qed.

Section Find.
Variables (W mult : R) (c n : Z) (xs ys zs rs : list R).
Hypothesis HW : 0 < W.
Hypothesis Hm : 0 < mult.
Hypothesis Hc : (1 <= c)%Z.
Hypothesis Hn : (1 <= n)%Z.
Hypothesis Hx : zlen xs = n.
Hypothesis Hy : zlen ys = n.
Hypothesis Hz : zlen zs = n.
Hypothesis Hr : zlen rs = n.
Let pos (i : Z) : point := (zn 0 xs i, zn 0 ys i, zn 0 zs i).
Let rad (i : Z) : R := zn 0 rs i.
Hypothesis HC : forall i, (0 <= i < n)%Z -> in_cube W (pos i) /\ 0 <= rad i.

Lemma mrad i : (0 <= i < n)%Z -> 0 <= mult * rad i.
Proof. intros Hi. apply Rmult_le_pos; [lra|]. now apply HC. Qed.

Theorem finder_inside : (forall i j, (0 <= i <= j)%Z -> (j < n)%Z -> stays_inside3 W (mult * (rad i + rad j)) (pos i)) ->
  exists g0 g sf, new_grid c W n = Ok g0 /\ insert g0 xs ys zs = Ok g /\ find_subhalos g (new_finder n) xs ys zs rs mult = Ok (sf, rs) /\
  lists n sf (fun i j => spheres_meet_periodic W (pos i) (pos j) (mult * rad i) (mult * rad j)).
Proof.
  intros HI. destruct (finder_lists W mult c n xs ys zs rs HW Hm Hc Hn Hx Hy Hz Hr HC) as (g0 & g & sf & A & B & C & D).
  { intros i j Hij Hj. specialize (HI i j Hij Hj). destruct HI as (I1 & I2 & I3). cbn. unfold reach_ok. auto. }
  exists g0, g, sf. split; auto. split; auto. split; auto. refine (lists_ext _ _ _ _ _ D). intros i j Hi Hj. fold (pos i) (pos j) (rad i) (rad j). split.
  - apply plain_periodic.
  - intros H. destruct (Z_le_gt_dec i j).
    + apply (periodic_plain W); auto using mrad. * rewrite <- Rmult_plus_distr_l. apply HI; lia. * now apply HC.
    + apply meet_sym. apply periodic_sym in H. apply (periodic_plain W); auto using mrad. * rewrite <- Rmult_plus_distr_l. apply HI; lia. * now apply HC.
Qed.

Theorem finder_sound : (forall i j, (0 <= i <= j)%Z -> (j < n)%Z -> reach_ok3 W c (mult * (rad i + rad j)) (pos i)) ->
  exists g0 g sf, new_grid c W n = Ok g0 /\ insert g0 xs ys zs = Ok g /\ find_subhalos g (new_finder n) xs ys zs rs mult = Ok (sf, rs) /\
  (forall i, (0 <= i < n)%Z -> exists l, intersects sf i = Ok l /\
    (forall j, In j l -> (0 <= j < n)%Z /\ j <> i /\ spheres_meet_periodic W (pos i) (pos j) (mult * rad i) (mult * rad j)) /\
    (forall j, (0 <= j < n)%Z -> j <> i -> near3 W (pos i) (pos j) ->
       (In j l <-> spheres_meet_periodic W (pos i) (pos j) (mult * rad i) (mult * rad j)))).
Proof.
  intros HI. destruct (finder_lists W mult c n xs ys zs rs HW Hm Hc Hn Hx Hy Hz Hr HC HI) as (g0 & g & sf & A & B & C & D).
  exists g0, g, sf. split; auto. split; auto. split; auto. intros i Hi. destruct (D i Hi) as (hs & ss & A1 & _ & _ & _ & _ & _ & _ & A8 & A9).
  exists (hs ++ ss). split; auto.
  assert (L : forall j, In j (hs ++ ss) <-> (0 <= j < n)%Z /\ j <> i /\ spheres_meet (pos i) (pos j) (mult * rad i) (mult * rad j)).
  { intros j. rewrite in_app_iff, A8, A9. fold (pos i) (pos j) (rad i) (rad j). split.
    - intros [[E F]|[E F]]; (split; [lia|]; split; [lia|auto]).
    - intros (E & F & G). destruct (Z_lt_ge_dec j i); [left|right]; (split; [lia|auto]). }
  split.
  - intros j Hj. apply L in Hj. destruct Hj as (E & F & G). split; auto. split; auto. now apply plain_periodic.
  - intros j Hj Nj Nr. rewrite L. split; [intros (_ & _ & G); now apply plain_periodic|]. intros G. split; auto. split; auto.
    apply (near_periodic W); auto using mrad.
Qed.
End Find.

Lemma wide_meet : spheres_meet_periodic 100 (1 / 2, 50, 50) (199 / 2, 50, 50) 1 1.
Proof. exists (-1, 0, 0)%Z. apply meet_iff; try lra. cbn. lra. Qed.
Lemma wide_far : ~ spheres_meet (1 / 2, 50, 50) (199 / 2, 50, 50) 1 1.
Proof. intros H. apply meet_iff in H; try lra. cbn in H. lra. Qed.

(** Two halos across the boundary. *)
Theorem finder_not_periodic : exists g0 g sf, new_grid 10 100 2 = Ok g0 /\ insert g0 [1 / 2; 199 / 2] [50; 50] [50; 50] = Ok g /\
  find_subhalos g (new_finder 2) [1 / 2; 199 / 2] [50; 50] [50; 50] [1; 1] 1 = Ok (sf, [1; 1]) /\
  intersects sf 0 = Ok [] /\ intersects sf 1 = Ok [] /\ spheres_meet_periodic 100 (1 / 2, 50, 50) (199 / 2, 50, 50) 1 1.
Proof.
  destruct (finder_lists 100 1 10 2 [1 / 2; 199 / 2] [50; 50] [50; 50] [1; 1]) as (g0 & g & sf & A & B & C & D); try reflexivity; try lra; try lia.
  { intros i Hi. assert (E : (i = 0 \/ i = 1)%Z) by lia. destruct E as [-> | ->]; cbn; change (Pos.to_nat 1) with 1%nat; cbn; repeat split; lra. }
  { intros i j Hi Hj. assert (E : (i = 0 \/ i = 1)%Z) by lia. assert (F : (j = 0 \/ j = 1)%Z) by lia. destruct E as [-> | ->], F as [-> | ->]; cbn; change (Pos.to_nat 1) with 1%nat; cbn; unfold reach_ok; repeat split; right; lra. }
  exists g0, g, sf. split; auto. split; auto. split; auto.
  assert (M : forall i j, ((i = 0 /\ j = 1) \/ (i = 1 /\ j = 0))%Z -> ~ spheres_meet (zn 0 [1 / 2; 199 / 2] i, zn 0 [50; 50] i, zn 0 [50; 50] i) (zn 0 [1 / 2; 199 / 2] j, zn 0 [50; 50] j, zn 0 [50; 50] j) (1 * zn 0 [1; 1] i) (1 * zn 0 [1; 1] j)).
  { intros i j E. assert (K : ~ spheres_meet (1 / 2, 50, 50) (199 / 2, 50, 50) (1 * 1) (1 * 1)) by (rewrite !Rmult_1_l; apply wide_far).
    destruct E as [[-> ->]|[-> ->]]; [exact K|]. intros H. apply K. apply meet_sym. exact H. }
  assert (Z : forall i, (i = 0 \/ i = 1)%Z -> intersects sf i = Ok []).
  { intros i E. destruct (D i ltac:(lia)) as (hs & ss & I & _ & _ & _ & _ & _ & _ & H1 & H2). rewrite I. f_equal.
    destruct hs as [|h hs].
    - destruct ss as [|s ss]; auto. exfalso. destruct (proj1 (H2 s) (or_introl eq_refl)) as [E1 E2]. revert E2. apply M. lia.
    - exfalso. destruct (proj1 (H1 h) (or_introl eq_refl)) as [E1 E2]. revert E2. apply M. lia. }
  split; [apply Z; lia|]. split; [apply Z; lia|]. apply wide_meet.
Qed.

(** ** Cell bounds *)
Open Scope Z_scope.
Theorem bounds_thm origin span val width : 0 <= origin < width -> 0 <= span -> 0 <= val < width ->
  (bounds_inside origin span val width = true <-> 0 <= convert_index origin val width < span) /\
  0 <= convert_index origin val width < width /\ (exists m, convert_index origin val width = val - origin + m * width) /\
  (bounds_inside origin span val width = true <-> exists d m, 0 <= d < span /\ val = origin + d + m * width) /\
  (span <= width -> (bounds_inside origin span val width = true <-> In val (axis width origin span))).
Proof.
  intros Ho Hs Hv.
  assert (A : bounds_inside origin span val width = true <-> 0 <= convert_index origin val width < span).
  { unfold bounds_inside, convert_index. destruct (Z.ltb_spec (val - origin) 0), (Z.geb_spec val (origin + span)), (Z.ltb_spec val origin); rewrite andb_true_iff; split; lia. }
  assert (B : 0 <= convert_index origin val width < width) by (unfold convert_index; destruct (Z.ltb_spec (val - origin) 0); lia).
  assert (C : exists m, convert_index origin val width = val - origin + m * width).
  { unfold convert_index. destruct (Z.ltb_spec (val - origin) 0); [exists 1|exists 0]; lia. }
  split; auto. split; auto. split; auto. split.
  - rewrite A. destruct C as (m & Em). split.
    + intros H. exists (convert_index origin val width), (- m). split; auto. lia.
    + intros (d & k & Hd & Ev). split; [lia|]. destruct (Z_lt_ge_dec d width) as [L|L]; [|lia].
      enough (convert_index origin val width = d) by lia. assert (E : convert_index origin val width - d = (k + m) * width) by lia.
      destruct (Z.eq_dec (k + m) 0) as [N|N]; [rewrite N in E; lia|]. exfalso. nia.
  - intros Hw. rewrite A. unfold axis. rewrite in_map_iff. split.
    + intros H. exists (convert_index origin val width). rewrite in_zseq. split; auto. cbn zeta. unfold convert_index in *.
      destruct (Z.ltb_spec (val - origin) 0); [destruct (Z.geb_spec (origin + (val - origin + width)) width)|destruct (Z.geb_spec (origin + (val - origin)) width)]; lia.
    + intros (d & E & Hd). apply in_zseq in Hd. cbn zeta in E. unfold convert_index. destruct (Z.geb_spec (origin + d) width), (Z.ltb_spec (val - origin) 0); lia.
Qed.
