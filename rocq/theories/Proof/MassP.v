(** Mass of a whole segment. *)
From Coq Require Import ZArith List Bool Reals Lra Lia ZifyBool ZifyNat Permutation.
From Flocq Require Import Core.Raux.
From Verif Require Import Base.Res Base.ResFacts Base.Stride Base.Num Model.Geom Model.GridDeriv Model.Density Model.Box Model.Render.
From Verif Require Import Spec.Geometry Spec.GeomDefs Spec.Fields Spec.FieldDefs Spec.Matrix Spec.Deposits Spec.Work Spec.Mass.
From Verif Require Import Proof.StrideP Proof.SumP Proof.DepositP Proof.AddP Proof.WorkP Proof.GridP Proof.GeomR.
Import ListNotations.
Open Scope R_scope.
Local Notation mc_tetraR := (mc_tetra (D := R) (F := R) (ND := RNum) (NF := RNum) (fun x => x)).
Local Notation worker_runR := (worker_run (D := R) (F := R) (ND := RNum) (NF := RNum) (fun x => x)).

(** A convex combination of corners inside the buffer is inside. *)
Lemma convex_in lo hi w1 w2 w3 w4 a b c d : 0 <= w1 -> 0 <= w2 -> 0 <= w3 -> 0 <= w4 -> w1 + w2 + w3 + w4 = 1 ->
  lo <= a < hi -> lo <= b < hi -> lo <= c < hi -> lo <= d < hi -> lo <= w1 * a + w2 * b + (w3 * c + w4 * d) < hi.
Proof.
  intros H1 H2 H3 H4 HS Ha Hb Hc Hd. split.
  - replace lo with (w1 * lo + w2 * lo + (w3 * lo + w4 * lo)) by (rewrite <- !Rmult_plus_distr_r; replace (w1 + w2 + (w3 + w4)) with 1 by lra; ring).
    pose proof (Rmult_le_compat_l w1 lo a H1). pose proof (Rmult_le_compat_l w2 lo b H2).
    pose proof (Rmult_le_compat_l w3 lo c H3). pose proof (Rmult_le_compat_l w4 lo d H4). lra.
  - set (m := Rmax (Rmax a b) (Rmax c d)).
    assert (a <= m /\ b <= m /\ c <= m /\ d <= m).
    { unfold m. repeat split; eauto using Rle_trans, Rmax_l, Rmax_r. }
    assert (m < hi) by (unfold m; repeat apply Rmax_lub_lt; lra).
    apply Rle_lt_trans with m; [|auto].
    replace m with (w1 * m + w2 * m + (w3 * m + w4 * m)) at 1 by (rewrite <- !Rmult_plus_distr_r; replace (w1 + w2 + (w3 + w4)) with 1 by lra; ring).
    pose proof (Rmult_le_compat_l w1 a m H1). pose proof (Rmult_le_compat_l w2 b m H2).
    pose proof (Rmult_le_compat_l w3 c m H3). pose proof (Rmult_le_compat_l w4 d m H4). lra.
Qed.

Lemma placeable3 w p : okd w = Segment3D -> placeable w p <-> in_buffer w p 0 /\ in_buffer w p 1 /\ in_buffer w p 2.
Proof. intros E. unfold placeable. rewrite E. destruct (image_axes (oproj w)) as [[i j] k]. tauto. Qed.

Lemma tetra_placeable w x a b c d : okd w = Segment3D -> in_tetra (tup x) (tup a) (tup b) (tup c) (tup d) ->
  placeable w a -> placeable w b -> placeable w c -> placeable w d -> placeable w x.
Proof.
  intros EK (w1 & w2 & w3 & w4 & H1 & H2 & H3 & H4 & HS & E). rewrite !placeable3 by auto.
  intros (A0 & A1 & A2) (B0 & B1 & B2) (C0 & C1 & C2) (D0 & D1 & D2).
  unfold tup, combine, padd, pscale in E. injection E as E0 E1 E2.
  unfold in_buffer in *. cbn [vget Z.eqb Pos.eqb] in *. rewrite E0, E1, E2.
  split; [|split]; apply convex_in; auto.
Qed.

Lemma placeable_nonneg w (p : vec3 R) j : okd w = Segment3D -> placeable w p ->
  (Rlt_bool (vget p j) 0) = false.
Proof.
  intros EK HP. rewrite placeable3 in HP by auto. destruct HP as (H0 & H1 & H2).
  unfold in_buffer in *. cbn [vget Z.eqb Pos.eqb] in *. apply Rlt_bool_false. unfold vget.
  destruct (j =? 0)%Z; [tauto|]. destruct (j =? 1)%Z; tauto.
Qed.

Lemma wrap_same (mc : mcarlo R) t pts : okd (mc_sub mc) = Segment3D ->
  Forall (placeable (mc_sub mc)) [c0 t; c1 t; c2 t; c3 t] -> wrap_points (NF := RNum) mc t pts = pts.
Proof.
  intros EK HF. unfold wrap_points. destruct (never_mod mc); [reflexivity|].
  assert (HN : forall j, coord_neg (NF := RNum) t j = false).
  { intros j. unfold coord_neg. cbn [nltb nofZ RNum].
    inversion_clear HF as [|? ? P0 HF1]. inversion_clear HF1 as [|? ? P1 HF2].
    inversion_clear HF2 as [|? ? P2 HF3]. inversion_clear HF3 as [|? ? P3 _].
    rewrite !(placeable_nonneg (mc_sub mc)) by auto. reflexivity. }
  cbn [fold_left]. rewrite !HN. reflexivity.
Qed.

Lemma sum_const n v : (0 <= n)%Z -> sum 0 n (fun _ => v) = IZR n * v.
Proof.
  intros Hn. apply (sum_ind (fun n s => s = IZR n * v)); [lra| |auto].
  intros k s _ _ ->. rewrite plus_IZR. lra.
Qed.

Lemma zseq_snoc n : (0 <= n)%Z -> zseq (n + 1) = zseq n ++ [n].
Proof.
  intros Hn. unfold zseq. replace (Z.to_nat (n + 1)) with (Z.to_nat n + 1)%nat by lia.
  rewrite seq_app, map_app. cbn. repeat f_equal. lia.
Qed.

Lemma filter_all {A} (f : A -> bool) l : (forall a, In a l -> f a = true) -> filter f l = l.
Proof.
  induction l as [|a l IH]; intros H; cbn; auto. rewrite H by now left. f_equal. apply IH. intros; apply H; now right.
Qed.

Lemma flat_map_length_const {A B} (f : A -> list B) k l : (forall a, length (f a) = k) -> length (flat_map f l) = (length l * k)%nat.
Proof. intros H. induction l as [|a l IH]; cbn; auto. rewrite app_length, H, IH. reflexivity. Qed.

Lemma base_cells_length n skip : (0 <= n)%Z -> length (base_cells n skip) = Z.to_nat (n * n * n).
Proof.
  intros Hn. unfold base_cells.
  assert (L : length (zseq n) = Z.to_nat n) by (unfold zseq; rewrite map_length, seq_length; auto).
  rewrite (flat_map_length_const _ (Z.to_nat n * Z.to_nat n)%nat).
  - rewrite L. lia.
  - intros z. rewrite (flat_map_length_const _ (Z.to_nat n)); [rewrite L; lia|]. intros y. rewrite map_length. auto.
Qed.

Section Mass.
Variables (mc : mcarlo R) (xs vs : list (vec3 R)).
Hypothesis HS : segment_setup mc xs.
Let w := mc_sub mc.
Let N := buffer_size w.

Lemma point_ok i : (0 <= i < zlen xs)%Z -> get xs i = Ok (nth (Z.to_nat i) xs zero3) /\ placeable w (nth (Z.to_nat i) xs zero3).
Proof.
  intros Hi. split; [apply (get_ok zero3); lia|]. destruct HS as (_ & _ & _ & _ & _ & HF & _). rewrite Forall_forall in HF.
  apply HF. apply nth_In. unfold zlen in Hi. lia.
Qed.

Lemma tetra_mass c dir v s : cube_room (mc_seg mc + 1) (mc_skip mc) c -> (0 <= dir < 6)%Z ->
  sized (ms_buf s) N -> is_scalar (ms_buf s) = true ->
  exists s', mc_tetraR mc false xs vs v (lattice_index (mc_seg mc + 1) c) dir s = Ok s' /\
    sized (ms_buf s') N /\ is_scalar (ms_buf s') = true /\
    total Value (ms_buf s') N = total Value (ms_buf s) N + (if meets mc xs c dir then IZR (mc_points mc) * v else 0).
Proof.
  intros HR HD H1 H2. destruct HS as (EK & HV & HSk & HP & HL & HF & HU & HCh).
  destruct (tetra_idxs_valid _ _ _ _ HR HD) as (A & B & C & Dd & EI & _ & _ & HI & _).
  cbn [map] in HI. inversion_clear HI as [|? ? I0 HI1]. inversion_clear HI1 as [|? ? I1 HI2].
  inversion_clear HI2 as [|? ? I2 HI3]. inversion_clear HI3 as [|? ? I3 _].
  rewrite <- HL in I0, I1, I2, I3.
  destruct (point_ok _ I0) as [G0 P0], (point_ok _ I1) as [G1 P1], (point_ok _ I2) as [G2 P2], (point_ok _ I3) as [G3 P3].
  unfold mc_tetra, meets. rewrite EI. cbn [bind i0 i1 i2 i3]. rewrite G0, G1, G2, G3. cbn [bind].
  set (pa := nth _ xs zero3) in P0 |- *. set (pb := nth _ xs zero3) in P1 |- *.
  set (pc := nth _ xs zero3) in P2 |- *. set (pd := nth _ xs zero3) in P3 |- *.
  change (tetra_cell_bounds (tetra_init tetra_zero pa pb pc pd) 1) with (tetra_cell_bounds (tetra_init (ms_tet s) pa pb pc pd) 1).
  cbn [nofZ RNum].
  destruct (cb_intersect (tetra_cell_bounds (tetra_init (ms_tet s) pa pb pc pd) 1) (rel_cb mc) (mc_cells mc)); cbn [negb].
  2:{ eexists. split; [reflexivity|]. cbn [ms_buf]. repeat split; auto. lra. }
  specialize (HCh (ms_n s)). rewrite (get_ok []) by lia. cbn [bind].
  assert (HGU : good_unit (mc_points mc) (zn [] (mc_unit mc) (mc_choose mc (ms_n s)))).
  { rewrite Forall_forall in HU. apply HU. unfold zn. apply nth_In. unfold zlen in HCh. lia. }
  destruct HGU as (ps & HPs & HLp & EU). rewrite EU.
  set (t := tetra_init (ms_tet s) pa pb pc pd).
  pose proof (distribute_unit_tetra_inside t ps HPs) as [DL DF].
  assert (DT : forall u, snd (distribute_tetra t u) = snd (tetra_barycenter t)) by (intros; unfold distribute_tetra; destruct (tetra_barycenter t); reflexivity).
  assert (DC : c0 (snd (tetra_barycenter t)) = pa /\ c1 (snd (tetra_barycenter t)) = pb /\ c2 (snd (tetra_barycenter t)) = pc /\ c3 (snd (tetra_barycenter t)) = pd).
  { unfold tetra_barycenter, t. cbn. auto. }
  specialize (DT (distribute_unit ps)).
  destruct (distribute_tetra t (distribute_unit ps)) as [pts t'] eqn:ED. cbn [fst snd] in *.
  destruct DC as (C0 & C1 & C2 & C3). subst t'.
  rewrite wrap_same by (auto; rewrite C0, C1, C2, C3; repeat (constructor; auto)).
  assert (ELP : zlen pts = mc_points mc) by (unfold zlen in *; lia).
  rewrite <- ELP.
  assert (HPP : Forall (placeable w) pts).
  { eapply Forall_impl; [|exact DF]. intros x Hx. cbn beta in Hx.
    eapply (tetra_placeable w x pa pb pc pd); auto. }
  destruct (interpolate_ok w (ms_buf s) pts v (WScalar [])) as (b' & E1 & E2 & E3 & _ & E5); auto.
  { destruct (ms_buf s); [cbn; auto|discriminate]. }
  cbv iota beta. unfold w in E1. rewrite E1. cbn [bind]. eexists. split; [reflexivity|]. cbn [ms_buf].
  split; [auto|]. split; [congruence|]. fold N in E5. rewrite E5. f_equal.
  rewrite (sum_ext _ _ _ (fun _ => v)).
  2:{ intros k Hk. unfold landing, point_value. fold w in EK. rewrite EK. destruct (image_axes (oproj w)) as [[? ?] ?].
      destruct (ms_buf s); [reflexivity|discriminate]. }
  apply sum_const. apply zlen_nonneg.
Qed.

Lemma cell_mass c v s : cube_room (mc_seg mc + 1) (mc_skip mc) c -> sized (ms_buf s) N -> is_scalar (ms_buf s) = true ->
  exists s', for_ 0 6 (fun dir s => mc_tetraR mc false xs vs v (lattice_index (mc_seg mc + 1) c) dir s) s = Ok s' /\
    sized (ms_buf s') N /\ is_scalar (ms_buf s') = true /\
    total Value (ms_buf s') N = total Value (ms_buf s) N + IZR (meeting mc xs [c]) * (IZR (mc_points mc) * v).
Proof.
  intros HR H1 H2. apply wp_ok.
  refine (for_inv (fun m s' => sized (ms_buf s') N /\ is_scalar (ms_buf s') = true /\
    (total Value (ms_buf s') N = total Value (ms_buf s) N +
      IZR (Z.of_nat (length (filter (fun p => meets mc xs (fst p) (snd p)) (list_prod [c] (zseq m))))) * (IZR (mc_points mc) * v))%R) 0 6 _ s _ _ _)%Z; [lia| |].
  - split; [auto|]. split; [auto|]. cbn. lra.
  - intros d s1 Hd (K1 & K2 & K3). apply wp_ok.
    destruct (tetra_mass c d v s1 HR Hd K1 K2) as (s2 & E1 & E2 & E3 & E4).
    exists s2. split; [auto|]. split; [auto|]. split; [auto|]. rewrite E4, K3.
    rewrite zseq_snoc by lia. cbn [list_prod]. rewrite !app_nil_r, map_app, filter_app, app_length. cbn [map filter fst snd].
    destruct (meets mc xs c d); cbn [length]; rewrite Nat2Z.inj_add, plus_IZR; cbn; lra.
Qed.

Lemma meeting_cons c l : meeting mc xs (c :: l) = (meeting mc xs [c] + meeting mc xs l)%Z.
Proof.
  unfold meeting. cbn [list_prod]. rewrite app_nil_r, filter_app, app_length. lia.
Qed.

Lemma list_mass l v : (forall c, In c l -> cube_room (mc_seg mc + 1) (mc_skip mc) c) -> forall s,
  sized (ms_buf s) N -> is_scalar (ms_buf s) = true ->
  exists s', each l (fun c s => for_ 0 6 (fun dir s => mc_tetraR mc false xs vs v (lattice_index (mc_seg mc + 1) c) dir s) s) s = Ok s' /\
    sized (ms_buf s') N /\ is_scalar (ms_buf s') = true /\
    total Value (ms_buf s') N = total Value (ms_buf s) N + IZR (meeting mc xs l) * (IZR (mc_points mc) * v).
Proof.
  induction l as [|c l IH]; intros HR s H1 H2; cbn [each].
  - exists s. repeat split; auto. unfold meeting. cbn. lra.
  - destruct (cell_mass c v s) as (s1 & E1 & E2 & E3 & E4); auto with datatypes. rewrite E1. cbn [bind].
    destruct (IH ltac:(intros; apply HR; now right) s1 E2 E3) as (s2 & K1 & K2 & K3 & K4).
    exists s2. split; [auto|]. split; [auto|]. split; [auto|]. rewrite K4, E4, (meeting_cons c l), plus_IZR. lra.
Qed.
End Mass.

Lemma meeting_perm mc xs l l' : Permutation l l' -> meeting mc xs l = meeting mc xs l'.
Proof.
  induction 1 as [|c l l' _ IH|c d l|l l' l'' _ IH1 _ IH2]; [reflexivity| | |congruence].
  - rewrite (meeting_cons mc xs c l), (meeting_cons mc xs c l'). lia.
  - rewrite (meeting_cons mc xs c (d :: l)), (meeting_cons mc xs d l), (meeting_cons mc xs d (c :: l)), (meeting_cons mc xs c l). lia.
Qed.
Lemma meeting_app mc xs l l' : meeting mc xs (l ++ l') = (meeting mc xs l + meeting mc xs l')%Z.
Proof.
  induction l as [|c l IH]; [reflexivity|].
  cbn [app]. rewrite (meeting_cons mc xs c (l ++ l')), (meeting_cons mc xs c l). lia.
Qed.
Lemma meeting_flat mc xs (f : Z -> list cell) n : (0 <= n)%Z ->
  IZR (meeting mc xs (flat_map f (zseq n))) = sum 0 n (fun i => IZR (meeting mc xs (f i))).
Proof.
  intros Hn. apply (sum_ind (fun n s => IZR (meeting mc xs (flat_map f (zseq n))) = s)); auto.
  intros k s Hk _ E. rewrite zseq_snoc by lia. rewrite flat_map_app. cbn [flat_map]. rewrite app_nil_r, meeting_app, plus_IZR. congruence.
Qed.

Lemma base_cell_room seg skip c : (0 < skip <= seg)%Z -> In c (base_cells (seg / skip) skip) -> cube_room (seg + 1) skip c.
Proof.
  intros Hs Hc. unfold base_cells in Hc. rewrite in_flat_map in Hc. destruct Hc as (z & Hz & Hc). rewrite in_zseq in Hz.
  rewrite in_flat_map in Hc. destruct Hc as (y & Hy & Hc). rewrite in_zseq in Hy.
  rewrite in_map_iff in Hc. destruct Hc as (x & <- & Hx). rewrite in_zseq in Hx.
  pose proof (Z.mul_div_le seg skip ltac:(lia)). unfold cube_room.
  assert (K : forall a, (0 <= a < seg / skip)%Z -> (0 <= a * skip /\ a * skip + skip < seg + 1)%Z) by (intros; nia).
  destruct (K x Hx), (K y Hy), (K z Hz). repeat split; lia.
Qed.

Theorem mass_thm mc xs vs countWidth workers (b : Z -> contents R) :
  segment_setup mc xs -> (1 <= workers)%Z -> (0 < countWidth)%Z ->
  (forall id, (0 <= id < workers)%Z -> sized (b id) (buffer_size (mc_sub mc)) /\ is_scalar (b id) = true) ->
  exists out : Z -> contents R,
    (forall id, (0 <= id < workers)%Z ->
       worker_runR mc false countWidth workers id (b id) xs vs = Ok (out id) /\ sized (out id) (buffer_size (mc_sub mc))) /\
    let gained := sum 0 workers (fun id => total Value (out id) (buffer_size (mc_sub mc)) - total Value (b id) (buffer_size (mc_sub mc))) in
    let n := (mc_seg mc / mc_skip mc)%Z in
    let cubes := base_cells n (mc_skip mc) in
    let unit := (IZR (mc_cells mc) / IZR countWidth) ^ 3 * IZR (mc_skip mc) ^ 3 in
    gained = IZR (meeting mc xs cubes) * unit / 6 /\
    ((forall c d, In c cubes -> (0 <= d < 6)%Z -> meets mc xs c d = true) -> gained = IZR n ^ 3 * unit).
Proof.
  intros HS Hw Hcw Hb.
  assert (HSk : (0 < mc_skip mc <= mc_seg mc)%Z) by apply HS.
  assert (HPt : (0 < mc_points mc)%Z) by apply HS.
  set (n := (mc_seg mc / mc_skip mc)%Z). assert (Hn : (0 < n)%Z) by (apply Z.div_str_pos; lia).
  pose proof (workers_partition n (mc_skip mc) workers Hn ltac:(lia) ltac:(lia)) as HPerm.
  set (v := scaled_val (D := R) (F := R) (ND := RNum) mc false (pt_val (ND := RNum) false (mc_cells mc) countWidth)).
  assert (EV : IZR (mc_points mc) * v = (IZR (mc_cells mc) / IZR countWidth) ^ 3 * IZR (mc_skip mc) ^ 3 / 6).
  { unfold v, scaled_val, pt_val. cbn [nmul ndiv nofZ RNum]. rewrite !mult_IZR.
    assert (IZR (mc_points mc) <> 0) by (apply not_0_IZR; lia). assert (IZR countWidth <> 0) by (apply not_0_IZR; lia).
    field. auto. }
  assert (HRun : forall id, (0 <= id < workers)%Z -> exists o,
    worker_runR mc false countWidth workers id (b id) xs vs = Ok o /\ sized o (buffer_size (mc_sub mc)) /\
    total Value o (buffer_size (mc_sub mc)) - total Value (b id) (buffer_size (mc_sub mc)) =
      IZR (meeting mc xs (worker_list n (mc_skip mc) workers id)) * (IZR (mc_points mc) * v)).
  { intros id Hid. rewrite worker_run_list by auto. fold n v. destruct (Hb id Hid) as [B1 B2].
    destruct (list_mass mc xs vs HS (worker_list n (mc_skip mc) workers id) v) with (s := MS (D := R) (b id) 0 (tetra_zero (NF := RNum)) (tetra_zero (NF := RNum)))
      as (s' & E1 & E2 & E3 & E4); auto.
    - intros c Hc. apply base_cell_room; auto. fold n. eapply Permutation_in; [exact HPerm|].
      rewrite in_flat_map. exists id. rewrite in_zseq. auto.
    - rewrite E1. cbn [bind]. eexists. split; [reflexivity|]. split; [auto|]. rewrite E4. cbn [ms_buf]. lra. }
  set (out := fun id => match worker_runR mc false countWidth workers id (b id) xs vs with Ok o => o | _ => Scalar [] end).
  assert (HO : forall id, (0 <= id < workers)%Z -> worker_runR mc false countWidth workers id (b id) xs vs = Ok (out id) /\
    sized (out id) (buffer_size (mc_sub mc)) /\
    total Value (out id) (buffer_size (mc_sub mc)) - total Value (b id) (buffer_size (mc_sub mc)) =
      IZR (meeting mc xs (worker_list n (mc_skip mc) workers id)) * (IZR (mc_points mc) * v)).
  { intros id Hid. destruct (HRun id Hid) as (o & E & K). unfold out. rewrite E. auto. }
  exists out. split; [intros id Hid; destruct (HO id Hid) as (K1 & K2 & _); auto|].
  cbv zeta. set (unit := (IZR (mc_cells mc) / IZR countWidth) ^ 3 * IZR (mc_skip mc) ^ 3) in *.
  rewrite (sum_ext _ _ _ (fun id => IZR (meeting mc xs (worker_list n (mc_skip mc) workers id)) * (IZR (mc_points mc) * v)))
    by (intros id Hid; apply HO; auto).
  rewrite sum_scal_r, <- meeting_flat by lia. rewrite (meeting_perm mc xs _ _ HPerm), EV.
  split; [lra|]. intros HM.
  assert (EM : meeting mc xs (base_cells n (mc_skip mc)) = (6 * (n * n * n))%Z).
  { unfold meeting. rewrite filter_all.
    - rewrite prod_length, base_cells_length by lia. unfold zseq. rewrite map_length, seq_length. lia.
    - intros [c d] Hcd. apply in_prod_iff in Hcd. rewrite in_zseq in Hcd. apply HM; tauto. }
  rewrite EM, !mult_IZR. lra.
Qed.
