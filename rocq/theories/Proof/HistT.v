(** Whole files, and witnesses. *)
From Coq Require Import String.
From Coq Require Import ZArith Reals List Lia Lra Bool Psatz Permutation.
From Coq Require Import ZifyBool ZifyNat.
From Flocq Require Import Core.Raux IEEE754.BinarySingleNaN.
From Verif Require Import Base.Res Base.ResFacts Base.Stride Base.Num Base.IEEE Base.Convert Model.Geom Model.GridDeriv Model.Hist Model.Render
  Spec.Histograms Spec.HistDefs Spec.Geometry Spec.GeomDefs Spec.Work Proof.GridP Proof.GeomR Proof.StrideP Proof.WorkP Proof.HistP Proof.HistQ Proof.HistS Proof.HistW.
Import ListNotations.
Open Scope list_scope.
Open Scope Z_scope.
Local Notation idR := (fun x : R => x).

(** ** Schedules *)
Lemma hist_schedule bins n (prog : nat -> list (list Z -> list Z)) b0 counts0 :
  let result i := fold_left (fun b u => u b) (prog i) (b0 i) in
  0 <= bins -> zlen counts0 = bins -> (forall i, zlen (result i) = bins) ->
  let add := add_counts bins in
  (forall s, hreach _ _ add n prog b0 counts0 s -> hfinal _ _ n s ->
     zlen (h_counts s) = bins /\
     forall j, 0 <= j < bins -> zn 0 (h_counts s) j = zn 0 counts0 j + zsum (map (fun i => zn 0 (result i) j) (seq 0 n))) /\
  (forall s, hreach _ _ add n prog b0 counts0 s -> ~ hfinal _ _ n s -> exists s', hstep _ _ add n prog s s') /\
  (forall ex, ex O = hinit _ _ b0 counts0 -> ~ (forall k, hstep _ _ add n prog (ex k) (ex (Datatypes.S k)))).
Proof.
  intros result HB HC HR add. split; [|split].
  - intros s H1 H2. destruct (hreach_final _ _ add n prog b0 counts0 s H1 H2) as (order & HP & E).
    destruct (each_add_counts bins result order HB ltac:(intros; rewrite HR; lia) counts0 ltac:(lia)) as (g' & E1 & E2 & E3).
    assert (K : g' = h_counts s) by (unfold add, result in *; congruence). subst g'. split; [congruence|].
    intros j Hj. rewrite E3 by auto. f_equal. now apply (sum_perm (fun i => zn 0 (result i) j)).
  - intros s H1 H2. apply (hreach_progress _ _ add n prog b0 counts0 (fun h => zlen h = bins) (fun c => zlen c = bins)) in H2; auto.
    intros h c Hh Hc. destruct (add_counts_ok bins h c HB ltac:(lia) ltac:(lia)) as (c' & E1 & E2 & _). exists c'. split; auto. congruence.
  - intros ex H0. apply (hreach_finite _ _ add n prog b0 counts0 (fun h => zlen h = bins) (fun c => zlen c = bins)); auto.
    intros h c Hh Hc. destruct (add_counts_ok bins h c HB ltac:(lia) ltac:(lia)) as (c' & E1 & E2 & _). exists c'. split; auto. congruence.
Qed.

(** ** A whole file *)
Lemma list_prod_app {A B} (l1 l2 : list A) (m : list B) : list_prod (l1 ++ l2) m = list_prod l1 m ++ list_prod l2 m.
Proof. induction l1 as [|a l IH]; cbn [app list_prod]; auto. now rewrite IH, app_assoc. Qed.
Lemma list_prod_perm {A B} (l1 l2 : list A) (m : list B) : Permutation l1 l2 -> Permutation (list_prod l1 m) (list_prod l2 m).
Proof.
  induction 1; cbn [list_prod]; auto.
  - now apply Permutation_app_head.
  - rewrite !app_assoc. apply Permutation_app_tail, Permutation_app_comm.
  - eauto using Permutation_trans.
Qed.
Lemma filter_perm {A} (f : A -> bool) l1 l2 : Permutation l1 l2 -> Permutation (filter f l1) (filter f l2).
Proof.
  induction 1; cbn [filter]; auto.
  - destruct (f x); auto.
  - destruct (f x), (f y); auto. constructor.
  - eauto using Permutation_trans.
Qed.
Lemma filter_ext_in' {A} (f g : A -> bool) l : (forall a, In a l -> f a = g a) -> filter f l = filter g l.
Proof. intros H. induction l as [|a l IH]; cbn; auto. rewrite H by now left. rewrite IH; auto. intros; apply H; now right. Qed.

Lemma zsum_app' a b : zsum (a ++ b) = zsum a + zsum b.
Proof. unfold zsum. induction a as [|x a IH]; cbn [app fold_right]; lia. Qed.
Lemma zsum_perm l l' : Permutation l l' -> zsum l = zsum l'.
Proof. unfold zsum. induction 1; cbn [fold_right]; lia. Qed.

(** The same samples for all bins. *)
Lemma concat_work_all {A B} (P : A -> B -> Prop) (jobs : nat -> list A) n (f : Z -> B -> Z) (val : nat -> Z -> Z) (ok : Z -> Prop) :
  (forall i, (i < n)%nat -> exists ss, Forall2 P (jobs i) ss /\ forall j, ok j -> val i j = zsum (map (f j) ss)) ->
  exists ss, Forall2 P (flat_map jobs (seq 0 n)) ss /\ forall j, ok j -> zsum (map (fun i => val i j) (seq 0 n)) = zsum (map (f j) ss).
Proof.
  induction n as [|n IH]; intros H.
  - exists []. split; [constructor|reflexivity].
  - destruct IH as (ss & F & E); [intros; apply H; lia|]. destruct (H n ltac:(lia)) as (s1 & F1 & E1).
    exists (ss ++ s1). split; [rewrite seq_S, flat_map_app, Nat.add_0_l; cbn [flat_map]; rewrite app_nil_r; now apply Forall2_app|].
    intros j Hj. rewrite seq_S, !map_app, !zsum_app', Nat.add_0_l, (E j Hj). cbn [map zsum fold_right]. rewrite (E1 j Hj). unfold zsum. lia.
Qed.

Lemma seq_zseq n : map Z.of_nat (seq 0 n) = zseq (Z.of_nat n).
Proof. unfold zseq. now rewrite Nat2Z.id. Qed.

Section File.
Variables (points : Z) (hd : hist_sheet R R) (xs : list (vec3 R)) (box : hist_box R) (info : hist_info R)
  (g : hist_grid R) (grid : list R) (units : list (list (vec3 R))) (quantity : string).

Lemma flat_prod (work : Z -> list cell) inside n :
  flat_map (fun i => list_prod (filter inside (work (Z.of_nat i))) (zseq 6)) (seq 0 n) =
  list_prod (filter inside (flat_map work (zseq (Z.of_nat n)))) (zseq 6).
Proof.
  rewrite <- seq_zseq. generalize (seq 0 n) as l. induction l as [|i l IH]; cbn [flat_map map]; auto.
  rewrite IH. rewrite filter_app, list_prod_app. reflexivity.
Qed.

Lemma hist_file n choose (prog : nat -> list (list Z -> list Z)) b0 counts0 :
  hist_setup points hd 1 xs box info g grid units -> Config.to_lower quantity = "density"%string -> (1 <= n)%nat ->
  (forall i k, 0 <= choose i k < zlen units) -> zlen counts0 = hi_bins info ->
  let result i := fold_left (fun b u => u b) (prog i) (b0 i) in
  (forall i, (i < n)%nat -> chan_histogram idR idR log10R hd 1 xs box info g grid units quantity (Z.of_nat n) (Z.of_nat i) (choose i) = Ok (result i)) ->
  (forall i, zlen (result i) = hi_bins info) ->
  exists inside ss, (forall c, In c (base_cells (hs_seg hd) 1) -> (inside c = true <-> base_inside hd xs c)) /\
    Forall2 (tetra_samples units hd 1 xs box g grid) (list_prod (filter inside (base_cells (hs_seg hd) 1)) (zseq 6)) ss /\
    forall s, hreach _ _ (add_counts (hi_bins info)) n prog b0 counts0 s -> hfinal _ _ n s ->
      zlen (h_counts s) = hi_bins info /\
      forall j, 0 <= j < hi_bins info -> zn 0 (h_counts s) j = zn 0 counts0 j + zsum (map (info_count info j) ss).
Proof.
  intros HS HQ Hn HCh HC0 result HR HRL.
  pose proof HS as (_ & _ & Hseg & _ & _ & _ & _ & _ & (HB & _) & _).
  set (w := hs_grid hd). exists (inside_b hd 1 xs).
  assert (E1 : forall k, work_of hd 1 (Z.of_nat n) k = cube_list (hs_seg hd) w 1 (Z.of_nat n) k).
  { intros k. unfold work_of. fold w. now rewrite Z.div_1_r. }
  destruct (concat_work_all (tetra_samples units hd 1 xs box g grid)
    (fun i => list_prod (filter (inside_b hd 1 xs) (cube_list (hs_seg hd) w 1 (Z.of_nat n) (Z.of_nat i))) (zseq 6)) n
    (fun j ss => info_count info j ss) (fun i j => zn 0 (result i) j) (fun j => 0 <= j < hi_bins info)) as (ss & F & J).
  - intros i Hi. destruct (chan_histogram_ok points hd 1 xs box info g grid units HS (choose i) (HCh i) quantity (Z.of_nat n) (Z.of_nat i) HQ ltac:(lia))
      as (h & sss & H1 & H2 & H3 & H4).
    rewrite HR in H1 by auto. injection H1 as <-. exists sss. rewrite <- E1. split; auto.
  - rewrite flat_prod in F.
    assert (P : Permutation (list_prod (filter (inside_b hd 1 xs) (flat_map (cube_list (hs_seg hd) w 1 (Z.of_nat n)) (zseq (Z.of_nat n)))) (zseq 6))
      (list_prod (filter (inside_b hd 1 xs) (base_cells (hs_seg hd) 1)) (zseq 6))) by (apply list_prod_perm, filter_perm, cube_lists_all; lia).
    destruct (Permutation_Forall2 P F) as (ss' & P' & F'). exists ss'. split; [|split; auto].
    + intros c Hc. apply (inside_b_ok points hd 1 xs box info g grid units HS). apply (base_room points hd 1 xs box info g grid units HS (choose O) (HCh O)).
      now rewrite Z.div_1_r.
    + intros s H1 H2. destruct (hist_schedule (hi_bins info) n prog b0 counts0 ltac:(lia) HC0 HRL) as (S1 & _).
      destruct (S1 s H1 H2) as [L E]. split; auto. intros j Hj. rewrite E by auto. f_equal. etransitivity; [exact (J j Hj)|].
      apply zsum_perm. now apply Permutation_map.
Qed.
End File.

(** ** A tetrahedron that crosses the edge of the box *)
Definition wx_info : hist_info R := HI 0%R 10%R 5 "Linear".
Definition wx_sheet : hist_sheet R R := HS (V3 0%R 0%R 0%R) (V3 100%R 100%R 100%R) 100%R 2 1.
Definition wx_xs : list (vec3 R) := V3 99%R 50%R 50%R :: repeat (V3 1%R 50%R 50%R) 7.
Definition wx_box : hist_box R := HB (V3 40%R 40%R 40%R) (V3 20%R 20%R 20%R) [0;0;0;0;0].
Definition wx_grid : hist_grid R := HG (V3 0%R 0%R 0%R) (V3 100%R 100%R 100%R) (V3 1 1 1) 100%R 100%R.
Definition wx_units : list (list (vec3 R)) := [distribute_unit [V3 (1/4)%R (1/8)%R (1/8)%R]].

Ltac three k := let E := fresh in assert (E : k = 0 \/ k = 1 \/ k = 2) by lia; destruct E as [E|[E|E]]; subst k; cbn.

Lemma wx_setup : hist_setup 1 wx_sheet 1 wx_xs wx_box wx_info wx_grid [7%R] wx_units.
Proof.
  repeat split; try reflexivity; try (cbn; lia); try (cbn; lra); try (intros; discriminate);
    try (match goal with H : 0 <= ?k < 3 |- _ => three k; lra || lia end).
  - unfold wx_xs, wx_sheet, in_box_R. cbn [hs_total repeat].
    repeat (constructor; [intros k Hk; three k; lra|]). constructor.
  - constructor; [|constructor]. eexists. split; [|split; [|reflexivity]]; [|reflexivity].
    constructor; [|constructor]. unfold unit_cube. cbn. lra.
Qed.

Lemma wx_sample : exists ds, get_densities idR idR wx_sheet 1 wx_xs wx_box wx_grid [7%R] wx_units 0 0 0 = Ok (ds, [true]).
Proof.
  destruct (get_densities_ok 1 wx_sheet 1 wx_xs wx_box wx_info wx_grid [7%R] wx_units wx_setup (0, 0, 0) 0 0) as (ss & E & T & _).
  { unfold cube_room. cbn. lia. } { lia. } { cbn. lia. }
  change (lattice_index (hs_grid wx_sheet) (0, 0, 0)) with 0 in E. rewrite E.
  destruct T as (A & B & C & D & u & (HT & _) & Hu & F). cbn [fst snd] in HT.
  assert (HT' : tetra_idxs (lattice_index (hs_grid wx_sheet) (0, 0, 0)) (hs_grid wx_sheet) 1 0 = Ok (I4 1 3 7 0)) by (vm_compute; reflexivity).
  rewrite HT' in HT. injection HT as EA EB EC ED.
  unfold particle in F. change (hs_grid wx_sheet) with 2 in F. rewrite <- EA, <- EB, <- EC, <- ED in F. clear - Hu F.
  destruct Hu as [<-|[]]. unfold wx_units, distribute_unit in F. cbn [map] in F.
  inversion F as [|q s l l' (p & (S1 & _) & EP) F' ]. subst. inversion F'. subst. exists (map fst [s]). cbn [map]. do 3 f_equal.
  apply S1. clear S1 F F'.
  assert (FU : fold_unit (V3 (1 / 4) (1 / 8) (1 / 8))%R = V3 (1 / 4)%R (1 / 8)%R (1 / 8)%R).
  { unfold fold_unit. cbn [v0 v1 v2]. rn. repeat rb; try lra; reflexivity. }
  rewrite FU in EP. cbn in EP. destruct p as [px py pz]. unfold tup in EP. cbn in EP. injection EP as E1 E2 E3.
  assert (px = 50 /\ py = 50 /\ pz = 50)%R as (-> & -> & ->) by lra.
  split.
  - intros k Hk. exists 0. three k; lra.
  - exists (0, 0, 0). repeat split; try (cbn; lia); exists 0; cbn; lra.
Qed.

(** Every particle is within 1 of the plane x = 0; the sample counts for a box
    whose points are at least 40 away from that plane. *)
Lemma crossing_bad : exists points hd xs box info g grid units ds,
  hist_setup points hd 1 xs box info g grid units /\
  Forall (fun v => exists m : Z, Rabs (v0 v - IZR m * hs_total hd) <= 1)%R xs /\
  (forall x, strictly_in (hs_total hd) (v0 (hb_origin box)) (v0 (hb_span box)) x -> forall m : Z, Rabs (x - IZR m * hs_total hd) > 39)%R /\
  get_densities idR idR hd 1 xs box g grid units 0 0 0 = Ok (ds, [true]).
Proof.
  destruct wx_sample as [ds E]. exists 1, wx_sheet, wx_xs, wx_box, wx_info, wx_grid, [7%R], wx_units, ds.
  split; [exact wx_setup|]. split; [|split; [|exact E]].
  - unfold wx_xs. constructor; [exists 1; cbn; apply Rabs_le; lra|]. cbn [repeat].
    repeat (constructor; [exists 0; cbn; apply Rabs_le; lra|]). constructor.
  - cbn. intros x [k Hk] m. assert (K : m + k <= 0 \/ 1 <= m + k) by lia.
    destruct K as [K|K]; apply IZR_le in K; rewrite plus_IZR in K;
      [rewrite Rabs_pos_eq by lra|rewrite Rabs_left by lra]; lra.
Qed.

(** ** A segment whose width is not a multiple of the skip *)
Definition wp_sheet : hist_sheet R R := HS (V3 0%R 0%R 0%R) (V3 0%R 0%R 0%R) 100%R 4 3.
Lemma not_multiple_panics xs box info g grid units choose : zlen xs = 64 -> Forall (in_box_R 100) xs ->
  chan_histogram idR idR log10R wp_sheet 2 xs box info g grid units "Density" 1 0 choose = Panic.
Proof.
  intros HL HX. unfold chan_histogram. change (negb _) with false. cbv iota.
  rewrite cube_loop_list by (cbn; lia).
  replace (cube_list _ _ _ _ _) with [(0,0,0); (0,2,0); (0,0,2); (0,2,2)] by (vm_compute; reflexivity).
  cbn [each]. unfold cube_visit at 1.
  destruct (cube_intersects_ok wp_sheet 2 xs (0, 0, 0)) as (b & E1 & E2).
  { intros k Hk. three k; lra. }
  { cbn. lia. } { cbn. lia. }
  { rewrite Forall_forall in HX. apply HX. cbn. unfold zn. apply nth_In. unfold zlen in HL. lia. }
  destruct b.
  - destruct (proj1 E2 eq_refl 0 ltac:(lia)) as [k Hk]. cbn in Hk. lra.
  - rewrite E1. cbn [bind negb]. reflexivity.
Qed.

(** ** Rounding *)
Lemma float_sample_lost : exists (x mx : f64) (info : hist_info f64),
  info = HI (#0)%num mx 3 "Linear" /\ (x <? mx)%num = true /\ (x >=? #0)%num = true /\
  forall log10, histogram log10 [x] [true] info [0; 0; 0]%Z = Ok [0; 0; 0]%Z.
Proof.
  exists (f64lit 9007199254740991 (-53)), (f64lit 1 0), (HI (#0)%num (f64lit 1 0) 3 "Linear").
  split; [reflexivity|]. split; [vm_compute; reflexivity|]. split; [vm_compute; reflexivity|].
  intros log10. vm_compute. reflexivity.
Qed.
Lemma nan_sample_panics : exists info : hist_info f64,
  info = HI (#0)%num (#1)%num 3 "Linear" /\ forall log10, histogram log10 [B754_nan] [true] info [0; 0; 0]%Z = Panic.
Proof. eexists. split; [reflexivity|]. intros log10. vm_compute. reflexivity. Qed.

(** A grid of 17 pixels per side, one pixel from the corner of a box of width
    100 with 30 pixels per side. *)
Definition wg_grid : hist_grid f64 :=
  let pw := (#100 / #30)%num in
  HG (V3 (#1 * pw) (#1 * pw) (#1 * pw))%num (V3 (#17 * pw) (#17 * pw) (#17 * pw))%num (V3 17 17 17)%Z pw (#100)%num.
Lemma grid_index_rounds : exists (v : vec3 f32) (hd : hist_sheet f64 f32) (box : hist_box f64),
  forall grid : list f64, zlen grid = (17 * 17 * 17)%Z ->
    grid_index to_f64 wg_grid v = (17 + 17 * 17 + 17 * (17 * 17))%Z /\
    sample_density to_f64 to_f32 hd box wg_grid grid v = Panic.
Proof.
  pose (x := f32lit 60 0). pose (o := f64lit 50 0). pose (sp := f64lit 20 0). pose (z := f32lit 0 0).
  pose (v := V3 x x x). pose (hd := HS (V3 z z z) (V3 z z z) (f64lit 100 0) 2 1). pose (box := HB (V3 o o o) (V3 sp sp sp) [0]).
  exists v, hd, box. intros grid HG.
  assert (E1 : grid_index to_f64 wg_grid v = 17 + 17 * 17 + 17 * (17 * 17)) by (vm_compute; reflexivity).
  assert (E2 : grid_index to_f64 wg_grid (vmap (wrap_sample (to_f32 (hs_total hd))) v) = 5219) by (vm_compute; reflexivity).
  assert (E3 : box_contains to_f64 box (vmap (wrap_sample (to_f32 (hs_total hd))) v) (hs_total hd) = true) by (vm_compute; reflexivity).
  clearbody v hd box. split; [exact E1|]. unfold sample_density. rewrite E3, E2. cbn [negb].
  change (5219 >=? 0) with true. cbv iota.
  unfold get. change (5219 <? 0) with false. cbv iota.
  replace (nth_error grid (Z.to_nat 5219)) with (@None f64); [reflexivity|].
  symmetry. apply nth_error_None. unfold zlen in HG. lia.
Qed.

(** ** Forms used in the Props file *)
Lemma bins_divide lg mn mx bins : 0 < bins -> (mn < mx)%R -> (lg = true -> (0 < mn)%R) ->
  forall x, (lg = true -> (0 < x)%R) ->
    ((mn <= x < mx)%R -> exists! j, 0 <= j < bins /\ in_bin lg mn mx bins j x) /\
    (forall j, 0 <= j < bins -> in_bin lg mn mx bins j x -> (mn <= x < mx)%R).
Proof.
  intros HB HM HP x D. split; [now apply one_bin|]. intros j. now apply no_bin.
Qed.
Lemma centers_thm (info : hist_info R) : info_ok info ->
  exists cs, hist_centers log10R pow10R info = Ok cs /\ zlen cs = hi_bins info /\
    forall j, 0 <= j < hi_bins info ->
      zn 0%R cs j = bin_middle (is_log info) (hi_min info) (hi_max info) (hi_bins info) j /\
      in_bin (is_log info) (hi_min info) (hi_max info) (hi_bins info) j (zn 0%R cs j).
Proof.
  intros HI. destruct (centers_ok info HI) as (cs & E & L & H). exists cs. split; auto. split; auto.
  intros j Hj. rewrite (H j Hj). split; auto. destruct HI as (? & ? & ?). now apply middle_in_bin.
Qed.
Lemma densities_thm points hd skip xs box info g grid units c dir draw :
  hist_setup points hd skip xs box info g grid units ->
  cube_room (hs_grid hd) skip c -> 0 <= dir < 6 -> 0 <= draw < zlen units ->
  exists ss, get_densities idR idR hd skip xs box g grid units draw (lattice_index (hs_grid hd) c) dir = Ok (map fst ss, map snd ss) /\
    tetra_samples units hd skip xs box g grid (c, dir) ss /\ zlen ss = points.
Proof.
  intros HS HC HD HU. destruct (get_densities_ok _ _ _ _ _ _ _ _ _ HS c dir draw HC HD HU) as (ss & E & T & _).
  exists ss. split; auto. split; auto. destruct T as (A & B & C & D & u & _ & Iu & F).
  destruct HS as (_ & _ & _ & _ & _ & _ & _ & _ & _ & _ & _ & _ & _ & HUn). rewrite Forall_forall in HUn.
  destruct (HUn u Iu) as (ps & _ & HL & Eu). unfold zlen in *. assert (FL : length u = length ss) by (clear - F; induction F; cbn; congruence). rewrite <- FL, Eu. unfold distribute_unit. now rewrite map_length.
Qed.
Lemma worker_thm points hd skip xs box info g grid units :
  hist_setup points hd skip xs box info g grid units ->
  forall choose : Z -> Z, (forall n, 0 <= choose n < zlen units) ->
  forall quantity workers worker, Config.to_lower quantity = "density"%string -> 1 <= workers ->
  exists h sss cubes, chan_histogram idR idR log10R hd skip xs box info g grid units quantity workers worker choose = Ok h /\
    zlen h = hi_bins info /\
    (forall c, In c cubes <-> In c (base_cells (hs_seg hd / skip) skip) /\
       lattice_index (hs_grid hd) c mod (skip * skip * skip * workers) = worker /\ base_inside hd xs c) /\ NoDup cubes /\
    Forall2 (tetra_samples units hd skip xs box g grid) (list_prod cubes (zseq 6)) sss /\
    forall j, 0 <= j < hi_bins info -> zn 0 h j = zsum (map (info_count info j) sss).
Proof.
  intros HS choose HC quantity workers worker HQ HW.
  destruct (chan_histogram_ok _ _ _ _ _ _ _ _ _ HS choose HC quantity workers worker HQ HW) as (h & sss & E & L & F & J).
  exists h, sss, (filter (inside_b hd skip xs) (work_of hd skip workers worker)). split; auto. split; auto. split; [|split; [|split; auto]].
  - intros c. rewrite filter_In. unfold work_of, cube_list. rewrite filter_In. split.
    + intros [[H1 H2] H3]. split; auto. split; [now apply Z.eqb_eq|].
      apply (inside_b_ok _ _ _ _ _ _ _ _ _ HS c); auto. now apply (base_room _ _ _ _ _ _ _ _ _ HS choose HC).
    + intros (H1 & H2 & H3). split; [split; auto; now apply Z.eqb_eq|].
      apply (inside_b_ok _ _ _ _ _ _ _ _ _ HS c); auto. now apply (base_room _ _ _ _ _ _ _ _ _ HS choose HC).
  - apply NoDup_filter. unfold work_of, cube_list. apply NoDup_filter. apply base_cells_nodup. apply HS.
Qed.
