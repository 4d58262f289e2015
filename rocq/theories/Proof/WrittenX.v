(** Small runs of renderMain for velocities and derivatives. *)
From Coq Require Import ZArith String List Bool Reals Lra Lia ZifyBool ZifyNat Permutation.
From Flocq Require Import Core.Raux.
From Verif Require Import Base.Res Base.ResFacts Base.Num Model.Geom Model.GridDeriv Model.Config Model.Density Model.Box Model.Render Model.SheetIO Model.Main Model.Manager Model.RenderMain.
From Verif Require Import Spec.Geometry Spec.GeomDefs Spec.Fields Spec.FieldDefs Spec.Work Spec.Deposits Spec.Workspace Spec.Renders Spec.Segments Spec.ManagerEx Spec.RenderMains Spec.RenderMainEx Spec.VelRenders Spec.VelEx Spec.Writtens Spec.WrittenEx.
From Verif Require Import Proof.GridDerivP Proof.ManagerX Proof.VelImages Proof.VelX Proof.RenderMainX Proof.WrittenP.
Import ListNotations.
Open Scope Z_scope.
Local Notation shows := RenderMains.shows.

Lemma eight_numbers o w : box_numbers (ND := RNum) eight_pixels (wind_cube o w) 8%R = Ok (8, 1).
Proof. reflexivity. Qed.
Lemma cube_axis o w a : In a [0; 1; 2] -> vget (bx_o (wind_cube o w)) a = IZR o /\ vget (bx_w (wind_cube o w)) a = w.
Proof. intros [<-|[<-|[<-|[]]]]; split; reflexivity. Qed.

Lemma eight_shows q o w n b : (IZR n - 1 <= w < IZR n)%R -> pixels_of 8 eight_pixels q (wind_cube o w) b ->
  rb_cb b = CB (V3 o o o) (V3 n n n) /\ rb_proj b = None.
Proof.
  intros Hw (cells & pts & EN & S). rewrite eight_numbers in EN. injection EN as <- <-. destruct S as (E1 & E2 & E3 & HB & E4 & _).
  assert (HC : forall a, In a [0; 1; 2] -> vget (origin (rb_cb b)) a = o /\ vget (width (rb_cb b)) a = n).
  { intros a Ha. specialize (HB a Ha). cbv zeta in HB. rewrite E3 in HB. destruct (cube_axis o w a Ha) as [EO EW]. rewrite EO, EW in HB.
    set (f := vget (origin (rb_cb b)) a) in *. set (k := vget (width (rb_cb b)) a) in *. replace (8 / 8)%R with 1%R in HB by lra.
    assert (f < o + 1) by (apply lt_IZR; rewrite plus_IZR; lra). assert (o < f + 1) by (apply lt_IZR; lra). assert (EF : f = o) by lia. rewrite EF in *. split; [reflexivity|].
    assert (o + k - 1 < o + n) by (apply lt_IZR; rewrite (plus_IZR o n); lra). assert (o + n - 1 < o + k) by (apply lt_IZR; rewrite minus_IZR, plus_IZR; lra). lia. }
  pose proof (HC 0 ltac:(cbn; tauto)) as H0. pose proof (HC 1 ltac:(cbn; tauto)) as H1. pose proof (HC 2 ltac:(cbn; tauto)) as H2.
  split.
  - destruct (rb_cb b) as [[o0 o1 o2] [w0 w1 w2]]. cbn [vget Z.eqb Pos.eqb origin width v0 v1 v2] in H0, H1, H2.
    destruct H0 as [-> ->], H1 as [-> ->], H2 as [-> ->]. reflexivity.
  - rewrite E4. destruct (projectable q); reflexivity.
Qed.

Lemma eight_faces b : rb_cells b = 8 -> faces_ok 8 1 b wind_sheet (sf_xs wind_sheet) (unit_pool (fun _ _ => quarter) 1).
Proof.
  intros HB. right. intros c dir us u a Hd Hc Hus Hu Ha. change (s_seg (sf_hd wind_sheet) + 1) with 2 in *. apply wind_corner in Hc. subst c.
  rewrite (wind_units us u Hus Hu). pose proof (wind_sample dir a Hd Ha) as HS. cbv zeta in *. rewrite HB.
  destruct (wind_floor 8 _ ltac:(lia) HS) as [-> _]. destruct HS as [-> |[-> | ->]]; lra.
Qed.

Lemma eight_sections o w : 0 <= o < 8 -> (0 < w)%R -> Forall2 (fun b l => exists f, b = Some f /\ accepted_sections 8 f l) [Some (BF [] (wind_bounds o w))] [wind_bounds o w].
Proof.
  intros Ho Hw. assert (HO : (0 <= IZR o < 8)%R) by (split; [apply IZR_le|apply IZR_lt]; lia). constructor; [|constructor]. eexists. split; [reflexivity|]. exists [], (wind_bounds o w). split; [reflexivity|]. split; [constructor|].
  constructor; [|constructor]. split; [reflexivity|]. cbn [snd]. unfold box_check_init, wind_cube. cbn [bx_w bx_o v0 v1 v2]. rn.
  assert (O : outside (ND := RNum) (IZR o) 8%R = false).
  { unfold outside. rn. destruct (Rle_bool_spec 8 (IZR o)), (Rlt_bool_spec (IZR o) 0); cbn; auto; lra. }
  rewrite O. destruct (Rle_bool_spec w 0); [lra|]. reflexivity.
Qed.
Lemma eight_good o w : 0 <= o < 8 -> (0 < w <= 7)%R -> Forall (fun c => good_config 8 eight_pixels (snd c)) (concat [wind_bounds o w]).
Proof.
  intros Ho Hw. assert (HO : (0 <= IZR o < 8)%R) by (split; [apply IZR_le|apply IZR_lt]; lia). constructor; [|constructor]. split; [left; reflexivity|]. exists 8, 1. split; [apply eight_numbers|]. split; [lia|].
  intros a Ha. destruct (cube_axis o w a Ha) as [EO EW]. cbn [snd wind_bounds]. rewrite EO, EW. change (IZR (8 - 1)) with 7%R. lra.
Qed.

Lemma wind_in name q o w : 0 <= o < 8 -> (0 < w <= 7)%R ->
  In (name, q) [("Velocity"%string, Velocity); ("VelocityDivergence"%string, VelocityDivergence); ("VelocityCurl"%string, VelocityCurl)] -> wind_input name q o w.
Proof.
  intros Ho Hw HQ. split; [lra|]. split; [discriminate|]. split; [reflexivity|]. split; [exact HQ|]. split; [apply eight_sections; lra || lia|]. split; [discriminate|].
  split; [now apply eight_good|]. split; [lia|]. split; [intros; exact quarter_in|]. split; [intros; lia|]. split; [intros; apply Permutation_refl|].
  intros file _. split; [reflexivity|]. split; [exact wind_sheet_ok|]. split; [reflexivity|].
  intros c cells pts b Hc EN S. cbn in Hc. destruct Hc as [<-|[]]. cbn [snd] in *. rewrite eight_numbers in EN. injection EN as <- <-.
  destruct S as (E1 & E2 & _). rewrite E2. now apply eight_faces.
Qed.
Lemma still_in o w : 0 <= o < 8 -> (0 < w <= 7)%R -> still_input "DensityGradient" DensityGradient o w.
Proof.
  intros Ho Hw. split; [lra|]. split; [discriminate|]. split; [reflexivity|]. split; [right; split; reflexivity|]. split; [apply eight_sections; lra || lia|]. split; [discriminate|].
  split; [now apply eight_good|]. split; [lia|]. split; [intros; exact quarter_in|]. split; [intros; lia|]. split; [intros; apply Permutation_refl|].
  intros file _. split; [reflexivity|]. split; [exact (proj1 wind_sheet_ok)|]. split; [reflexivity|].
  intros c cells pts b Hc EN S. cbn in Hc. destruct Hc as [<-|[]]. cbn [snd] in *. rewrite eight_numbers in EN. injection EN as <- <-.
  destruct S as (E1 & E2 & _). rewrite E2. now apply eight_faces.
Qed.

(** A cube of width 11 / 2 has six pixels along each axis, one of width 3 / 2 two. *)
Lemma six_wide q o c b : In c (concat [wind_bounds o (11 / 2)]) -> pixels_of 8 eight_pixels q (snd c) b -> wide 5 b /\ 30 <= volume (image_size b).
Proof.
  intros [<-|[]] S. destruct (eight_shows q o (11 / 2) 6 b ltac:(lra) S) as [E1 E2]. split.
  - intros a Ha. rewrite E1. destruct Ha as [<-|[<-|[<-|[]]]]; cbn; lia.
  - unfold image_size. rewrite E2, E1. cbn. lia.
Qed.
Lemma two_thin q o b : pixels_of 8 eight_pixels q (wind_cube o (3 / 2)) b -> volume (image_size b) < 30 /\ thin b 0 /\ thin b 2.
Proof. intros S. destruct (eight_shows q o (3 / 2) 2 b ltac:(lra) S) as [E1 E2]. unfold image_size, thin. rewrite E2, E1. cbn. lia. Qed.
Lemma four_thin q o b : pixels_of 8 eight_pixels q (wind_cube o (7 / 2)) b -> thin b 1.
Proof.
  intros S. destruct (eight_shows q o (7 / 2) 4 b ltac:(lra) S) as [E1 E2]. destruct S as (cells & pts & EN & (EC & _)).
  rewrite eight_numbers in EN. injection EN as <- <-. unfold thin. rewrite EC, E1. cbn. lia.
Qed.

(** ** Particles of one pixel *)
(** The particles lie in pixel 1 of the simulation, which is pixel 2 of a box that starts in pixel 7. *)
Lemma wind_seen b dir c : rb_cells b = 8 -> rb_cb b = CB (V3 7 7 7) (V3 6 6 6) -> rb_proj b = None -> 0 <= dir < 6 -> in_grid (6, 6, 6) c ->
  seen 8 b (sample (sf_xs wind_sheet) 2 1 (0, 0, 0) dir quarter) c = true <-> c = (2, 2, 2).
Proof.
  intros E1 E2 E3 Hd Hc. unfold seen. rewrite E1, E2, E3. destruct c as [[x y] z]. unfold in_grid in Hc. cbn [origin].
  pose proof (fun a Ha => proj1 (wind_floor 8 _ ltac:(lia) (wind_sample dir a Hd Ha))) as F. cbv zeta in F.
  unfold grid_cell. change (vget (V3 7 7 7) 0) with 7. change (vget (V3 7 7 7) 1) with 7. change (vget (V3 7 7 7) 2) with 7.
  rewrite !F by (cbn; tauto). unfold cell_is. rewrite !andb_true_iff, !Z.eqb_eq.
  assert (G : forall t, 0 <= t < 6 -> ((1 - (7 + t)) mod 8 = 0 <-> t = 2)).
  { intros t Ht. assert (t = 0 \/ t = 1 \/ t = 2 \/ t = 3 \/ t = 4 \/ t = 5) as K by lia. destruct K as [-> |[-> |[-> |[-> |[-> | ->]]]]]; split; intros H; reflexivity || discriminate H. }
  rewrite !G by lia. split; [intros [[-> ->] ->]; reflexivity|intros H; injection H as -> -> ->; auto].
Qed.

Lemma wind_cells b us c : rb_cells b = 8 -> rb_cb b = CB (V3 7 7 7) (V3 6 6 6) -> rb_proj b = None -> in_grid (6, 6, 6) c ->
  Forall2 (fun s ps => uses_of (s_seg (sf_hd (fst s))) 1 (unit_pool (fun _ _ => quarter) 1) ps) [(wind_sheet, sf_xs wind_sheet)] us ->
  (c = (2, 2, 2) -> cell_velocities 8 1 b [(wind_sheet, sf_xs wind_sheet)] us c <> []) /\
  (c <> (2, 2, 2) -> cell_velocities 8 1 b [(wind_sheet, sf_xs wind_sheet)] us c = []).
Proof.
  intros E1 E2 E3 HG HF. inversion HF as [|? ps ? us' [HP HI] HN]; subst. inversion HN; subst. cbn [fst] in *. change (s_seg (sf_hd wind_sheet)) with 1 in *.
  cbn [cell_velocities]. rewrite app_nil_r. unfold sheet_velocities. cbn [fst snd]. change (s_seg (sf_hd wind_sheet) + 1) with 2. rewrite Forall_forall in HI.
  assert (HU : forall p, In p ps -> snd p = [quarter]).
  { intros p Hp. specialize (HI p Hp). destruct p as [cd U]. cbn [snd] in *. unfold unit_pool in HI. pose proof HI as HI2. rewrite in_map_iff in HI2. destruct HI2 as (bi & EB & _).
    assert (HL : zlen U = 1) by (rewrite <- EB; reflexivity).
    destruct U as [|u [|u' U]]; try (unfold zlen in HL; cbn [List.length] in HL; lia). f_equal. apply (wind_units [u]); auto with datatypes. }
  assert (HD : forall p, In p ps -> fst (fst p) = (0, 0, 0) /\ 0 <= snd (fst p) < 6).
  { intros p Hp. assert (Hin : In (fst p) (list_prod (base_cells (1 / 1) 1) (zseq 6))) by (eapply Permutation_in; [exact HP|now apply in_map]).
    destruct (fst p) as [k d]. rewrite in_prod_iff in Hin. cbn [fst snd]. destruct Hin as [I1 I2]. split.
    - change (base_cells (1 / 1) 1) with [(0, 0, 0)] in I1. destruct I1 as [<-|[]]. reflexivity.
    - unfold zseq in I2. rewrite in_map_iff in I2. destruct I2 as (n & <- & I2). apply in_seq in I2. lia. }
  split; intros Hc.
  - assert (H0 : In ((0, 0, 0), 0) (map fst ps)).
    { eapply Permutation_in; [apply Permutation_sym; exact HP|]. vm_compute. tauto. }
    rewrite in_map_iff in H0. destruct H0 as (p & EP & Hp). intros EN.
    assert (EU : use_velocities 8 b (sf_xs wind_sheet) (sf_vs wind_sheet) 2 1 p c = []).
    { destruct (use_velocities 8 b (sf_xs wind_sheet) (sf_vs wind_sheet) 2 1 p c) as [|x r] eqn:EX; [reflexivity|].
      assert (HX : In x (flat_map (fun p => use_velocities 8 b (sf_xs wind_sheet) (sf_vs wind_sheet) 2 1 p c) ps)).
      { apply in_flat_map. exists p. split; [exact Hp|]. rewrite EX. now left. }
      rewrite EN in HX. destruct HX. }
    unfold use_velocities in EU. rewrite (HU p Hp), EP in EU. cbn [fst snd filter] in EU.
    rewrite (proj2 (wind_seen b 0 c E1 E2 E3 ltac:(lia) HG) Hc) in EU. discriminate.
  - rewrite flat_map_concat_map. replace (map _ ps) with (map (fun _ : use => @nil (vec3 R)) ps); [clear; induction ps; [reflexivity|exact IHps]|].
    apply map_ext_in. intros p Hp. unfold use_velocities. rewrite (HU p Hp). destruct (HD p Hp) as [-> Hd]. cbn [filter].
    destruct (seen 8 b _ c) eqn:ES; [|reflexivity]. apply (wind_seen b _ c E1 E2 E3 Hd HG) in ES. congruence.
Qed.

Lemma wind_mean q b m : pixels_of 8 eight_pixels q (wind_cube 7 (11 / 2)) b ->
  mean_images 8 1 (unit_pool (fun _ _ => quarter) (rb_pts b)) [(wind_sheet, sf_xs wind_sheet)] b m ->
  slope b (v0 m) 1 (2, 3, 2) = (-2)%R /\ slope b (v1 m) 1 (2, 3, 2) = (- (10 / 3))%R.
Proof.
  intros S (us & HU & HM). destruct (eight_shows q 7 (11 / 2) 6 b ltac:(lra) S) as [E2 E3].
  destruct S as (cells & pts & EN & (E1 & EP & EW & _)). rewrite eight_numbers in EN. injection EN as <- <-. rewrite EP in HU.
  assert (HV : forall c, in_grid (6, 6, 6) c -> pixel b (v0 m) c = (if cell_eqb c (2, 2, 2) then 3%R else 0%R) /\ pixel b (v1 m) c = (if cell_eqb c (2, 2, 2) then 5%R else 0%R)).
  { intros c Hc. assert (EI : image_size b = (6, 6, 6)) by (unfold image_size; rewrite E3, E2; reflexivity). rewrite EI in HM. specialize (HM c Hc). cbv zeta in HM.
    unfold pixel, at_cell. rewrite E2. change (wcell (width (CB (V3 7 7 7) (V3 6 6 6)))) with (6, 6, 6).
    assert (HB : box_depth b = 1) by (unfold box_depth; now rewrite E3). rewrite HB in HM. destruct HM as (-> & -> & _).
    destruct (wind_cells b us c E1 E2 E3 Hc HU) as [C1 C2].
    assert (HL : Forall (fun s : sheet_file R R * list (vec3 R) => (0 < 1 <= s_seg (sf_hd (fst s))) /\ zlen (sf_vs (fst s)) = (s_seg (sf_hd (fst s)) + 1) * (s_seg (sf_hd (fst s)) + 1) * (s_seg (sf_hd (fst s)) + 1) /\ all_move wind (fst s)) [(wind_sheet, sf_xs wind_sheet)]).
    { constructor; [|constructor]. cbn [fst]. split; [cbn; lia|]. split; [reflexivity|]. repeat constructor. }
    pose proof (velocities_uniform 8 1 (unit_pool (fun _ _ => quarter) 1) b _ us wind c HL HU) as HA.
    destruct (cell_eqb_spec c (2, 2, 2)) as [EC|EC].
    - specialize (C1 EC). destruct (cell_velocities 8 1 b _ us c) as [|p r]; [congruence|]. rewrite !(mean_uniform _ wind) by (auto; discriminate). cbn [wind v0 v1]. lra.
    - rewrite (C2 EC). auto. }
  unfold slope. cbv zeta. rewrite E2. change (wcell (width (CB (V3 7 7 7) (V3 6 6 6)))) with (6, 6, 6). rewrite !slope_inner by (auto; cbn; lia). unfold central. cbn [Z.eqb Pos.eqb axis_of].
  unfold pixel in HV. rewrite E2 in HV. change (wcell (width (CB (V3 7 7 7) (V3 6 6 6)))) with (6, 6, 6) in HV.
  change (moved 1 (2, 3, 2) (3 + 2)) with (2, 5, 2). change (moved 1 (2, 3, 2) (3 + 1)) with (2, 4, 2).
  change (moved 1 (2, 3, 2) (3 - 1)) with (2, 2, 2). change (moved 1 (2, 3, 2) (3 - 2)) with (2, 1, 2). rewrite EW.
  pose proof (HV (2, 5, 2) ltac:(cbn; lia)) as [A5 B5]. pose proof (HV (2, 4, 2) ltac:(cbn; lia)) as [A4 B4].
  pose proof (HV (2, 2, 2) ltac:(cbn; lia)) as [A2 B2]. pose proof (HV (2, 1, 2) ltac:(cbn; lia)) as [A1 B1].
  rewrite A5, A4, A2, A1, B5, B4, B2, B1. cbn [cell_eqb Z.eqb Pos.eqb andb]. lra.
Qed.

Lemma slopes_differ q b m : pixels_of 8 eight_pixels q (wind_cube 7 (11 / 2)) b ->
  mean_images 8 1 (unit_pool (fun _ _ => quarter) (rb_pts b)) [(wind_sheet, sf_xs wind_sheet)] b m ->
  inner b (2, 3, 2) /\ slope b (v0 m) 1 (2, 3, 2) <> slope b (v1 m) 1 (2, 3, 2).
Proof.
  intros S M. destruct (wind_mean q b m S M) as [-> ->]. split; [|lra]. destruct (eight_shows q 7 (11 / 2) 6 b ltac:(lra) S) as [E2 _].
  unfold inner. rewrite E2. cbn. lia.
Qed.

Lemma velocity_input o w : 0 <= o < 8 -> (0 < w <= 7)%R -> wind_input "Velocity" Velocity o w.
Proof. intros Ho Hw. apply wind_in; auto. now left. Qed.
Lemma curl_input o w : 0 <= o < 8 -> (0 < w <= 7)%R -> wind_input "VelocityCurl" VelocityCurl o w.
Proof. intros Ho Hw. apply wind_in; auto. right. right. now left. Qed.
Lemma divergence_input o w : 0 <= o < 8 -> (0 < w <= 7)%R -> wind_input "VelocityDivergence" VelocityDivergence o w.
Proof. intros Ho Hw. apply wind_in; auto. right. now left. Qed.
Lemma no_pixels : 0 <= 0 < 8.
Proof. lia. Qed.
Lemma seven_pixels : 0 <= 7 < 8.
Proof. lia. Qed.
Lemma wide_enough : (0 < 11 / 2 <= 7)%R.
Proof. lra. Qed.
Lemma short_enough : (0 < 3 / 2 <= 7)%R.
Proof. lra. Qed.
