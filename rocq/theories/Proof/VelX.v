(** Velocities: projections divide by the depth, and two small runs. *)
From Coq Require Import ZArith String List Bool Reals Lra Lia ZifyBool ZifyNat Permutation.
From Flocq Require Import Core.Raux.
From Verif Require Import Base.Res Base.ResFacts Base.Num Model.Geom Model.GridDeriv Model.Density Model.Box Model.Render Model.SheetIO Model.Manager.
From Verif Require Import Spec.Geometry Spec.GeomDefs Spec.Fields Spec.FieldDefs Spec.Work Spec.Deposits Spec.Workspace Spec.Renders Spec.ManagerEx Spec.VelRenders Spec.VelEx.
From Verif Require Import Proof.SheetFall Proof.SheetFrame Proof.SheetPass Proof.WorkP Proof.ManagerBox Proof.ManagerP Proof.ManagerX Proof.VelImages.
Import ListNotations.
Open Scope R_scope.

(** Uniform motion in a projection: no pixel with points shows the velocity. *)
Lemma shows_projection L skip units l b v out : shows L skip units l b v out -> (2 <= box_depth b)%Z -> v0 v <> 0 ->
  exists us, Forall2 (fun s ps => uses_of (s_seg (sf_hd (fst s))) skip units ps) l us /\
    forall c, in_grid (image_size b) c -> cell_velocities L skip b l us c <> [] ->
      nth (Z.to_nat (cell_index (image_size b) c)) (v0 out) 0 <> v0 v.
Proof.
  intros (us & H1 & H2) HD HV. exists us. split; [exact H1|]. intros c Hc HN. destruct (H2 c Hc) as (-> & _).
  destruct (cell_velocities L skip b l us c) as [|p r]; [congruence|]. intros E. apply HV.
  assert (2 <= IZR (box_depth b)) by (apply IZR_le; lia).
  assert (E2 : v0 v = v0 v * IZR (box_depth b)) by (rewrite <- E at 2; field; lra). nra.
Qed.

Theorem projection_wrong L skip q workers rnd choose order fs (sheet : string -> sheet_file R R) X files boxes grid v :
  files <> [] -> boxes <> [] -> (1 <= workers)%Z -> requires_velocity q = Ok true ->
  (forall bi j, unit_cube (rnd bi j)) -> (forall k ri id j, (0 <= choose k ri id j < 64)%Z) ->
  (forall k ri, Permutation (order k ri) (zseq workers)) ->
  Forall (fun b => vel_box_ok L b /\ empty_vectors b /\ (30 <= volume (image_size b))%Z) boxes ->
  (forall file, In file files -> fs file = Some (sheet file) /\ vel_sheet_ok L skip (sheet file) (X file) /\ all_move v (sheet file) /\
     s_grid (sf_hd (sheet file)) = grid /\
     forall b, In b boxes -> faces_ok L skip b (sheet file) (X file) (unit_pool rnd (rb_pts b))) ->
  v0 v <> 0 ->
  exists bs, render_job (ND := RNum) (NF := RNum) (fun x => x) (fun x => x) fs workers rnd choose order files boxes q skip = Ok bs /\
    Forall2 (fun b b' => exists vecs num out, rb_vals b' = Vector vecs num /\
      finalized_velocity (D := R) (F := R) (NF := RNum) (fun x => x) vecs num = Ok out /\
      ((2 <= box_depth b)%Z -> exists us,
        Forall2 (fun s ps => uses_of (s_seg (sf_hd (fst s))) skip (unit_pool rnd (rb_pts b)) ps) (map (fun file => (sheet file, X file)) files) us /\
        forall c, in_grid (image_size b) c -> cell_velocities L skip b (map (fun file => (sheet file, X file)) files) us c <> [] ->
          nth (Z.to_nat (cell_index (image_size b) c)) (v0 out) 0 <> v0 v)) boxes bs.
Proof.
  intros H1 H2 H3 H4 H5 H6 H7 HB HF HV.
  destruct (uniform_ok L skip q workers rnd choose order fs sheet X files boxes grid v) as (bs & E & R); auto.
  exists bs. split; [exact E|]. eapply Forall2_imp; [|exact R]. cbv beta. intros b b' (vecs & num & out & E1 & E2 & E3).
  exists vecs, num, out. split; [auto|]. split; [auto|]. intros HD. now apply (shows_projection L skip _ _ b v out).
Qed.

(** ** The runs *)
Lemma wind_sheet_ok : vel_sheet_ok 8 1 wind_sheet (sf_xs wind_sheet).
Proof. split; [exact real_sheet_ok|reflexivity]. Qed.
Lemma wind_box_ok : vel_box_ok 8 wind_box /\ empty_vectors wind_box /\ (30 <= volume (image_size wind_box))%Z.
Proof.
  split; [|split; [reflexivity|cbn; lia]].
  split; [cbn; lia|]. split; [cbn; lra|]. split; [cbn; lia|]. split; [|split; [exact I|split; [split; reflexivity|reflexivity]]].
  intros a Ha. apply axis_cases in Ha. destruct Ha as [-> |[-> | ->]]; cbn; lia.
Qed.
Lemma wind_slab_ok : vel_box_ok 8 wind_slab /\ empty_vectors wind_slab /\ (30 <= volume (image_size wind_slab))%Z.
Proof.
  split; [|split; [reflexivity|cbn; lia]].
  split; [cbn; lia|]. split; [cbn; lra|]. split; [cbn; lia|]. split; [|split; [cbn; lia|split; [split; reflexivity|reflexivity]]].
  intros a Ha. apply axis_cases in Ha. destruct Ha as [-> |[-> | ->]]; cbn; lia.
Qed.
Lemma wind_faces units : faces_ok 8 1 wind_box wind_sheet (sf_xs wind_sheet) units.
Proof. left. eexists. split; [exact real_overlap|reflexivity]. Qed.

Lemma wind_units us u : In us (unit_pool (fun _ _ => quarter) 1) -> In u us -> u = quarter.
Proof.
  unfold unit_pool. rewrite in_map_iff. intros (bi & <- & _) Hu.
  change (zseq 1) with [0%Z] in Hu. cbn [map distribute_unit] in Hu. destruct Hu as [<-|[]].
  unfold fold_unit, quarter. cbn [v0 v1 v2 nltb nadd nsub nofZ RNum]. repeat (rewrite Rlt_bool_false by lra; cbv iota). reflexivity.
Qed.

Lemma wind_corner c : cube_room 2 1 c -> c = (0, 0, 0)%Z.
Proof. destruct c as [[x y] z]. unfold cube_room. intros H. assert (x = 0 /\ y = 0 /\ z = 0)%Z as (-> & -> & ->) by lia. reflexivity. Qed.

Lemma wind_sample dir a : (0 <= dir < 6)%Z -> In a [0; 1; 2]%Z ->
  let y := vget (sample (sf_xs wind_sheet) 2 1 (0, 0, 0)%Z dir quarter) a in y = 5 / 4 \/ y = 3 / 2 \/ y = 7 / 4.
Proof.
  intros Hd Ha. assert (Hd' : (dir = 0 \/ dir = 1 \/ dir = 2 \/ dir = 3 \/ dir = 4 \/ dir = 5)%Z) by lia.
  apply axis_cases in Ha. destruct Hd' as [-> |[-> |[-> |[-> |[-> | ->]]]]], Ha as [-> |[-> | ->]]; cbv -[Rmult Rplus Rminus Rdiv IZR]; lra.
Qed.

Lemma wind_floor cells y : (0 < cells)%Z -> y = 5 / 4 \/ y = 3 / 2 \/ y = 7 / 4 -> Zfloor (y * 8 / 8) = 1%Z /\ Zfloor (y * 4 / 8) = 0%Z.
Proof. intros _ H. split; apply Zfloor_imp; destruct H as [-> |[-> | ->]]; simpl; lra. Qed.

Lemma slab_faces : faces_ok 8 1 wind_slab wind_sheet (sf_xs wind_sheet) (unit_pool (fun _ _ => quarter) 1).
Proof.
  right. intros c dir us u a Hd Hc Hus Hu Ha. change (s_seg (sf_hd wind_sheet) + 1)%Z with 2%Z in *. apply wind_corner in Hc. subst c.
  rewrite (wind_units us u Hus Hu). pose proof (wind_sample dir a Hd Ha) as HS. cbv zeta in *.
  change (IZR (rb_cells wind_slab)) with 8. destruct (wind_floor 8 _ ltac:(lia) HS) as [-> _]. destruct HS as [-> |[-> | ->]]; lra.
Qed.

(** In both runs some point lies in the cell the cube is in. *)
Lemma wind_here b us c : (b = wind_box /\ c = (0, 0, 0)%Z) \/ (b = wind_slab /\ c = (1, 1, 0)%Z) ->
  Forall2 (fun s ps => uses_of (s_seg (sf_hd (fst s))) 1 (unit_pool (fun _ _ => quarter) 1) ps) [(wind_sheet, sf_xs wind_sheet)] us ->
  cell_velocities 8 1 b [(wind_sheet, sf_xs wind_sheet)] us c <> [].
Proof.
  intros Hb HF. inversion HF as [|? ps ? us' [HP HI] HN]; subst. inversion HN; subst. cbn [fst] in *. change (s_seg (sf_hd wind_sheet)) with 1%Z in *.
  cbn [cell_velocities]. rewrite app_nil_r. unfold sheet_velocities. cbn [fst snd]. change (s_seg (sf_hd wind_sheet) + 1)%Z with 2%Z.
  assert (H0 : In ((0, 0, 0), 0)%Z (map fst ps)).
  { eapply Permutation_in; [apply Permutation_sym; exact HP|]. vm_compute. tauto. }
  rewrite in_map_iff in H0. destruct H0 as ([[c' d'] U] & E & Hp). cbn [fst] in E. injection E as -> ->.
  rewrite Forall_forall in HI. specialize (HI _ Hp). cbn [snd] in HI.
  assert (HU : U = [quarter]).
  { assert (HL : zlen U = 1%Z).
    { unfold unit_pool in HI. rewrite in_map_iff in HI. destruct HI as (bi & <- & _). reflexivity. }
    destruct U as [|u [|u' U]]; try (unfold zlen in HL; cbn [List.length] in HL; lia). f_equal. apply (wind_units [u]); auto with datatypes. }
  subst U. intros EN.
  assert (EU : use_velocities 8 b (sf_xs wind_sheet) (sf_vs wind_sheet) 2 1 ((0, 0, 0)%Z, 0%Z, [quarter]) c = []).
  { destruct (use_velocities 8 b (sf_xs wind_sheet) (sf_vs wind_sheet) 2 1 ((0, 0, 0)%Z, 0%Z, [quarter]) c) as [|x r] eqn:EX; [reflexivity|].
    assert (HX : In x (flat_map (fun p => use_velocities 8 b (sf_xs wind_sheet) (sf_vs wind_sheet) 2 1 p c) ps)).
    { apply in_flat_map. eexists. split; [exact Hp|]. match type of EX with ?t = _ => change (In x t) end. rewrite EX. now left. }
    rewrite EN in HX. destruct HX. }
  unfold use_velocities in EU. cbn [fst snd filter] in EU.
  assert (HSn : seen 8 b (sample (sf_xs wind_sheet) 2 1 (0, 0, 0)%Z 0 quarter) c = true); [|rewrite HSn in EU; discriminate].
  pose proof (wind_sample 0 0 ltac:(lia) ltac:(cbn; auto)) as S0. pose proof (wind_sample 0 1 ltac:(lia) ltac:(cbn; auto)) as S1.
  pose proof (wind_sample 0 2 ltac:(lia) ltac:(cbn; auto)) as S2. cbv zeta in S0, S1, S2.
  destruct (wind_floor 8 _ ltac:(lia) S0) as [A0 B0]. destruct (wind_floor 8 _ ltac:(lia) S1) as [A1 B1]. destruct (wind_floor 8 _ ltac:(lia) S2) as [A2 B2].
  destruct Hb as [[-> ->]|[-> ->]]; unfold seen, grid_cell.
  - cbn [wind_box rb_cells rb_proj rb_cb]. rewrite B0, B1, B2. reflexivity.
  - cbn [wind_slab rb_cells rb_proj rb_cb image_axes]. rewrite A0, A1, A2. reflexivity.
Qed.

Lemma wind_run b c : (b = wind_box /\ c = (0, 0, 0)%Z) \/ (b = wind_slab /\ c = (1, 1, 0)%Z) ->
  exists b' vecs num out, render_job (ND := RNum) (NF := RNum) (fun x => x) (fun x => x) (fun _ => Some wind_sheet) 1
    (fun _ _ => quarter) (fun _ _ _ _ => 0%Z) (fun _ _ => [0%Z]) ["sheet"%string] [b] Velocity 1 = Ok [b'] /\
    rb_vals b' = Vector vecs num /\ finalized_velocity (D := R) (F := R) (NF := RNum) (fun x => x) vecs num = Ok out /\
    let k := Z.to_nat (cell_index (image_size b) c) in let d := IZR (box_depth b) in
    nth k (v0 out) 0 = 3 / d /\ nth k (v1 out) 0 = 5 / d /\ nth k (v2 out) 0 = 7 / d.
Proof.
  intros Hb.
  destruct (uniform_ok 8 1 Velocity 1 (fun _ _ => quarter) (fun _ _ _ _ => 0%Z) (fun _ _ => [0%Z]) (fun _ => Some wind_sheet)
              (fun _ => wind_sheet) (fun _ => sf_xs wind_sheet) ["sheet"%string] [b] 8 wind) as (bs & E & H); try easy.
  - intros _ _. exact quarter_in.
  - constructor; [|constructor]. destruct Hb as [[-> _]|[-> _]]; [exact wind_box_ok|exact wind_slab_ok].
  - intros file _. split; [reflexivity|]. split; [exact wind_sheet_ok|]. split; [repeat constructor|]. split; [reflexivity|].
    intros b1 [<-|[]]. destruct Hb as [[-> _]|[-> _]]; [apply wind_faces|apply slab_faces].
  - inversion H as [|? b' ? l (vecs & num & out & E1 & E2 & us & E3 & E4) HL]; subst. inversion HL; subst.
    exists b', vecs, num, out. split; [exact E|]. split; [exact E1|]. split; [exact E2|].
    assert (HG : in_grid (image_size b) c) by (destruct Hb as [[-> ->]|[-> ->]]; cbn; lia).
    specialize (E4 c HG). cbv zeta in *. cbn [map] in *.
    assert (E3' : Forall2 (fun s ps => uses_of (s_seg (sf_hd (fst s))) 1 (unit_pool (fun _ _ => quarter) 1) ps) [(wind_sheet, sf_xs wind_sheet)] us).
    { destruct Hb as [[-> _]|[-> _]]; exact E3. }
    pose proof (wind_here b us c Hb E3') as HN. destruct (cell_velocities 8 1 b _ us c) as [|p r]; [congruence|].
    cbn [wind v0 v1 v2] in E4. destruct E4 as (-> & -> & ->). unfold Rdiv. repeat split; ring.
Qed.
