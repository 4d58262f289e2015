(** Witnesses and examples for renderMain. *)
From Coq Require Import ZArith String List Reals Bool Lia Lra Permutation.
From Coq Require Import ZifyBool ZifyNat.
From Flocq Require Import Core.Raux.
From Verif Require Import Base.Res Base.ResFacts Base.Num Base.IEEE Base.Convert Model.Geom Model.GridDeriv Model.Cosmo Model.Config Model.Density Model.Box Model.Render Model.SheetIO Model.Main Model.Manager Model.RenderMain
  Spec.GeomDefs Spec.Matrix Spec.Fields Spec.FieldDefs Spec.Work Spec.Deposits Spec.Renders Spec.Segments Spec.RenderMains Spec.ManagerEx Spec.RenderMainEx Spec.Catalogs Proof.CatalogP Proof.ManagerX Proof.RenderMainP Proof.RenderMainQ.
Import ListNotations.
Open Scope Z_scope.
Local Notation realK := (CC PI gravity megaparsec solar_mass (177653 / 1000)%R).
Ltac rn := cbn [nadd nsub nmul ndiv nopp nabs nltb nleb neqb nofZ ntrunc nfloor RNum] in *.

Lemma whole_image_bad :
  match main_job [] [("all"%string, cube_config (nofZ 10) ""); ("map"%string, cube_config (nofZ 10) "Z")] with
  | Ok [(_, (loc, _, c)); (_, (loc', _, c'))] =>
      lc_pixelSpan loc = V3 5 5 5 /\ value_count c = 125 /\ total_value c = 63 /\ value_at c 0 >= 6300 /\ value_at c 4 = 0 /\
      lc_pixelSpan loc' = V3 5 5 5 /\ value_count c' = 25 /\ total_value c' = 12
  | _ => False
  end.
Proof. vm_compute. repeat split; discriminate. Qed.

Lemma same_name_bad :
  match main_job [("a"%string, ball_config5)] [("a"%string, cube_config (nofZ 7) "")] with
  | Ok ([(n, (loc, _, _)); (n', (loc', _, _))] as out) => n = n' /\ lc_pixelSpan loc = V3 2 2 2 /\ lc_pixelSpan loc' = V3 3 3 3 /\
      match found out n with Some (l, _, _) => lc_pixelSpan l = V3 3 3 3 | None => False end
  | _ => False
  end.
Proof. vm_compute. repeat split. Qed.

Lemma negative_ball_bad : let ball := BallC (nofZ 5) (nofZ 5) (nofZ 5) (nofZ (-5)) (nofZ 1) in
  match ball_check_init (ND := F64Num) ball (nofZ 10) with
  | Some b => forall pts, new_box (ND := F64Num) (nofZ 10) pts 4 Density (ball_box b (nofZ 10)) = Panic
  | None => False
  end.
Proof. vm_compute. reflexivity. Qed.

Lemma outside_zero (x : R) : outside (ND := RNum) x 0%R = true.
Proof. unfold outside. rn. destruct (Rle_bool_spec 0 x), (Rlt_bool_spec x 0); cbn; auto; lra. Qed.

Lemma zero_sections b l : accepted_sections 0 b l -> l = [].
Proof.
  intros (l1 & l2 & -> & F1 & F2). inversion F1 as [|s c ? ? (_ & ball & E & _)]; subst.
  - inversion F2 as [|s c ? ? (_ & E)]; subst; [reflexivity|]. exfalso. revert E. unfold box_check_init. rewrite !outside_zero.
    repeat (destruct (nleb _ _); [discriminate|]). discriminate.
  - exfalso. revert E. unfold ball_check_init. rewrite !outside_zero. destruct (neqb _ _); discriminate.
Qed.

Theorem first_unreadable numCores rnd choose order first files con names bounds fs : 0 <= numCores -> fs first = None ->
  render_main (ND := RNum) (NF := RNum) (fun x => x) (fun x => x) fs numCores rnd choose order (first :: files) con names bounds = Fatal.
Proof.
  intros Hn Hf. unfold render_main, render_boxes. change (get (first :: files) 0) with (Ok first). cbn [bind]. rewrite Hf. cbn [first_total]. rn.
  destruct (all_bounds_thm 0 bounds) as [HB HF].
  destruct (all_bounds (ND := RNum) bounds 0%R) as [configs| | |] eqn:E; cbn [bind]; try reflexivity;
    try (exfalso; assert (X := HF ltac:(discriminate)); discriminate).
  assert (configs = []) as ->.
  { destruct (proj1 (HB configs) eq_refl) as (parts & F & ->). clear - F. induction F as [|b l bs ls (f & _ & A) F IH]; [reflexivity|]. cbn. now rewrite (zero_sections _ _ A). }
  destruct (quantity_from_string (rn_quantity names)) as [q [|]]; [|reflexivity]. cbn [negb map_res bind].
  rewrite (unreadable (fun x => x) (fun x => x) fs numCores rnd choose order (first :: files) [] q); [reflexivity|exact Hn|].
  exists first. split; [now left|exact Hf].
Qed.

(** ** The real example *)
Lemma real_shows b pts : shows 8 4 pts Density real_config b -> b = RB (rb_cb real_box) pts 4 (8 / 4)%R None (Scalar (repeat 0%R 64)).
Proof.
  intros (E1 & E2 & E3 & HB & E4 & E5).
  assert (HC : forall a, In a [0; 1; 2] -> vget (origin (rb_cb b)) a = 0 /\ vget (width (rb_cb b)) a = 4).
  { intros a Ha. specialize (HB a Ha). cbv zeta in HB. rewrite E3 in HB.
    assert (EO : vget (bx_o real_config) a = 0%R /\ vget (bx_w real_config) a = 6%R) by (destruct Ha as [<-|[<-|[<-|[]]]]; split; reflexivity).
    destruct EO as [EO EW]. rewrite EO, EW in HB. set (f := vget (origin (rb_cb b)) a) in *. set (n := vget (width (rb_cb b)) a) in *.
    replace (8 / 4)%R with 2%R in HB by lra.
    assert (Z1 : forall i j, (IZR i * 2 < IZR j * 2)%R -> i < j) by (intros i j H; apply lt_IZR; lra).
    assert (f < 1) by (apply Z1; lra). assert (0 < f + 1) by (apply Z1; lra).
    assert (f + n - 1 < 4) by (apply Z1; lra). assert (3 < f + n) by (apply Z1; lra). lia. }
  pose proof (HC 0 ltac:(cbn; tauto)) as H0. pose proof (HC 1 ltac:(cbn; tauto)) as H1. pose proof (HC 2 ltac:(cbn; tauto)) as H2.
  destruct b as [[[o0 o1 o2] [w0 w1 w2]] p n h pr vals]. cbn [vget Z.eqb Pos.eqb rb_cb origin width v0 v1 v2] in H0, H1, H2.
  destruct H0 as [-> ->], H1 as [-> ->], H2 as [-> ->]. cbn in E1, E2, E3, E4. subst. cbn in E5. subst. reflexivity.
Qed.

Lemma real_numbers : box_numbers (ND := RNum) four_pixels real_config 8%R = Ok (4, 1).
Proof. reflexivity. Qed.

Lemma real_input : main_input 8 four_pixels density_names [Some (BF [] [("all"%string, real_config)])] [[("all"%string, real_config)]] Density 1
  (fun _ _ => quarter) (fun _ _ _ _ => 0) (fun _ _ => [0]) (fun _ => Some real_sheet) (fun _ => real_sheet) (fun _ => sf_xs real_sheet) ["sheet"%string] 8.
Proof.
  unfold main_input. split; [lra|]. split; [discriminate|]. split; [reflexivity|]. split; [left; split; reflexivity|]. split.
  { constructor; [|constructor]. eexists. split; [reflexivity|]. exists [], [("all"%string, real_config)]. split; [reflexivity|]. split; [constructor|].
    constructor; [|constructor]. split; [reflexivity|]. cbn [snd]. unfold box_check_init, real_config, cube_config. cbn [bx_w bx_o v0 v1 v2]. rn.
    assert (O : outside (ND := RNum) 0%R 8%R = false).
    { unfold outside. rn. destruct (Rle_bool_spec 8 0), (Rlt_bool_spec 0 0); cbn; auto; lra. }
    rewrite O. destruct (Rle_bool_spec 6 0); [lra|]. reflexivity. }
  split; [discriminate|]. split.
  { constructor; [|constructor]. split; [left; reflexivity|]. exists 4, 1. split; [exact real_numbers|]. split; [lia|].
    intros a Ha. assert (EO : vget (bx_o real_config) a = 0%R /\ vget (bx_w real_config) a = 6%R) by (destruct Ha as [<-|[<-|[<-|[]]]]; split; reflexivity).
    destruct EO as [EO EW]. cbn [snd]. rewrite EO, EW. cbn. lra. }
  split; [lia|]. split; [intros; exact quarter_in|]. split; [intros; lia|]. split; [intros; apply Permutation_refl|].
  intros file _. split; [reflexivity|]. split; [exact real_sheet_ok|]. split; [reflexivity|].
  intros c cells pts b Hc EN S. cbn in Hc. destruct Hc as [<-|[]]. cbn [snd] in *. rewrite real_numbers in EN. injection EN as <- <-.
  rewrite (real_shows b 1 S). left. eexists. split; [|].
  - exact real_overlap.
  - reflexivity.
Qed.
Lemma real_spans : spans_all 8 4 real_config.
Proof.
  intros a Ha. assert (EO : vget (bx_o real_config) a = 0%R /\ vget (bx_w real_config) a = 6%R) by (destruct Ha as [<-|[<-|[<-|[]]]]; split; reflexivity).
  destruct EO as [EO EW]. cbv zeta. rewrite EO, EW. lra.
Qed.

(** ** The recorded cosmology *)
Lemma cosmo_ok h om ol z L : h <> 0%R -> (0 <= om)%R -> (0 <= ol)%R -> (-1 < z)%R ->
  let c := sheet_cosmo (ND := RNum) sqrt Rpower realK h om ol z L in
  (cr_a c * (1 + cr_z c) = 1)%R /\ cr_z c = z /\ cr_omegaM c = om /\ cr_omegaL c = ol /\ (cr_H0 c = 100 * h)%R /\ cr_width c = L /\
  (cr_rhoC c = critical_today * (cr_omegaM c / cr_a c ^ 3 + cr_omegaL c))%R /\
  ((om + ol = 1)%R -> (cr_rhoM c = critical_today * (cr_omegaM c / cr_a c ^ 3))%R).
Proof.
  intros Hh Ho Hl Hz c.
  assert (H100 : (h * 100 <> 0)%R) by lra.
  destruct (density_thm (h * 100)%R (h * 100)%R om ol z H100 H100 Ho Hl Hz) as (A & _ & _ & B & _).
  unfold c, sheet_cosmo, new_cosmo. cbn [cr_a cr_z cr_omegaM cr_omegaL cr_H0 cr_width cr_rhoC cr_rhoM]. rn.
  split; [field; lra|]. split; [reflexivity|]. split; [reflexivity|]. split; [reflexivity|]. split; [ring|]. split; [reflexivity|]. split.
  - etransitivity; [exact A|]. unfold expansion2. f_equal. f_equal. field. lra.
  - intros E. etransitivity; [exact (B E)|]. field. lra.
Qed.
Lemma real_box_shown : valid_axis (bx_axis real_config) /\ (forall a, In a [0; 1; 2] -> (0 <= vget (bx_w real_config) a)%R) /\
  shows 8 4 1 Density real_config (RB (rb_cb real_box) 1 4 (8 / 4)%R None (Scalar (repeat 0%R 64))).
Proof.
  assert (HW : forall a, In a [0; 1; 2] -> (0 <= vget (bx_w real_config) a)%R) by (intros a [<-|[<-|[<-|[]]]]; cbn; lra).
  split; [left; reflexivity|]. split; [exact HW|].
  destruct (new_box_ok 8 4 1 Density real_config) as (b & _ & S); [lra|lia|unfold EndQuantity, Density; lia|left; reflexivity|exact HW|].
  rewrite <- (real_shows b 1 S). exact S.
Qed.
