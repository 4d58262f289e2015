(** What renderMain writes: velocities and derivatives. *)
From Coq Require Import ZArith String List Bool Reals Lra Lia ZifyBool ZifyNat Permutation.
From Verif Require Import Base.Res Base.ResFacts Base.Num Model.Geom Model.GridDeriv Model.Config Model.Density Model.Box Model.Render Model.SheetIO Model.Main Model.Manager Model.RenderMain.
From Verif Require Import Spec.Geometry Spec.GeomDefs Spec.Fields Spec.FieldDefs Spec.Stencils Spec.Work Spec.Deposits Spec.Workspace Spec.Renders Spec.Segments Spec.RenderMains Spec.VelRenders Spec.Writtens.
From Verif Require Import Proof.GridDerivP Proof.CurlP Proof.ImageP Proof.RenderP Proof.MainQ Proof.ManagerBox Proof.VelP Proof.VelImages Proof.RenderMainP.
Import ListNotations.
Open Scope Z_scope.
Local Notation finalR := (final_image (D := R) (F := R) (ND := RNum) (NF := RNum) (fun x => x)).
Local Notation shows := RenderMains.shows.

Lemma shows_vel_ok L cells pts q c b : (0 < L)%R -> 4 <= cells -> 0 < pts -> requires_velocity q = Ok true ->
  (forall a, In a [0; 1; 2] -> (0 <= vget (bx_o c) a < L)%R /\ (0 < vget (bx_w c) a <= IZR (cells - 1) * (L / IZR cells))%R) ->
  shows L cells pts q c b -> vel_box_ok L b /\ empty_vectors b.
Proof.
  intros HL Hc Hp Hq HA S. destruct (shows_cells L cells pts q c b HL Hc HA S) as (HW & HP & HV & HL').
  destruct S as (E1 & E2 & E3 & HB & E4 & E5). rewrite Hq in E5. split; [|exact E5]. unfold vel_box_ok. rewrite E1, E2.
  split; [exact Hc|]. split; [exact HL'|]. split; [exact Hp|]. split; [exact HW|]. split; [exact HP|].
  rewrite E5. split; [|reflexivity]. unfold sized, zlen. rewrite !repeat_length. split; apply Z2Nat.id; lia.
Qed.

(** ** Lists of results *)
Lemma map_combine {A B C} (f : A * B -> res C) (P : A -> B -> Prop) (Q : A -> C -> Prop) l m : Forall2 P l m ->
  (forall a b, In a l -> P a b -> exists c, f (a, b) = Ok c /\ Q a c) -> exists o, map_res f (List.combine l m) = Ok o /\ Forall2 Q l o.
Proof.
  induction 1 as [|a b l m H F IH]; intros HQ; [exists []; split; [reflexivity|constructor]|].
  destruct (HQ a b) as (c & E & K); [now left|exact H|]. destruct IH as (o & EO & FO); [intros; apply HQ; [now right|assumption]|].
  exists (c :: o). split; [|constructor; assumption]. cbn [List.combine map_res]. rewrite E. cbn [bind]. rewrite EO. reflexivity.
Qed.
Lemma map_combine_bad {A B C} (f : A * B -> res C) (P : A -> B -> Prop) l m a : Forall2 P l m -> In a l ->
  (forall b c, P a b -> f (a, b) <> Ok c) -> forall o, map_res f (List.combine l m) <> Ok o.
Proof.
  induction 1 as [|a' b l m H F IH]; intros [] HB o.
  - subst a'. cbn [List.combine map_res]. destruct (f (a, b)) eqn:E; cbn [bind]; try discriminate. exfalso. exact (HB b _ H E).
  - cbn [List.combine map_res]. destruct (f (a', b)); cbn [bind]; try discriminate.
    destruct (map_res f (List.combine l m)) eqn:E; cbn [bind]; try discriminate. exfalso. exact (IH H0 HB _ eq_refl).
Qed.
Lemma map_combine_panic {A B C} (f : A * B -> res C) (P : A -> B -> Prop) l m a : Forall2 P l m -> In a l ->
  (forall a b, In a l -> P a b -> f (a, b) = Panic \/ exists c, f (a, b) = Ok c) -> (forall b, P a b -> f (a, b) = Panic) ->
  map_res f (List.combine l m) = Panic.
Proof.
  induction 1 as [|a' b l m H F IH]; intros [] HC HB.
  - subst a'. cbn [List.combine map_res]. rewrite (HB b H). reflexivity.
  - cbn [List.combine map_res]. destruct (HC a' b (or_introl eq_refl) H) as [-> |[c ->]]; [reflexivity|]. cbn [bind].
    rewrite IH; auto. intros; apply HC; [now right|assumption].
Qed.

(** ** Derivatives of one image *)
Local Notation locR := (new_grid_location (D := R)).
Lemma zlen_zeros {A} (x : A) (B : Type) (l : list B) : zlen (repeat x (List.length l)) = zlen l.
Proof. unfold zlen. now rewrite repeat_length. Qed.

Lemma gradient_image org w bw cells vals : (5 <= v0 w /\ 5 <= v1 w /\ 5 <= v2 w) -> zlen vals = volume (wcell w) ->
  exists im, finalized_gradient (D := R) (F := R) (ND := RNum) (NF := RNum) (fun x => x) (locR org w bw cells) vals = Ok im /\
    forall a c, In a [0; 1; 2] -> in_grid (wcell w) c ->
      at_cell (wcell w) (vget im a) c = taken_slope (wcell w) 4 (bw / IZR cells) (fun a => cells =? axis_of a (wcell w)) vals a c.
Proof.
  intros Hw Hl. unfold finalized_gradient. cbv zeta. rewrite map_id. unfold gradient. cbn [load om_user v0 v1 v2].
  set (z := repeat _ _). assert (Hz : zlen z = volume (wcell w)) by (unfold z; now rewrite zlen_zeros).
  assert (G : forall a, a = 0 \/ a = 1 \/ a = 2 -> exists o, grid_deriv (ND := RNum) (NF := RNum) (fun x : R => x) (locR org w bw cells) vals z a (DO true OpNone 4) = Ok o /\
    forall c, in_grid (wcell w) c -> at_cell (wcell w) o c = taken_slope (wcell w) 4 (bw / IZR cells) (fun a => cells =? axis_of a (wcell w)) vals a c).
  { intros a Ha. destruct (faces_thm org w a vals z bw cells (DO true OpNone 4)) as (o & E & _ & V); auto; try lia.
    - cbn [GridDeriv.order]. unfold vget. destruct Ha as [-> |[-> | ->]]; cbn [Z.eqb Pos.eqb]; lia.
    - exists o. split; [exact E|]. exact V. }
  destruct (G 0) as (o0 & E0 & V0); [auto|]. destruct (G 1) as (o1 & E1 & V1); [auto|]. destruct (G 2) as (o2 & E2 & V2); [auto|].
  rewrite E0. cbn [bind]. rewrite E1. cbn [bind]. rewrite E2. cbn [bind]. eexists. split; [reflexivity|].
  intros a c Ha. cbn [In] in Ha. destruct Ha as [<-|[<-|[<-|[]]]]; auto.
Qed.

Lemma curl_image org w bw cells vecs num : (5 <= v0 w /\ 5 <= v1 w /\ 5 <= v2 w) -> zlen vecs = volume (wcell w) -> zlen num = volume (wcell w) ->
  exists m im, averages_of vecs num m /\
    finalized_curl (D := R) (F := R) (ND := RNum) (NF := RNum) (fun x => x) (locR org w bw cells) vecs num = Ok im /\
    forall c, in_grid (wcell w) c -> let P := taken_slope (wcell w) 4 (bw / IZR cells) (fun a => cells =? axis_of a (wcell w)) in
      at_cell (wcell w) (v0 im) c = (P (v2 m) 1%Z c - P (v1 m) 2%Z c)%R /\
      at_cell (wcell w) (v1 im) c = (P (v0 m) 2%Z c - P (v2 m) 0%Z c)%R /\
      at_cell (wcell w) (v2 im) c = (P (v1 m) 0%Z c - P (v0 m) 1%Z c)%R.
Proof.
  intros Hw Hl Hn. destruct (curl_averages vecs num) as (m & E & A); [congruence|]. exists m. unfold finalized_curl. rewrite E. cbn [bind]. cbv zeta.
  set (z := repeat _ _). assert (Hz : zlen z = volume (wcell w)) by (unfold z; now rewrite zlen_zeros).
  pose proof A as (L0 & L1 & L2 & _).
  destruct (curl_thm org w bw cells PUser (OM options_default (DO true OpNone 4)) m (V3 z z z)) as (a & b & d & m' & EC & _ & V); cbn [load om_user GridDeriv.order dop v0 v1 v2]; auto; try lia.
  exists (V3 a b d). split; [exact A|]. rewrite EC. cbn [bind]. split; [reflexivity|]. intros c Hc. exact (V c Hc).
Qed.

Lemma divergence_image org w bw cells vecs num : (5 <= v0 w /\ 5 <= v1 w /\ 5 <= v2 w) -> zlen vecs = volume (wcell w) -> zlen num = volume (wcell w) ->
  exists m im, averages_of vecs num m /\
    finalized_divergence (D := R) (F := R) (ND := RNum) (NF := RNum) (fun x => x) (locR org w bw cells) vecs num = Ok im /\
    forall c, in_grid (wcell w) c -> let P := taken_slope (wcell w) 4 (bw / IZR cells) (fun a => cells =? axis_of a (wcell w)) in
      at_cell (wcell w) im c = (P (v0 m) 0%Z c + P (v0 m) 1%Z c + P (v2 m) 2%Z c)%R.
Proof.
  intros Hw Hl Hn. destruct (curl_averages vecs num) as (m & _ & A); [congruence|].
  destruct (divergence_averages vecs num) as (f & E & B); [congruence|]. exists m. unfold finalized_divergence. rewrite E. cbn [bind]. cbv zeta.
  set (z := repeat _ _). assert (Hz : zlen z = volume (wcell w)) by (unfold z; now rewrite zlen_zeros).
  pose proof A as (L0 & L1 & L2 & VA). pose proof B as (K0 & K1 & K2 & VB). unfold zlen in K0, K1, K2. rewrite map_length in K0, K1, K2. fold (zlen (v0 f)) (zlen (v1 f)) (zlen (v2 f)) (zlen vecs) in K0, K1, K2.
  assert (S0 : v0 f = v0 m /\ v1 f = v0 m /\ v2 f = v2 m).
  { assert (Q : forall i, 0 <= i < zlen vecs -> nth (Z.to_nat i) (v0 f) 0%R = nth (Z.to_nat i) (v0 m) 0%R /\ nth (Z.to_nat i) (v1 f) 0%R = nth (Z.to_nat i) (v0 m) 0%R /\
      nth (Z.to_nat i) (v2 f) 0%R = nth (Z.to_nat i) (v2 m) 0%R).
    { intros i Hi. specialize (VA i Hi). specialize (VB i). unfold zlen in VB. rewrite map_length in VB. specialize (VB Hi). cbv zeta in VA, VB.
      rewrite (nth_indep _ _ ((fun v => V3 (v0 v) (v0 v) (v2 v)) (V3 0 0 0)%R)) in VB by (rewrite map_length; unfold zlen in Hi; lia).
      rewrite (map_nth (fun v => V3 (v0 v) (v0 v) (v2 v))) in VB. cbn [v0 v1 v2] in VB.
      destruct VA as (-> & _ & ->). tauto. }
    repeat split; apply (list_ext 0%R); try congruence; intros i Hi; apply Q; congruence. }
  destruct S0 as (S0 & S1 & S2).
  destruct (divergence_thm org w bw cells PUser (OM options_default (DO true OpNone 4)) f z) as (o & m' & EC & _ & _ & V); cbn [load om_user GridDeriv.order dop v0 v1 v2]; auto; try lia.
  exists o. split; [exact A|]. rewrite EC. cbn [bind]. split; [reflexivity|]. intros c Hc. rewrite <- S0 at 1. rewrite <- S1, <- S2. exact (V c Hc).
Qed.

(** Images too narrow for a derivative. *)
Definition thin_along (gl : grid_location R) (a : Z) : Prop :=
  let w := width (gcb (gl_grid gl)) in 0 < v0 w /\ 0 < v1 w /\ 0 < v2 w /\ (vget w a < 3 \/ vget w a < 5 /\ a <> 2 /\ gl_cells gl <> vget w a).
Lemma thin_deriv org w bw cells vals out a opt x : GridDeriv.order opt = 4 -> In a [0; 1; 2] -> thin_along (locR org w bw cells) a ->
  grid_deriv (D := R) (F := R) (ND := RNum) (NF := RNum) (fun x => x) (locR org w bw cells) vals out a opt <> Ok x.
Proof.
  intros HO Ha (W0 & W1 & W2 & Hw). change (width (gcb (gl_grid (locR org w bw cells)))) with w in *. change (gl_cells (locR org w bw cells)) with cells in *. cbn [In] in Ha.
  destruct (Z_lt_le_dec (vget w a) 3) as [H3|H3].
  - unfold grid_deriv. cbv zeta. change (width (gcb (gl_grid (locR org w bw cells)))) with w. replace ((a >? 2) || (a <? 0)) with false by lia.
    replace (vget w a <? 3) with true by lia. discriminate.
  - destruct Hw as [Hw|(Hw & Ha2 & Hc)]; [lia|]. pose proof (short_line org w a vals out bw cells opt) as S. unfold grid_derivR in S. rewrite S; [discriminate|auto|lia|exact HO|lia|now right].
Qed.
Lemma thin_image q org w bw cells c a im : In q [DensityGradient; VelocityDivergence; VelocityCurl] -> In a [0; 1; 2] -> thin_along (locR org w bw cells) a ->
  finalR q (locR org w bw cells) c <> Ok im.
Proof.
  intros Hq Ha Hw. pose proof (fun vals out opt x HO => thin_deriv org w bw cells vals out a opt x HO Ha Hw) as T. clear Hw.
  cbn [In] in Ha, Hq. unfold final_image.
  assert (GB : forall (A B : Type) (x : res A) (k : A -> res B) b, bind x k = Ok b -> exists y, x = Ok y /\ k y = Ok b).
  { intros A B x k b. destruct x; cbn [bind]; intros H; try discriminate. eauto. }
  destruct c as [vals|vecs num]; destruct Hq as [<-|[<-|[<-|[]]]]; cbn [Z.eqb Pos.eqb Density DensityGradient Velocity VelocityDivergence VelocityCurl]; try discriminate; intros E;
    apply GB in E; destruct E as (y & E & _).
  - unfold finalized_gradient, gradient in E. cbv zeta in E. apply GB in E. destruct E as (p & E & _).
    apply GB in E. destruct E as (o0 & E0 & E). apply GB in E. destruct E as (o1 & E1 & E). apply GB in E. destruct E as (o2 & E2 & _).
    destruct Ha as [<-|[<-|[<-|[]]]]; match goal with H : _ = Ok _ |- _ => solve [eapply T; [|exact H]; reflexivity] end.
  - unfold finalized_divergence, divergence in E. cbv zeta in E. apply GB in E. destruct E as (f & _ & E). apply GB in E. destruct E as (p & E & _).
    apply GB in E. destruct E as (o0 & E0 & E). apply GB in E. destruct E as (o1 & E1 & E). apply GB in E. destruct E as (o2 & E2 & _).
    destruct Ha as [<-|[<-|[<-|[]]]]; match goal with H : _ = Ok _ |- _ => solve [eapply T; [|exact H]; reflexivity] end.
  - unfold finalized_curl, curl in E. cbv zeta in E. apply GB in E. destruct E as (f & _ & E). apply GB in E. destruct E as (p & E & _).
    apply GB in E. destruct E as (o0 & E0 & E). apply GB in E. destruct E as (o1 & E1 & E). apply GB in E. destruct E as (o2 & E2 & _).
    destruct Ha as [<-|[<-|[<-|[]]]]; match goal with H : _ = Ok _ |- _ => solve [eapply T; [|exact H]; reflexivity] end.
Qed.

(** ** The run *)
Section Whole.
Variables (L : R) (con : render_config) (names : render_names) (bounds : list (option (bounds_file R))) (parts : list (list (string * box_config R)))
  (q workers : Z) (rnd : Z -> Z -> vec3 R) (choose : Z -> Z -> Z -> Z -> Z) (order : Z -> Z -> list Z) (fs : string -> option (sheet_file R R))
  (sheet : string -> sheet_file R R) (X : string -> list (vec3 R)) (files : list string) (grid : Z).
Let skip := rc_subsample con.
Let configs := concat parts.
Let sheets := map (fun file => (sheet file, X file)) files.

Lemma vel_run : vel_main_input L con names bounds parts q workers rnd choose order fs sheet X files grid -> exists out,
  Forall2 (fun c b' => exists b, pixels_of L con q (snd c) b /\ vel_box_ok L b /\ empty_vectors b /\
     vel_rendered L skip (unit_pool rnd (rb_pts b)) sheets b b') configs out /\
  render_boxes (ND := RNum) (NF := RNum) (fun x => x) (fun x => x) fs workers rnd choose order files con names bounds = Ok (L, q, List.combine configs out).
Proof.
  intros (HL & HFil & Hcon & HQ & HP & HNE & HG & HWk & HR & HC & HO & HF). fold configs in HNE, HG, HF. fold skip in HF.
  assert (Hq : requires_velocity q = Ok true /\ 0 <= q < EndQuantity /\ quantity_from_string (rn_quantity names) = (q, true)).
  { cbn [In] in HQ. destruct HQ as [E|[E|[E|[]]]]; injection E as E1 E2; rewrite <- E1, <- E2;
      (split; [reflexivity|split; [unfold EndQuantity, Velocity, VelocityDivergence, VelocityCurl; lia|reflexivity]]). }
  destruct Hq as (Hq & Hqr & HS).
  destruct (map_res_ex (fun c => config_box (ND := RNum) con L q (snd c)) (fun c b => pixels_of L con q (snd c) b) configs) as (boxes & EB & FB).
  { apply Forall_forall. intros c Hin. apply config_box_ok; auto. rewrite Forall_forall in HG. auto. }
  assert (FV : Forall2 (fun c b => pixels_of L con q (snd c) b /\ vel_box_ok L b /\ empty_vectors b) configs boxes).
  { clear - FB HG HL Hcon Hq. induction FB as [|c b l m H F IH]; constructor; inversion_clear HG as [|? ? G1 G2]; auto.
    split; [exact H|]. destruct H as (cells & pts & EN & S). pose proof (good_fits L con _ HL G1) as HFit.
    destruct (numbers_thm con (snd c) L Hcon HFit) as (cells' & pts' & EN' & _ & Hpts & _).
    destruct G1 as (_ & cells2 & pts2 & EN2 & Hc4 & HA). rewrite EN in EN2, EN'. injection EN2 as <- <-. injection EN' as <- <-.
    eapply shows_vel_ok; eauto. }
  assert (HIB : forall b, In b boxes -> exists c, In c configs /\ pixels_of L con q (snd c) b /\ vel_box_ok L b).
  { clear - FV. induction FV as [|c b l m (H & K & _) F IH]; intros b' Hin; [destruct Hin|]. destruct Hin as [->|Hin].
    - exists c. split; [now left|auto].
    - destruct (IH b' Hin) as (c' & A & B). exists c'. split; [now right|exact B]. }
  assert (HBN : boxes <> []) by (intros ->; inversion FB; auto).
  destruct (VelP.job_ok L skip q workers rnd choose order fs sheet X files boxes grid) as (out & EJ & FJ); auto.
  { apply Forall_forall. intros b Hb. destruct (HIB b Hb) as (_ & _ & _ & K). exact K. }
  { intros file Hf. destruct (HF file Hf) as (A & B & D & K). do 3 (split; [assumption|]). intros b Hb.
    destruct (HIB b Hb) as (c & Hc & (cells & pts & EN & S) & _). exact (K c cells pts b Hc EN S). }
  exists out. split.
  - pose proof (Forall2_two _ _ _ _ _ FV FJ) as FF. eapply Forall2_imp; [|exact FF]. cbv beta. intros c b' (b & (A & B & D) & E). exists b. auto.
  - unfold render_boxes. destruct files as [|f0 files'] eqn:EF; [congruence|].
    change (get (f0 :: files') 0) with (Ok f0). cbn [bind].
    destruct (HF f0 (or_introl eq_refl)) as (Ef0 & ((ET & _) & _) & _ & _). rewrite Ef0. unfold first_total. rewrite ET.
    rewrite (proj2 (proj1 (all_bounds_thm L bounds) configs)) by (exists parts; auto). cbn [bind]. rewrite HS. cbn [negb].
    rewrite EB. cbn [bind]. fold skip. rewrite EJ. reflexivity.
Qed.

Lemma scalar_run : main_input L con names bounds parts q workers rnd choose order fs sheet X files grid -> exists out,
  Forall2 (fun c b' => exists b, pixels_of L con q (snd c) b /\ box_ok L b /\
     rendered L skip (unit_pool rnd (rb_pts b)) sheets b b') configs out /\
  render_boxes (ND := RNum) (NF := RNum) (fun x => x) (fun x => x) fs workers rnd choose order files con names bounds = Ok (L, q, List.combine configs out).
Proof.
  intros IN. pose proof (main_run _ _ _ _ _ _ _ _ _ _ _ _ _ _ _ IN) as (boxes & out & FB & HBO & _ & _ & FJ & EB & _).
  exists out. split; [|exact EB].
  assert (FV : Forall2 (fun c b => pixels_of L con q (snd c) b /\ box_ok L b) configs boxes).
  { clear - FB HBO. fold configs in FB. induction FB as [|c b l m H F IH]; constructor; inversion_clear HBO; auto. }
  pose proof (Forall2_two _ _ _ _ _ FV FJ) as FF. eapply Forall2_imp; [|exact FF]. cbv beta. intros c b' (b & (A & B) & E). exists b. auto.
Qed.

Let run := written_main (ND := RNum) (NF := RNum) (fun x => x) (fun x => x) fs workers rnd choose order files con names bounds.
Let file_of (c : string * box_config R) (b : rbox R) (im : image R) := (output_path names (fst c), (fst (output con (snd c) b), im)).

Lemma run_as out : render_boxes (ND := RNum) (NF := RNum) (fun x => x) (fun x => x) fs workers rnd choose order files con names bounds = Ok (L, q, List.combine configs out) ->
  run = map_res (fun p => im <- finalR q (box_location L (snd p)) (rb_vals (snd p)) ;; Ok (file_of (fst p) (snd p) im))%res (List.combine configs out).
Proof. intros E. unfold run, written_main. rewrite E. reflexivity. Qed.

Lemma run_ok P Q out : render_boxes (ND := RNum) (NF := RNum) (fun x => x) (fun x => x) fs workers rnd choose order files con names bounds = Ok (L, q, List.combine configs out) ->
  Forall2 P configs out ->
  (forall c b', In c configs -> P c b' -> exists im, finalR q (box_location L b') (rb_vals b') = Ok im /\ Q c (file_of c b' im)) ->
  exists o, run = Ok o /\ Forall2 Q configs o.
Proof.
  intros E F H. rewrite (run_as out E). apply (map_combine _ P Q); [exact F|]. intros c b' Hc HP. destruct (H c b' Hc HP) as (im & EI & HQ).
  cbn [snd]. rewrite EI. cbn [bind]. eexists. split; [reflexivity|exact HQ].
Qed.

Lemma kept b b' vals : b' = set_vals b vals -> rb_cb b' = rb_cb b /\ rb_cells b' = rb_cells b /\ forall c im, file_of c b' im = file_of c b im.
Proof. intros ->. auto. Qed.

Lemma unprojected c b : projectable q = false -> pixels_of L con q c b -> rb_proj b = None /\ image_size b = wcell (width (rb_cb b)) /\ rb_cw b = (L / IZR (rb_cells b))%R.
Proof. intros HQ (cells & pts & _ & (E1 & _ & E3 & _ & E4 & _)). rewrite HQ in E4. split; [exact E4|]. unfold image_size. rewrite E4, E1. auto. Qed.
Lemma wide_widths b : wide 5 b -> 5 <= v0 (width (rb_cb b)) /\ 5 <= v1 (width (rb_cb b)) /\ 5 <= v2 (width (rb_cb b)).
Proof. intros H. pose proof (H 0 ltac:(cbn; tauto)). pose proof (H 1 ltac:(cbn; tauto)). pose proof (H 2 ltac:(cbn; tauto)). auto. Qed.

(** Velocities. *)
Theorem velocity_files : vel_main_input L con names bounds parts q workers rnd choose order fs sheet X files grid -> q = Velocity ->
  (forall c b, In c configs -> pixels_of L con q (snd c) b -> 30 <= volume (image_size b)) ->
  exists out, run = Ok out /\
  Forall2 (fun c o => exists b im, pixels_of L con q (snd c) b /\
     mean_images L skip (unit_pool rnd (rb_pts b)) sheets b im /\ o = file_of c b (Triple im)) configs out.
Proof.
  intros IN EQ HP. destruct (vel_run IN) as (out & F & E). apply (run_ok _ _ out E F). clear F E.
  intros c b' Hc (b & H1 & H2 & H3 & H4). destruct (rendered_images L skip _ _ b b' H2 H3 (HP c b Hc H1) H4) as (vecs & num & im & E1 & E2 & E3).
  exists (Triple im). rewrite E1, EQ. unfold final_image. cbn [Z.eqb Pos.eqb Velocity]. rewrite E2. split; [reflexivity|]. exists b, im.
  split; [rewrite <- EQ; exact H1|]. split; [exact E3|]. apply (kept b b' (rb_vals b')), H4.
Qed.

Theorem velocity_short_files : vel_main_input L con names bounds parts q workers rnd choose order fs sheet X files grid -> q = Velocity ->
  (exists c, In c configs /\ forall b, pixels_of L con q (snd c) b -> volume (image_size b) < 30) -> run = Panic.
Proof.
  intros IN EQ (c & Hc & HS). destruct (vel_run IN) as (out & F & E). rewrite (run_as out E).
  assert (HV : forall c b, In c configs -> pixels_of L con q (snd c) b -> 0 < volume (image_size b)).
  { clear - IN. intros c b Hc (cells & pts & EN & S). destruct IN as (HL & _ & _ & _ & _ & _ & HG & _). rewrite Forall_forall in HG.
    destruct (HG c Hc) as (_ & cells2 & pts2 & EN2 & Hc4 & HA). rewrite EN in EN2. injection EN2 as <- <-.
    apply (shows_cells L cells pts q (snd c) b HL Hc4 HA S). }
  assert (HK : forall c b' (b : rbox R), In c configs -> pixels_of L con q (snd c) b -> vel_rendered L skip (unit_pool rnd (rb_pts b)) sheets b b' ->
    exists vecs num, rb_vals b' = Vector vecs num /\ zlen vecs = volume (image_size b) /\ zlen num = volume (image_size b)).
  { intros c0 b' b _ _ (_ & R2 & R3 & _). destruct (rb_vals b') as [|vecs num]; [discriminate|]. exists vecs, num. split; [reflexivity|exact R2]. }
  eapply map_combine_panic; [exact F|exact Hc| |].
  - intros c0 b' Hc0 (b & H1 & H2 & H3 & H4). cbn [snd]. destruct (HK c0 b' b Hc0 H1 H4) as (vecs & num & E1 & E2 & E3). rewrite E1, EQ. unfold final_image. cbn [Z.eqb Pos.eqb Velocity].
    destruct (Z_lt_le_dec (volume (image_size b)) 30) as [HL|HL].
    + left. rewrite velocity_short by (specialize (HV c0 b Hc0 H1); lia). reflexivity.
    + right. destruct (velocity_averages vecs num) as (o & EO & _); [lia|lia|]. eexists. rewrite EO. reflexivity.
  - intros b' (b & H1 & H2 & H3 & H4). cbn [snd]. destruct (HK c b' b Hc H1 H4) as (vecs & num & E1 & E2 & E3). rewrite E1, EQ. unfold final_image. cbn [Z.eqb Pos.eqb Velocity].
    rewrite velocity_short by (specialize (HV c b Hc H1); specialize (HS b H1); lia). reflexivity.
Qed.

(** Derivatives. *)
Theorem gradient_files : main_input L con names bounds parts q workers rnd choose order fs sheet X files grid -> q = DensityGradient ->
  (forall c b, In c configs -> pixels_of L con q (snd c) b -> wide 5 b) ->
  exists out, run = Ok out /\
  Forall2 (fun c o => exists b b' im, pixels_of L con q (snd c) b /\ rendered L skip (unit_pool rnd (rb_pts b)) sheets b b' /\ o = file_of c b (Triple im) /\
     forall a k, In a [0; 1; 2] -> in_grid (image_size b) k -> pixel b (vget im a) k = taken b (density_of b') a k) configs out.
Proof.
  intros IN EQ HP. destruct (scalar_run IN) as (out & F & E). apply (run_ok _ _ out E F). clear F E.
  intros c b' Hc (b & H1 & H2 & H3). pose proof H3 as (K1 & K2 & K3 & _). destruct (kept b b' (rb_vals b') K1) as (N1 & N2 & N3).
  destruct (unprojected (snd c) b ltac:(now rewrite EQ) H1) as (U1 & U2 & U3). unfold density_of. destruct (rb_vals b') as [vals|] eqn:EV; [|discriminate]. cbn [sized] in K2.
  rewrite U2 in K2. destruct (gradient_image (origin (rb_cb b)) (width (rb_cb b)) L (rb_cells b) vals (wide_widths b (HP c b Hc H1)) K2) as (im & EI & VI).
  exists (Triple im). unfold box_location. rewrite N1, N2, EQ. unfold final_image. cbn [Z.eqb Pos.eqb Density DensityGradient]. rewrite EI. split; [reflexivity|].
  exists b, b', im. split; [rewrite <- EQ; exact H1|]. split; [exact H3|]. split; [apply N3|]. rewrite EV, U2. unfold pixel, taken. rewrite U3. exact VI.
Qed.

Theorem curl_files : vel_main_input L con names bounds parts q workers rnd choose order fs sheet X files grid -> q = VelocityCurl ->
  (forall c b, In c configs -> pixels_of L con q (snd c) b -> wide 5 b) ->
  exists out, run = Ok out /\
  Forall2 (fun c o => exists b m im, pixels_of L con q (snd c) b /\ mean_images L skip (unit_pool rnd (rb_pts b)) sheets b m /\ o = file_of c b (Triple im) /\
     forall k, in_grid (image_size b) k ->
       pixel b (v0 im) k = (taken b (v2 m) 1%Z k - taken b (v1 m) 2%Z k)%R /\
       pixel b (v1 im) k = (taken b (v0 m) 2%Z k - taken b (v2 m) 0%Z k)%R /\
       pixel b (v2 im) k = (taken b (v1 m) 0%Z k - taken b (v0 m) 1%Z k)%R) configs out.
Proof.
  intros IN EQ HP. destruct (vel_run IN) as (out & F & E). apply (run_ok _ _ out E F). clear F E.
  intros c b' Hc (b & H1 & H2 & H3 & H4). pose proof H4 as (K1 & K2 & K3 & _). destruct (kept b b' (rb_vals b') K1) as (N1 & N2 & N3).
  destruct (unprojected (snd c) b ltac:(now rewrite EQ) H1) as (U1 & U2 & U3). destruct (rb_vals b') as [|vecs num] eqn:EV; [discriminate|]. cbn [sized] in K2.
  rewrite U2 in K2. destruct K2 as [K2 K4].
  destruct (curl_image (origin (rb_cb b)) (width (rb_cb b)) L (rb_cells b) vecs num (wide_widths b (HP c b Hc H1)) K2 K4) as (m & im & A & EI & VI).
  exists (Triple im). unfold box_location. rewrite N1, N2, EQ. unfold final_image. cbn [Z.eqb Pos.eqb Velocity VelocityDivergence VelocityCurl]. rewrite EI. split; [reflexivity|].
  exists b, m, im. split; [rewrite <- EQ; exact H1|]. split; [exact (averages_images L skip _ _ b b' vecs num m H2 H3 H4 EV A)|]. split; [apply N3|].
  rewrite U2. unfold pixel, taken. rewrite U3. exact VI.
Qed.

Theorem divergence_files : vel_main_input L con names bounds parts q workers rnd choose order fs sheet X files grid -> q = VelocityDivergence ->
  (forall c b, In c configs -> pixels_of L con q (snd c) b -> wide 5 b) ->
  exists out, run = Ok out /\
  Forall2 (fun c o => exists b m im, pixels_of L con q (snd c) b /\ mean_images L skip (unit_pool rnd (rb_pts b)) sheets b m /\ o = file_of c b (Plain im) /\
     forall k, in_grid (image_size b) k -> pixel b im k = (taken b (v0 m) 0%Z k + taken b (v0 m) 1%Z k + taken b (v2 m) 2%Z k)%R) configs out.
Proof.
  intros IN EQ HP. destruct (vel_run IN) as (out & F & E). apply (run_ok _ _ out E F). clear F E.
  intros c b' Hc (b & H1 & H2 & H3 & H4). pose proof H4 as (K1 & K2 & K3 & _). destruct (kept b b' (rb_vals b') K1) as (N1 & N2 & N3).
  destruct (unprojected (snd c) b ltac:(now rewrite EQ) H1) as (U1 & U2 & U3). destruct (rb_vals b') as [|vecs num] eqn:EV; [discriminate|]. cbn [sized] in K2.
  rewrite U2 in K2. destruct K2 as [K2 K4].
  destruct (divergence_image (origin (rb_cb b)) (width (rb_cb b)) L (rb_cells b) vecs num (wide_widths b (HP c b Hc H1)) K2 K4) as (m & im & A & EI & VI).
  exists (Plain im). unfold box_location. rewrite N1, N2, EQ. unfold final_image. cbn [Z.eqb Pos.eqb Velocity VelocityDivergence VelocityCurl]. rewrite EI. split; [reflexivity|].
  exists b, m, im. split; [rewrite <- EQ; exact H1|]. split; [exact (averages_images L skip _ _ b b' vecs num m H2 H3 H4 EV A)|]. split; [apply N3|].
  rewrite U2. unfold pixel, taken. rewrite U3. exact VI.
Qed.

Theorem divergence_wrong : vel_main_input L con names bounds parts q workers rnd choose order fs sheet X files grid -> q = VelocityDivergence ->
  (forall c b, In c configs -> pixels_of L con q (snd c) b -> wide 5 b) ->
  exists out, run = Ok out /\
  Forall2 (fun c o => exists b m im, pixels_of L con q (snd c) b /\ mean_images L skip (unit_pool rnd (rb_pts b)) sheets b m /\ o = file_of c b (Plain im) /\
     forall k, inner b k -> slope b (v0 m) 1%Z k <> slope b (v1 m) 1%Z k -> pixel b im k <> (slope b (v0 m) 0%Z k + slope b (v1 m) 1%Z k + slope b (v2 m) 2%Z k)%R) configs out.
Proof.
  intros IN EQ HP. destruct (divergence_files IN EQ HP) as (out & E & F). exists out. split; [exact E|]. refine (Forall2_imp _ _ _ _ _ F).
  intros c o (b & m & im & H1 & H2 & H3 & H4). exists b, m, im. split; [exact H1|]. split; [exact H2|]. split; [exact H3|].
  intros k Hk HN. destruct (unprojected (snd c) b ltac:(now rewrite EQ) H1) as (_ & U2 & _). destruct Hk as [Hg Hi]. rewrite (H4 k) by (rewrite U2; exact Hg).
  unfold taken, taken_slope, inside2. change (4 / 2) with 2. replace ((2 <=? axis_of 2 k) && (axis_of 2 k <? axis_of 2 (wcell (width (rb_cb b))) - 2)) with true by lia.
  cbn [negb andb Z.eqb Pos.eqb]. fold (slope b (v0 m) 0 k) (slope b (v0 m) 1 k) (slope b (v2 m) 2 k). lra.
Qed.

(** Boxes that are too narrow for a derivative. *)
Lemma thin_files P out : render_boxes (ND := RNum) (NF := RNum) (fun x => x) (fun x => x) fs workers rnd choose order files con names bounds = Ok (L, q, List.combine configs out) ->
  Forall2 P configs out -> In q [DensityGradient; VelocityDivergence; VelocityCurl] ->
  (exists c, In c configs /\ forall b', P c b' -> exists a, In a [0; 1; 2] /\ thin_along (box_location L b') a) -> forall o, run <> Ok o.
Proof.
  intros E F HQ (c & Hc & HT) o. rewrite (run_as out E). eapply map_combine_bad; [exact F|exact Hc|]. intros b' o' HP. cbn [snd].
  destruct (HT b' HP) as (a & Ha & Hw). destruct (finalR q (box_location L b') (rb_vals b')) as [im| | |] eqn:EI; cbn [bind]; try discriminate.
  exfalso. exact (thin_image q _ _ _ _ (rb_vals b') a im HQ Ha Hw EI).
Qed.

Lemma thin_box b b' a : b' = set_vals b (rb_vals b') ->
  (forall a, In a [0; 1; 2] -> 0 <= vget (origin (rb_cb b)) a < rb_cells b /\ 0 < vget (width (rb_cb b)) a <= rb_cells b) -> thin b a -> thin_along (box_location L b') a.
Proof.
  intros K HW HT. unfold thin_along. change (width (gcb (gl_grid (box_location L b')))) with (width (rb_cb b')). change (gl_cells (box_location L b')) with (rb_cells b').
  rewrite K. cbn [set_vals rb_cb rb_cells]. pose proof (HW 0 ltac:(cbn; tauto)). pose proof (HW 1 ltac:(cbn; tauto)). pose proof (HW 2 ltac:(cbn; tauto)).
  unfold vget in H, H0, H1. cbn [Z.eqb Pos.eqb] in *. do 3 (split; [tauto|]). exact HT.
Qed.

Theorem gradient_thin : main_input L con names bounds parts q workers rnd choose order fs sheet X files grid -> q = DensityGradient ->
  (exists c a, In c configs /\ In a [0; 1; 2] /\ forall b, pixels_of L con q (snd c) b -> thin b a) -> forall o, run <> Ok o.
Proof.
  intros IN EQ (c & a & Hc & Ha & HT). destruct (scalar_run IN) as (out & F & E). apply (thin_files _ out E F); [rewrite EQ; cbn; auto|].
  exists c. split; [exact Hc|]. intros b' (b & H1 & H2 & (K1 & _)). exists a. split; [exact Ha|]. apply (thin_box b b' a K1); [|auto]. unfold box_ok, vel_box_ok in H2. tauto.
Qed.
Theorem vel_thin : vel_main_input L con names bounds parts q workers rnd choose order fs sheet X files grid -> In q [VelocityDivergence; VelocityCurl] ->
  (exists c a, In c configs /\ In a [0; 1; 2] /\ forall b, pixels_of L con q (snd c) b -> thin b a) -> forall o, run <> Ok o.
Proof.
  intros IN EQ (c & a & Hc & Ha & HT). destruct (vel_run IN) as (out & F & E). apply (thin_files _ out E F); [cbn in *; tauto|].
  exists c. split; [exact Hc|]. intros b' (b & H1 & H2 & H3 & (K1 & _)). exists a. split; [exact Ha|]. apply (thin_box b b' a K1); [|auto]. unfold box_ok, vel_box_ok in H2. tauto.
Qed.
End Whole.
