(** Scaled positions, the choice of files, and jobs that fail. *)
From Coq Require Import ZArith String List Bool Reals Lra Lia ZifyBool ZifyNat Permutation.
From Verif Require Import Base.Res Base.ResFacts Base.Num Base.IEEE Base.Convert Model.Geom Model.GridDeriv Model.Density Model.Box Model.Render Model.SheetIO Model.Manager.
From Verif Require Import Spec.Geometry Spec.GeomDefs Spec.Fields Spec.FieldDefs Spec.Matrix Spec.Work Spec.Deposits Spec.Workspace Spec.Renders Spec.ManagerEx.
From Verif Require Import Proof.SheetFall Proof.SheetFrame Proof.SheetPass Proof.SheetWork Proof.RenderP Proof.ManagerBox Proof.ManagerP Proof.ManagerMass Proof.ReadHaloM.
Import ListNotations.
Open Scope Z_scope.

(** ** Scaled positions *)
Theorem scaled_in_buffer L skip (f : sheet_file R R) X b w : sheet_ok L skip f X -> box_ok L b ->
  box_overlap (ND := RNum) (NF := RNum) (fun x => x) b (sf_hd f) = Ok w ->
  let S := scale_xs (D := R) (NF := RNum) (fun x => x) w (sheet_cells (ND := RNum) (NF := RNum) (fun x => x) (sf_hd f) (rb_cells b))
             (rb_cw b * IZR (rb_cells b))%R (sf_xs f) in
  zlen S = zlen (sf_xs f) /\
  forall a, In a [0; 1; 2] -> exists K, forall i, 0 <= i < zlen (sf_xs f) ->
    let y := vget (nth (Z.to_nat i) S zero3) a in
    y = (vget (nth (Z.to_nat i) X zero3) a * IZR (rb_cells b) / L - IZR (vget (origin (bufCb w)) a) + IZR (K * rb_cells b))%R /\
    (okd w = Segment2D \/ okd w = Segment3D -> (0 <= y < IZR (vget (width (bufCb w)) a))%R).
Proof.
  intros HS HB HW S. destruct (low_vector L skip b f X HS HB w HW) as [lo Hlo].
  pose proof (scaled_len L skip b f X HS) as SL. pose proof (L_pos L skip f X HS) as HL.
  assert (EL : zlen (sf_xs f) = (s_seg (sf_hd f) + 1) * (s_seg (sf_hd f) + 1) * (s_seg (sf_hd f) + 1)) by (destruct HS as (_ & _ & _ & ? & ? & _); congruence).
  split; [unfold S, scale_xs, zlen; now rewrite map_length|].
  intros a Ha. destruct (Hlo a Ha) as (H1 & (K & H2) & _). exists K. intros i Hi. cbv zeta. rewrite EL in Hi.
  destruct (scaled_nth L skip b f X HS HB w HW lo Hlo i Hi) as [N1 N2]. fold S in N1, N2. specialize (N2 a Ha). split.
  - rewrite N1, vget_affine, vget_shift by exact Ha. rewrite <- H2, plus_IZR. unfold Rdiv. ring.
  - intros HK. destruct (low_seg L skip b f X HS HB w HW lo Hlo a Ha) as [E1 E2].
    + unfold is_seg. destruct HK as [-> | ->]; reflexivity.
    + rewrite E1, E2 in N2. rewrite Z.add_0_l in N2. exact N2.
Qed.

Lemma scaled_bad : let f := cube_sheet on_edge in let h := sf_hd f in
  forallb (fun x => forallb (fun a => (vget (s_origin h) a <=? vget x a)%num && (vget x a <=? vget (s_origin h) a + vget (s_width h) a)%num) [0; 1; 2]) (sf_xs f) = true /\
  exists w, box_overlap to_f64 small_box h = Ok w /\ okd w = Segment3D /\ v0 (width (bufCb w)) = 5 /\
    (cube_scaled on_edge w <? #5)%num = false /\ cube_job on_edge = Panic.
Proof.
  cbv zeta. split; [vm_compute; reflexivity|]. eexists. split; [vm_compute; reflexivity|]. split; [reflexivity|]. split; [reflexivity|].
  split; vm_compute; reflexivity.
Qed.

(** ** The choice of files *)
Theorem manager_files {D F} {ND : Num D} {NF : Num F} (up : F -> D) fs (sheet : string -> sheet_file D F) numCores rnd files boxes q m :
  (forall file, In file files -> fs file = Some (sheet file)) ->
  new_manager up fs numCores rnd files boxes q = Ok (Good m) ->
  m_files m = filter (fun file => existsb (fun b => meets up b (sheet file)) boxes) files /\
  (forall i b file, nth_error boxes i = Some b -> In file files -> requires_file m (Z.of_nat i) file = Ok (meets up b (sheet file))) /\
  (forall b file w, In b boxes -> In file files -> meets up b (sheet file) = true -> box_overlap up b (sf_hd (sheet file)) = Ok w ->
     Forall (fun s => buf_length s >= buffer_size w) (m_ws m)).
Proof.
  intros HF HM. unfold new_manager in HM. destruct (numCores <? 0); [discriminate|].
  destruct boxes as [|b0 rest] eqn:EB.
  - (* no boxes: the first file is found, and then boxes[0] fails unless there are no workers *)
    destruct (scan_all up fs sheet [] (RB (CB (V3 0 0 0) (V3 0 0 0)) 0 0 (#0)%num None (Scalar [])) files HF (SC [] [] 0) eq_refl) as (s & ES & S1 & S2 & S3 & S4 & S5).
    cbn [List.length repeat] in HM. rewrite ES in HM. cbn [bind] in HM. destruct (get files 0) as [first| | |]; try discriminate. cbn [bind] in HM.
    destruct (fs first); try discriminate. destruct (s_grid _ <? 0); try discriminate. destruct (requires_velocity q) as [rv| | |]; try discriminate. cbn [bind] in HM.
    destruct (for_ 0 numCores _ []) as [ws| | |]; try discriminate. cbn [bind] in HM. injection HM as <-. cbn [m_files m_ws sc_files app] in *.
    split; [rewrite S2; reflexivity|]. split; [intros i; destruct i; discriminate|intros ? ? ? []].
  - rewrite <- EB in *. clear EB.
    destruct (scan_all up fs sheet boxes b0 files HF (SC (repeat [] (List.length boxes)) [] 0)) as (s & ES & S1 & S2 & S3 & S4 & S5).
    { cbn [sc_valid]. unfold zlen. now rewrite repeat_length. }
    rewrite ES in HM. cbn [bind] in HM. destruct (get files 0) as [first| | |]; try discriminate. cbn [bind] in HM.
    destruct (fs first); try discriminate. destruct (s_grid _ <? 0); try discriminate. destruct (requires_velocity q) as [rv| | |]; try discriminate. cbn [bind] in HM.
    destruct (for_ 0 numCores _ []) as [ws| | |] eqn:EF; try discriminate. cbn [bind] in HM. injection HM as <-. cbn [m_files m_ws sc_files sc_valid sc_max app] in *.
    split; [exact S2|]. split.
    + intros i b file Hb Hf. unfold requires_file. cbn [m_valid].
      assert (Hi : 0 <= Z.of_nat i < zlen boxes) by (assert (i < List.length boxes)%nat by (apply nth_error_Some; congruence); unfold zlen; lia).
      rewrite (get_ok []) by lia. cbn [bind]. rewrite S4 by auto. f_equal.
      assert (EI : existsb (String.eqb file) files = true) by (apply existsb_exists; exists file; split; [auto|apply String.eqb_refl]).
      rewrite EI. unfold zn. rewrite Nat2Z.id, nth_repeat, (nth_error_nth _ _ b0 Hb). reflexivity.
    + intros b file w Hb Hf HMt HW. apply (In_nth _ _ b0) in Hb. destruct Hb as (i & Hi & <-).
      assert (HL : buffer_size w <= sc_max s).
      { apply (S5 (Z.of_nat i) file); auto; unfold zn; rewrite ?Nat2Z.id; auto. unfold zlen. lia. }
      apply (for_keep (fun ws => Forall (fun s => buf_length s >= buffer_size w) ws)) in EF; [exact EF| |constructor].
      intros _ l1 l2 H1 H2. destruct (get boxes 0); try discriminate. cbn [bind] in H2.
      destruct (new_buffer q (sc_max s)) as [nb| | |] eqn:EN; try discriminate. cbn [bind] in H2. injection H2 as <-.
      apply Forall_app. split; [auto|]. constructor; [|constructor].
      unfold new_buffer, gmake in EN. destruct ((q =? Density) || (q =? DensityGradient)); [|destruct ((q =? Velocity) || (q =? VelocityDivergence) || (q =? VelocityCurl))]; try discriminate;
        destruct (sc_max s <? 0); try discriminate; cbn [bind] in EN; injection EN as <-; cbn [buf_length vis]; lia.
Qed.

(** ** Jobs that fail *)
Section Fail.
Context {D F : Type} {ND : Num D} {NF : Num F} (up : F -> D) (down : D -> F) (fs : string -> option (sheet_file D F)).

Theorem no_files numCores rnd choose order boxes q skip : 0 <= numCores ->
  render_job up down fs numCores rnd choose order [] boxes q skip = Panic.
Proof. intros H. unfold render_job, new_manager. replace (numCores <? 0) with false by lia. reflexivity. Qed.

Lemma scan_no_boxes files s : (forall file, In file files -> fs file <> None) -> scan_files up fs [] files s = Ok (Good s).
Proof.
  revert s. induction files as [|file files IH]; intros s H; [reflexivity|]. cbn [scan_files].
  destruct (fs file) eqn:E; [|exfalso; apply (H file); [now left|auto]]. cbn. apply IH. intros; apply H; now right.
Qed.

Theorem no_boxes numCores rnd choose order first f files q skip : 1 <= numCores -> fs first = Some f -> 0 <= s_grid (sf_hd f) ->
  (forall file, In file files -> fs file <> None) ->
  render_job up down fs numCores rnd choose order (first :: files) [] q skip = Panic.
Proof.
  intros H1 H2 H3 H4. unfold render_job, new_manager. replace (numCores <? 0) with false by lia.
  rewrite scan_no_boxes by (intros g [<-|Hg]; [congruence|auto]). cbn [bind get Z.ltb Z.compare nth_error Z.to_nat].
  change (get (first :: files) 0) with (Ok first). cbn [bind]. rewrite H2. replace (s_grid (sf_hd f) <? 0) with false by lia.
  destruct (requires_velocity q) eqn:E; cbn [bind]; try reflexivity.
  - rewrite for_step by lia. reflexivity.
  - unfold requires_velocity in E. destruct (_ || _); [discriminate|]. destruct (_ || _ || _); discriminate.
  - unfold requires_velocity in E. destruct (_ || _); [discriminate|]. destruct (_ || _ || _); discriminate.
Qed.

(** The scan reports a file it cannot read, whatever comes before and after. *)
Lemma scan_unreadable boxes files : (exists file, In file files /\ fs file = None) -> forall s, zlen (sc_valid s) = zlen boxes ->
  scan_files up fs boxes files s = Ok Err.
Proof.
  induction files as [|file files IH]; intros (g & Hg & Eg) s HV; [destruct Hg|]. cbn [scan_files].
  destruct (fs file) as [f|] eqn:E; [|reflexivity].
  destruct Hg as [<-|Hg]; [congruence|].
  destruct boxes as [|b0 rest] eqn:EB.
  - cbn. apply IH; eauto.
  - rewrite <- EB in *. destruct (scan_one up fs (fun _ => f) boxes b0 file s HV) as ((s1 & hit) & E1 & S1 & _). rewrite E1. cbn [bind fst] in *.
    apply IH; [eauto|]. destruct hit; cbn [sc_valid]; exact S1.
Qed.

Theorem unreadable numCores rnd choose order files boxes q skip : 0 <= numCores -> (exists file, In file files /\ fs file = None) ->
  render_job up down fs numCores rnd choose order files boxes q skip = Fatal.
Proof.
  intros H1 H2. unfold render_job, new_manager. replace (numCores <? 0) with false by lia.
  rewrite scan_unreadable; auto. cbn [sc_valid]. unfold zlen. now rewrite repeat_length.
Qed.

(** A file of another size is refused before anything of it is used. *)
Theorem other_size m file f choose order : fs file = Some f -> s_grid (sf_hd f) <> zlen (m_xs m) ->
  render_file up down fs file choose order m = Ok Err.
Proof.
  intros H1 H2. unfold render_file, load_file. rewrite H1. replace (s_grid (sf_hd f) =? zlen (m_xs m)) with false by lia. reflexivity.
Qed.
End Fail.

(** ** The mean of a whole image *)
Theorem job_mean L skip q workers rnd choose order fs (sheet : string -> sheet_file R R) X files boxes grid seg cnt :
  files <> [] -> boxes <> [] -> 1 <= workers -> requires_velocity q = Ok false ->
  (forall bi j, unit_cube (rnd bi j)) -> (forall k ri id j, 0 <= choose k ri id j < 64) ->
  (forall k ri, Permutation (order k ri) (zseq workers)) ->
  Forall (box_ok L) boxes ->
  (forall file, In file files -> fs file = Some (sheet file) /\ sheet_ok L skip (sheet file) (X file) /\
     s_grid (sf_hd (sheet file)) = grid /\ s_seg (sf_hd (sheet file)) = seg /\ s_count (sf_hd (sheet file)) = cnt /\
     forall b, In b boxes -> faces_ok L skip b (sheet file) (X file) (unit_pool rnd (rb_pts b))) ->
  seg mod skip = 0 -> zlen files * seg ^ 3 = cnt ^ 3 ->
  exists out, render_job (ND := RNum) (NF := RNum) (fun x => x) (fun x => x) fs workers rnd choose order files boxes q skip = Ok out /\
    Forall2 (fun b b' => whole b -> image_mean b' = (image_mean b + 1)%R) boxes out.
Proof.
  intros H1 H2 H3 H4 H5 H6 H7 H8 HF HD HT.
  destruct (job_ok L skip q workers rnd choose order fs sheet X files boxes grid H1 H2 H3 H4 H5 H6 H7 H8) as (out & E & HO).
  { intros file Hf. destruct (HF file Hf) as (A & B & C & _ & _ & G). auto. }
  exists out. split; [exact E|]. clear E.
  assert (HL : Forall (fun s => s_seg (sf_hd (fst s)) = seg /\ s_count (sf_hd (fst s)) = cnt) (map (fun file => (sheet file, X file)) files)).
  { rewrite Forall_map. apply Forall_forall. intros file Hf. destruct (HF file Hf) as (_ & _ & _ & A & B & _). auto. }
  assert (HSg : 0 < skip <= seg /\ 0 < cnt).
  { destruct files as [|g r]; [congruence|]. destruct (HF g (or_introl eq_refl)) as (_ & (_ & A & B & _) & _ & E1 & E2 & _). rewrite <- E1, <- E2. auto. }
  clear HF H1 H2. induction HO as [|b b' bs bs' HR _ IH]; constructor.
  - intros HW. inversion_clear H8 as [|? ? HB _].
    rewrite (mean_ok L skip _ _ b b' HB HW (units_len rnd (rb_pts b) (Z.lt_le_incl _ _ (proj1 (proj2 (proj2 HB))))) ltac:(eapply Forall_impl; [|exact HL]; cbv beta; intros s [-> ->]; tauto) HR).
    f_equal. apply (shares_tile _ seg cnt); [tauto|exact HL|]. unfold zlen. rewrite map_length. exact HT.
  - apply IH. now inversion H8.
Qed.

(** ** An example *)
Lemma floor_eq x k : (IZR k <= x < IZR k + 1)%R -> Raux.Zfloor x = k.
Proof. intros H. apply Raux.Zfloor_imp. rewrite plus_IZR. exact H. Qed.

Lemma real_cells : sheet_cells (ND := RNum) (NF := RNum) (fun x => x) (sf_hd real_sheet) 4 = CB (V3 0 0 0) (V3 2 2 2).
Proof.
  unfold sheet_cells, header_cells. cbn [real_sheet sf_hd s_total s_origin s_width v0 v1 v2 fst snd nfloor ndiv nadd nofZ RNum].
  rewrite (floor_eq (1 / (8 / 4)) 0) by lra. rewrite (floor_eq ((1 + 1) / (8 / 4)) 1) by lra. reflexivity.
Qed.

Lemma real_sheet_ok : sheet_ok 8 1 real_sheet (sf_xs real_sheet).
Proof.
  unfold sheet_ok. cbn [real_sheet sf_hd sf_xs s_total s_seg s_count s_grid s_origin s_width].
  split; [reflexivity|]. split; [lia|]. split; [lia|]. split; [reflexivity|]. split; [reflexivity|]. split.
  - intros a Ha. apply axis_cases in Ha. destruct Ha as [-> |[-> | ->]]; cbn [vget Z.eqb Pos.eqb v0 v1 v2]; (split; [lra|]; split; [lra|]);
      repeat (apply Forall_cons; [cbn [vget Z.eqb Pos.eqb v0 v1 v2]; lra|]); constructor.
  - assert (G : forall x, (forall a, In a [0; 1; 2] -> (1 <= vget x a <= 1 + 1)%R) -> unwrapped 8 (V3 1 1 1)%R (V3 1 1 1)%R x x).
    { intros x Hx a Ha. specialize (Hx a Ha). split; [|exists 0; lra]. apply axis_cases in Ha. destruct Ha as [-> |[-> | ->]]; exact Hx. }
    repeat (apply Forall2_cons; [apply G; intros a Ha; apply axis_cases in Ha; destruct Ha as [-> |[-> | ->]]; cbn [vget Z.eqb Pos.eqb v0 v1 v2]; lra|]). constructor.
Qed.

Lemma real_box_ok : box_ok 8 real_box.
Proof.
  unfold box_ok. cbn [real_box rb_cells rb_cw rb_pts rb_cb rb_proj rb_vals origin width].
  split; [lia|]. split; [lra|]. split; [lia|]. split; [|split; [exact I|split; reflexivity]].
  intros a Ha. apply axis_cases in Ha. destruct Ha as [-> |[-> | ->]]; cbn; lia.
Qed.

Lemma real_overlap : box_overlap (ND := RNum) (NF := RNum) (fun x => x) real_box (sf_hd real_sheet) =
  Ok (Overlap Segment3D (CB (V3 0 0 0) (V3 2 2 2)) (CB (V3 0 0 0) (V3 4 4 4)) 4 (-1)).
Proof. unfold box_overlap. cbn [real_box rb_proj rb_cb rb_cells]. rewrite real_cells. reflexivity. Qed.

Lemma real_faces units : faces_ok 8 1 real_box real_sheet (sf_xs real_sheet) units.
Proof. left. eexists. split; [exact real_overlap|reflexivity]. Qed.

Lemma real_whole : whole real_box.
Proof. intros a Ha. apply axis_cases in Ha. destruct Ha as [-> |[-> | ->]]; reflexivity. Qed.

Lemma real_mean0 : image_mean real_box = 0%R.
Proof.
  unfold image_mean. rewrite image_total_zero; [unfold Rdiv; ring|]. intros c Hc. cbn [real_box rb_vals comp].
  set (i := Z.to_nat _). clearbody i. destruct (Nat.lt_ge_cases i 64); [apply nth_repeat|apply nth_overflow; rewrite repeat_length; lia].
Qed.


Lemma quarter_in : unit_cube quarter.
Proof. unfold unit_cube, quarter. cbn [v0 v1 v2]. lra. Qed.

Lemma real_job : exists b', render_job (ND := RNum) (NF := RNum) (fun x => x) (fun x => x) (fun _ => Some real_sheet) 1
    (fun _ _ => quarter) (fun _ _ _ _ => 0) (fun _ _ => [0]) ["sheet"%string] [real_box] Density 1 = Ok [b'] /\ image_mean b' = 1%R.
Proof.
  destruct (job_mean 8 1 Density 1 (fun _ _ => quarter) (fun _ _ _ _ => 0) (fun _ _ => [0]) (fun _ => Some real_sheet)
              (fun _ => real_sheet) (fun _ => sf_xs real_sheet) ["sheet"%string] [real_box] 8 1 1) as (out & E & H); try easy.
  - intros _ _. exact quarter_in.
  - constructor; [exact real_box_ok|constructor].
  - intros file _. split; [reflexivity|]. split; [exact real_sheet_ok|]. split; [reflexivity|]. split; [reflexivity|]. split; [reflexivity|].
    intros b [<-|[]]. apply real_faces.
  - inversion H as [|? b' ? l HM HL]; subst. inversion HL; subst. exists b'. split; [exact E|].
    rewrite (HM real_whole), real_mean0. ring.
Qed.
